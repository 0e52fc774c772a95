(** What a program sees of locks: the calls it makes and what they return.
    Who holds a lock is defined by that history alone. *)
From Verif Require Import Base LockModel.

(** A simple lock is held from a successful [wait-for] until [release] is called.
    It is given up during [wait-for] on its notification. *)
Definition sl_hold1 (t : nat) (held : bool) (e : event sl_op) : bool :=
  match e with
  | ECall u SRelease | ECall u (SNotifWait _) => if (u =? t)%nat then false else held
  | ERet u (SWait _) RTrue => if (u =? t)%nat then true else held
  | ERet u (SNotifWait _) (RTrue | RFalse) => if (u =? t)%nat then true else held
  | _ => held
  end.
Definition sl_held (tr : list (event sl_op)) (t : nat) : bool := fold_left (sl_hold1 t) tr false.

(** Whether [t] held the lock when it made its latest call. *)
Definition sl_call1 (t : nat) (p : bool * bool) (e : event sl_op) : bool * bool :=
  (sl_hold1 t p.1 e, match e with ECall u _ => if (u =? t)%nat then p.1 else p.2 | _ => p.2 end).
Definition sl_held_at_call (tr : list (event sl_op)) (t : nat) : bool :=
  (fold_left (sl_call1 t) tr (false, false)).2.

(** How often [t] has taken a recursive lock and not released it. *)
Definition rl_hold1 (t : nat) (k : nat) (e : event rl_op) : nat :=
  match e with
  | ECall u RLRelease => if (u =? t)%nat then pred k else k
  | ERet u (RLWait _) RTrue => if (u =? t)%nat then S k else k
  | _ => k
  end.
Definition rl_held (tr : list (event rl_op)) (t : nat) : nat := fold_left (rl_hold1 t) tr 0%nat.
Definition rl_call1 (t : nat) (p : nat * nat) (e : event rl_op) : nat * nat :=
  (rl_hold1 t p.1 e, match e with ECall u _ => if (u =? t)%nat then p.1 else p.2 | _ => p.2 end).
Definition rl_held_at_call (tr : list (event rl_op)) (t : nat) : nat :=
  (fold_left (rl_call1 t) tr (0, 0)%nat).2.

(** Semaphores: how many waits were granted, how many releases were called and
    how many of them succeeded. *)
Definition is_grant (e : event sem_op) : bool :=
  match e with ERet _ (SemWait _) RTrue => true | _ => false end.
Definition is_release_call (e : event sem_op) : bool :=
  match e with ECall _ SemRelease => true | _ => false end.
Definition is_release_ok (e : event sem_op) : bool :=
  match e with ERet _ SemRelease RTrue => true | _ => false end.
Definition number {A} (p : A -> bool) (l : list A) : nat := length (List.filter p l).

(** Read-write locks: how often [t] holds the lock for reading and for writing,
    from the return of [wait-for] to the call of [release].  A thread that
    holds it for writing releases that. *)
Record holding := Holding { reads : nat; writes : nat; released : mode }.
Definition rw_hold1 (t : nat) (h : holding) (e : event rw_op) : holding :=
  match e with
  | ERet u (RWWait Read _) RTrue =>
    if (u =? t)%nat then Holding (S (reads h)) (writes h) (released h) else h
  | ERet u (RWWait Write _) RTrue =>
    if (u =? t)%nat then Holding (reads h) (S (writes h)) (released h) else h
  | ECall u RWRelease =>
    if (u =? t)%nat then
      match writes h with
      | S k => Holding (reads h) k Write
      | O => Holding (pred (reads h)) O Read
      end
    else h
  | _ => h
  end.
Definition rw_holding (tr : list (event rw_op)) (t : nat) : holding :=
  fold_left (rw_hold1 t) tr (Holding 0 0 Read).
Definition rw_reads (tr : list (event rw_op)) (t : nat) : nat := reads (rw_holding tr t).
Definition rw_writes (tr : list (event rw_op)) (t : nat) : nat := writes (rw_holding tr t).

(** Threads release only what they hold. *)
Definition disciplined (tr : list (event rw_op)) : Prop :=
  forall pre t post, tr = pre ++ ECall t RWRelease :: post -> (0 < rw_reads pre t + rw_writes pre t)%nat.
