(** What block, exit procedures and cleanup clauses mean (DRM, chapter 7, "block"):
    a cleanup clause runs once whenever its body is left, before the block that is
    exited to returns the exit's values. *)
From Verif Require Import Base NlxModel.
Local Open Scope nat_scope.

(** How a program ends: with values, or on its way to block [b]. *)
Inductive ending := Normal (vs : list nat) | Exiting (b : nat) (vs : list nat) | TooLate.

(** [fresh] numbers the blocks, [live] are the blocks that have not been left. *)
Fixpoint meaning (live : list nat) (fresh : nat) (p : prog) : ending * list nat * nat :=
  match p with
  | Return vs => (Normal vs, [], fresh)
  | Emit e => (Normal [], [e], fresh)
  | Bind p k =>
    let '(r, t, n) := meaning live fresh p in
    match r with
    | Normal vs => let '(r', t', n') := meaning live n (k vs) in (r', t ++ t', n')
    | _ => (r, t, n)
    end
  | Block f =>
    let '(r, t, n) := meaning (fresh :: live) (S fresh) (f fresh) in
    match r with
    | Exiting b vs => if b =? fresh then (Normal vs, t, n) else (r, t, n)
    | _ => (r, t, n)
    end
  | Exit b vs => if decide (b ∈ live) then (Exiting b vs, [], fresh) else (TooLate, [], fresh)
  | Protect body c =>
    let '(r, t, n) := meaning live fresh body in
    match r with
    | TooLate => (r, t, n)
    | _ =>
      let '(r', t', n') := meaning live n c in
      (match r' with Normal _ => r | _ => r' end, t ++ t', n')
    end
  end.

(** The programs the code gets right.  [unwinding] says that the program is, or was
    called from, a cleanup clause that an exit runs (and not the body of an
    unwind-protect in that clause); [busy] are the blocks of the exits under way. *)
Fixpoint calm (live : list nat) (fresh : nat) (unwinding : bool) (busy : list nat) (p : prog) : Prop :=
  match p with
  | Return _ | Emit _ | Exit _ _ => True
  | Bind p k =>
    calm live fresh unwinding busy p /\
    match meaning live fresh p with
    | (Normal vs, _, n) => calm live n unwinding busy (k vs)
    | _ => True
    end
  | Block f =>
    calm (fresh :: live) (S fresh) unwinding busy (f fresh) /\
    (* an exit must not end inside a cleanup clause that an exit runs *)
    match meaning (fresh :: live) (S fresh) (f fresh) with
    | (Exiting b _, _, _) => b = fresh -> unwinding = false
    | _ => True
    end
  | Protect body c =>
    calm live fresh false busy body /\
    match meaning live fresh body with
    | (Normal vs, _, n) =>
      calm live n false busy c /\
      (* no exit from a cleanup clause that runs because its body has returned *)
      match meaning live n c with (Exiting _ _, _, _) => False | _ => True end
    | (Exiting b vs, _, n) =>
      calm live n true (b :: busy) c /\
      (* an exit that another one replaces had not replaced one to the same block *)
      match meaning live n c with (Exiting b' _, _, _) => b' <> b -> b ∉ busy | _ => True end
    | (TooLate, _, _) => True
    end
  end.

(** Programs whose cleanup clauses make no exits at all. *)
Fixpoint exit_free (p : prog) : Prop :=
  match p with
  | Return _ | Emit _ => True
  | Bind p k => exit_free p /\ forall vs, exit_free (k vs)
  | Block f => forall b, exit_free (f b)
  | Exit _ _ => False
  | Protect body c => exit_free body /\ exit_free c
  end.
Fixpoint tidy (p : prog) : Prop :=
  match p with
  | Return _ | Emit _ | Exit _ _ => True
  | Bind p k => tidy p /\ forall vs, tidy (k vs)
  | Block f => forall b, tidy (f b)
  | Protect body c => tidy body /\ exit_free c
  end.

(** The run of a program ends with [vs], having done [t], and from each point of the
    run it gets there. *)
Definition finishes (p : prog) (vs t : list nat) : Prop :=
  exists m, steps (start p) m /\ at_ m = Values vs /\ stack m = [] /\ trace m = t /\
    current m = current (start p) /\ forall m', steps (start p) m' -> steps m' m.

(** Cleanup clauses [cs], outermost first, around [p]; clause [c] records [c]. *)
Definition protected_by (cs : list nat) (p : prog) : prog :=
  fold_right (fun c p => Protect p (Emit c)) p cs.
