(** Locks, semaphores, notifications and read-write locks:
    sources/dylan/locks.dylan, sources/dylan/notification.dylan and
    sources/lib/run-time/posix-threads.c.

    Each kind of object is a small machine: a world shared by any number of
    threads, and a function that says what one step of one thread does.  A step
    is one pthread call or one access to shared memory; a schedule is any order
    of steps.  A thread that is between two calls of the API is [Idle].  The
    [choice] of a step settles what the code leaves open: which operation is
    called next, that a wait times out, that a condition variable wakes up
    spuriously, which waiter is signalled.  [None] means that the thread cannot
    make that step now.

    The pthread calls are modelled after POSIX.  Not modelled: failures of the
    pthread calls that POSIX allows but the code can do nothing about (EINVAL,
    EAGAIN), priorities and fairness, destruction of the objects, asynchronous
    interruption of a thread, memory ordering weaker than sequential
    consistency, the emulation of pthread_mutex_timedlock for systems without
    it, the Windows version. *)
From Verif Require Import Base.
Open Scope Z_scope.

(** What a call returns to the program: success (#t, or normal return), #f
    after a time-out, or an error signalled. *)
Inductive result := RTrue | RFalse | RError.
Global Instance result_dec : EqDecision result.
Proof. solve_decision. Defined.

Inductive event (O : Type) := ECall (t : nat) (o : O) | ERet (t : nat) (o : O) (r : result).
Arguments ECall {O}. Arguments ERet {O}.

(** A thread, in the program or at point [p] of operation [o]. *)
Inductive thread (O P : Type) := Idle | Run (o : O) (p : P).
Arguments Idle {O P}. Arguments Run {O P}.

Inductive choice (O : Type) :=
| Go                (** the next step of the operation *)
| Call (o : O)      (** the program calls [o] *)
| Timeout           (** the time of a timed wait is over *)
| Spurious          (** a condition variable wakes up without a signal *)
| Pick (u : nat).   (** pthread_cond_signal wakes up thread [u] *)
Arguments Go {O}. Arguments Call {O}. Arguments Timeout {O}. Arguments Spurious {O}. Arguments Pick {O}.

(** All that can happen. *)
Section runs.
  Context {W O : Type} (step : W -> nat -> choice O -> option (W * list (event O))).
  Inductive run (w0 : W) : list (event O) -> W -> Prop :=
  | run_nil : run w0 [] w0
  | run_step tr w t c w' es :
      run w0 tr w -> step w t c = Some (w', es) -> run w0 (tr ++ es) w'.

  (** A given schedule, for examples. *)
  Fixpoint play (w : W) (tr : list (event O)) (s : list (nat * choice O)) : option (W * list (event O)) :=
    match s with
    | [] => Some (w, tr)
    | (t, c) :: s =>
      match step w t c with
      | Some (w', es) => play w' (tr ++ es) s
      | None => None
      end
    end.
End runs.

Definition remove_waiter (t : nat) (ws : list nat) : list nat :=
  List.filter (fun u => negb (u =? t)%nat) ws.
Definition waiting (t : nat) (ws : list nat) : bool := existsb (fun u => (u =? t)%nat) ws.

(** ** Simple locks with notifications *)

Inductive sl_op := SWait (timed : bool) | SRelease | SOwned
| SNotifWait (timed : bool) | SNotifRelease | SNotifReleaseAll.
Inductive sl_point := S0 | S1 | SParked | SRelock (timed_out : bool).

(** posix-threads.h:158-161 [SIMPLELOCK], and [NOTIFICATION]: the mutex (who has it), the field
    [owner], and the threads asleep in the condition variable. *)
Record sl_world := SL {
  sl_mutex : option nat; sl_owner : option nat; sl_waiters : list nat;
  sl_threads : list (thread sl_op sl_point) }.

(** posix-threads.c:1210-1255 [primitive_make_simple_lock]. *)
Definition sl_initial (n : nat) : sl_world := SL None None [] (replicate n Idle).

Definition sl_at (w : sl_world) (t : nat) (o : sl_op) (p : sl_point) : option (sl_world * list (event sl_op)) :=
  Some (SL (sl_mutex w) (sl_owner w) (sl_waiters w) (<[t := Run o p]> (sl_threads w)), []).
(** The primitive returns and the method gives [r] to the program. *)
Definition sl_ret (w : sl_world) (t : nat) (o : sl_op) (r : result) : option (sl_world * list (event sl_op)) :=
  Some (SL (sl_mutex w) (sl_owner w) (sl_waiters w) (<[t := Idle]> (sl_threads w)), [ERet t o r]).
Definition sl_with_mutex (w : sl_world) (m : option nat) : sl_world :=
  SL m (sl_owner w) (sl_waiters w) (sl_threads w).
Definition sl_with_owner (w : sl_world) (m : option nat) : sl_world :=
  SL (sl_mutex w) m (sl_waiters w) (sl_threads w).
Definition sl_with_waiters (w : sl_world) (ws : list nat) : sl_world :=
  SL (sl_mutex w) (sl_owner w) ws (sl_threads w).

(** posix-threads.c:700-725 [primitive_wait_for_simple_lock], 824-860 the timed
    one; the mutex is of type ERRORCHECK.  locks.dylan:283-295 [wait-for]. *)
Definition sl_wait (w : sl_world) (t : nat) (timed : bool) (p : sl_point) (c : choice sl_op) :=
  match p, c with
  | S0, Go =>
    match sl_mutex w with
    | None => sl_at (sl_with_mutex w (Some t)) t (SWait timed) S1
    | Some u => if (u =? t)%nat then sl_ret w t (SWait timed) RError else None
    end
  | S0, Timeout =>
    match sl_mutex w with
    | Some u => if timed && negb (u =? t)%nat then sl_ret w t (SWait timed) RFalse else None
    | None => None
    end
  | S1, Go => sl_ret (sl_with_owner w (Some t)) t (SWait timed) RTrue
  | _, _ => None
  end.

(** posix-threads.c:1002-1025 [primitive_release_simple_lock]; locks.dylan:275-280
    [release]. *)
Definition sl_release (w : sl_world) (t : nat) (p : sl_point) (c : choice sl_op) :=
  match p, c with
  | S0, Go => sl_at (sl_with_owner w None) t SRelease S1
  | S1, Go =>
    match sl_mutex w with
    | Some u =>
      if (u =? t)%nat then sl_ret (sl_with_mutex w None) t SRelease RTrue
      else sl_ret w t SRelease RError
    | None => sl_ret w t SRelease RError
    end
  | _, _ => None
  end.

(** posix-threads.c:1278-1295 [primitive_owned_simple_lock]; the result [RTrue]
    is #t. *)
Definition sl_owned (w : sl_world) (t : nat) (p : sl_point) (c : choice sl_op) :=
  match p, c with
  | S0, Go =>
    sl_ret w t SOwned
      (match sl_owner w with Some u => if (u =? t)%nat then RTrue else RFalse | None => RFalse end)
  | _, _ => None
  end.

(** posix-threads.c:797-821 [primitive_wait_for_notification], 965-999 the timed
    one; notification.dylan:69-85.  pthread_cond_wait gives the mutex back
    and falls asleep in one step, an ERRORCHECK mutex that is not the caller's is
    refused, and the mutex is taken again before it returns, also after a
    time-out. *)
Definition sl_notif_wait (w : sl_world) (t : nat) (timed : bool) (p : sl_point) (c : choice sl_op) :=
  match p, c with
  | S0, Go =>
    match sl_mutex w with
    | Some u =>
      if (u =? t)%nat then
        sl_at (sl_with_waiters (sl_with_mutex w None) (sl_waiters w ++ [t])) t (SNotifWait timed) SParked
      else sl_ret w t (SNotifWait timed) RError
    | None => sl_ret w t (SNotifWait timed) RError
    end
  | SParked, Go =>
    if waiting t (sl_waiters w) then None else sl_at w t (SNotifWait timed) (SRelock false)
  | SParked, Spurious =>
    sl_at (sl_with_waiters w (remove_waiter t (sl_waiters w))) t (SNotifWait timed) (SRelock false)
  | SParked, Timeout =>
    if timed then
      sl_at (sl_with_waiters w (remove_waiter t (sl_waiters w))) t (SNotifWait timed) (SRelock true)
    else None
  | SRelock timed_out, Go =>
    match sl_mutex w with
    | None => sl_ret (sl_with_mutex w (Some t)) t (SNotifWait timed) (if timed_out then RFalse else RTrue)
    | Some _ => None
    end
  | _, _ => None
  end.

(** posix-threads.c:1095-1115 [primitive_release_notification], 1118-1138
    [primitive_release_all_notification]; notification.dylan:57-66. *)
Definition sl_notif_release (w : sl_world) (t : nat) (p : sl_point) (c : choice sl_op) :=
  match p, c with
  | S0, Go => if (length (sl_waiters w) =? 0)%nat then sl_ret w t SNotifRelease RTrue else None
  | S0, Pick u =>
    if waiting u (sl_waiters w) then
      sl_ret (sl_with_waiters w (remove_waiter u (sl_waiters w))) t SNotifRelease RTrue
    else None
  | _, _ => None
  end.
Definition sl_notif_release_all (w : sl_world) (t : nat) (p : sl_point) (c : choice sl_op) :=
  match p, c with
  | S0, Go => sl_ret (sl_with_waiters w []) t SNotifReleaseAll RTrue
  | _, _ => None
  end.

Definition sl_step (w : sl_world) (t : nat) (c : choice sl_op)
  : option (sl_world * list (event sl_op)) :=
  match sl_threads w !! t with
  | None => None
  | Some Idle =>
    match c with
    | Call o =>
      Some (SL (sl_mutex w) (sl_owner w) (sl_waiters w) (<[t := Run o S0]> (sl_threads w)), [ECall t o])
    | _ => None
    end
  | Some (Run (SWait timed) p) => sl_wait w t timed p c
  | Some (Run SRelease p) => sl_release w t p c
  | Some (Run SOwned p) => sl_owned w t p c
  | Some (Run (SNotifWait timed) p) => sl_notif_wait w t timed p c
  | Some (Run SNotifRelease p) => sl_notif_release w t p c
  | Some (Run SNotifReleaseAll p) => sl_notif_release_all w t p c
  end.

(** ** Recursive locks *)

Inductive rl_op := RLWait (timed : bool) | RLRelease | RLOwned.
Inductive rl_point := R0 | R1 | R2.

(** posix-threads.h:163-167 [RECURSIVELOCK]: the mutex (who has it and how often), and the
    fields [owner] and [count]. *)
Record rl_world := RL {
  rl_mutex : option (nat * nat); rl_owner : option nat; rl_count : Z;
  rl_threads : list (thread rl_op rl_point) }.

(** posix-threads.c:1141-1187 [primitive_make_recursive_lock]. *)
Definition rl_initial (n : nat) : rl_world := RL None None 0 (replicate n Idle).

Definition rl_at (w : rl_world) (t : nat) (o : rl_op) (p : rl_point) : option (rl_world * list (event rl_op)) :=
  Some (RL (rl_mutex w) (rl_owner w) (rl_count w) (<[t := Run o p]> (rl_threads w)), []).
Definition rl_ret (w : rl_world) (t : nat) (o : rl_op) (r : result) : option (rl_world * list (event rl_op)) :=
  Some (RL (rl_mutex w) (rl_owner w) (rl_count w) (<[t := Idle]> (rl_threads w)), [ERet t o r]).
Definition rl_with_mutex (w : rl_world) m := RL m (rl_owner w) (rl_count w) (rl_threads w).
Definition rl_with_owner (w : rl_world) m := RL (rl_mutex w) m (rl_count w) (rl_threads w).
Definition rl_with_count (w : rl_world) n := RL (rl_mutex w) (rl_owner w) n (rl_threads w).

(** posix-threads.c:728-755 [primitive_wait_for_recursive_lock], 863-901 the
    timed one; the mutex is of type RECURSIVE.  The depth of a mutex has no
    limit here. *)
Definition rl_wait (w : rl_world) (t : nat) (timed : bool) (p : rl_point) (c : choice rl_op) :=
  match p, c with
  | R0, Go =>
    match rl_mutex w with
    | None => rl_at (rl_with_mutex w (Some (t, 1%nat))) t (RLWait timed) R1
    | Some (u, k) =>
      if (u =? t)%nat then rl_at (rl_with_mutex w (Some (t, S k))) t (RLWait timed) R1 else None
    end
  | R0, Timeout =>
    match rl_mutex w with
    | Some (u, _) => if timed && negb (u =? t)%nat then rl_ret w t (RLWait timed) RFalse else None
    | None => None
    end
  | R1, Go => rl_at (rl_with_count w (rl_count w + 1)) t (RLWait timed) R2
  | R2, Go => rl_ret (rl_with_owner w (Some t)) t (RLWait timed) RTrue
  | _, _ => None
  end.

(** posix-threads.c:1028-1051 [primitive_release_recursive_lock]. *)
Definition rl_release (w : rl_world) (t : nat) (p : rl_point) (c : choice rl_op) :=
  match p, c with
  | R0, Go =>
    match rl_mutex w with
    | Some (u, k) =>
      if (u =? t)%nat then
        rl_at (rl_with_mutex w (match k with S (S j) => Some (t, S j) | _ => None end)) t RLRelease R1
      else rl_ret w t RLRelease RError
    | None => rl_ret w t RLRelease RError
    end
  | R1, Go => rl_ret (rl_with_count w (rl_count w - 1)) t RLRelease RTrue
  | _, _ => None
  end.

(** posix-threads.c:1298-1315 [primitive_owned_recursive_lock]. *)
Definition rl_owned (w : rl_world) (t : nat) (p : rl_point) (c : choice rl_op) :=
  match p, c with
  | R0, Go =>
    match rl_owner w with
    | Some u => if (u =? t)%nat then rl_at w t RLOwned R1 else rl_ret w t RLOwned RFalse
    | None => rl_ret w t RLOwned RFalse
    end
  | R1, Go => rl_ret w t RLOwned (if rl_count w =? 0 then RFalse else RTrue)
  | _, _ => None
  end.

Definition rl_step (w : rl_world) (t : nat) (c : choice rl_op)
  : option (rl_world * list (event rl_op)) :=
  match rl_threads w !! t with
  | None => None
  | Some Idle =>
    match c with
    | Call o =>
      Some (RL (rl_mutex w) (rl_owner w) (rl_count w) (<[t := Run o R0]> (rl_threads w)), [ECall t o])
    | _ => None
    end
  | Some (Run (RLWait timed) p) => rl_wait w t timed p c
  | Some (Run RLRelease p) => rl_release w t p c
  | Some (Run RLOwned p) => rl_owned w t p c
  end.

(** ** Semaphores where POSIX semaphores are used (everywhere but on macOS) *)

Inductive sem_op := SemWait (timed : bool) | SemRelease.

(** The value of the sem_t; the maximum given to [make] is not kept. *)
Record ps_world := PS { ps_value : Z; ps_threads : list (thread sem_op unit) }.

(** SEM_VALUE_MAX *)
Definition sem_value_max : Z := 2147483647.

(** posix-threads.c:1318-1368 [primitive_make_semaphore]; [None] is the creation
    error.  sem_init refuses a value above SEM_VALUE_MAX; a negative one is
    converted to unsigned and so refused. *)
Definition ps_make (n : nat) (initial max : Z) : option ps_world :=
  if sem_value_max <? max then None
  else if (initial <? 0) || (sem_value_max <? initial) then None
  else Some (PS initial (replicate n Idle)).

Definition ps_ret (w : ps_world) (t : nat) (o : sem_op) (r : result) : option (ps_world * list (event sem_op)) :=
  Some (PS (ps_value w) (<[t := Idle]> (ps_threads w)), [ERet t o r]).
Definition ps_with_value (w : ps_world) (v : Z) : ps_world := PS v (ps_threads w).

(** posix-threads.c:758-794 [primitive_wait_for_semaphore], 904-962 the timed
    one; 1054-1092 [primitive_release_semaphore].  [Spurious] is sem_wait
    interrupted by a signal handler. *)
Definition ps_step (w : ps_world) (t : nat) (c : choice sem_op)
  : option (ps_world * list (event sem_op)) :=
  match ps_threads w !! t with
  | None => None
  | Some Idle =>
    match c with
    | Call o => Some (PS (ps_value w) (<[t := Run o tt]> (ps_threads w)), [ECall t o])
    | _ => None
    end
  | Some (Run (SemWait timed) _) =>
    match c with
    | Go => if 0 <? ps_value w then ps_ret (ps_with_value w (ps_value w - 1)) t (SemWait timed) RTrue else None
    | Timeout => if timed && negb (0 <? ps_value w) then ps_ret w t (SemWait timed) RFalse else None
    | Spurious => ps_ret w t (SemWait timed) RError
    | _ => None
    end
  | Some (Run SemRelease _) =>
    match c with
    | Go =>
      if ps_value w <? sem_value_max then ps_ret (ps_with_value w (ps_value w + 1)) t SemRelease RTrue
      else ps_ret w t SemRelease RError
    | _ => None
    end
  end.

(** ** Semaphores where POSIX semaphores are not used (macOS) *)

Inductive es_point := E0 | E1 | EUpd | E2 | E3 | EParked | ERelock (timed_out : bool).

(** The fields [mutex], [cond], [count] and [max_count]. *)
Record es_world := ES {
  es_mutex : option nat; es_waiters : list nat; es_count : Z; es_max : Z;
  es_threads : list (thread sem_op es_point) }.

(** posix-threads.c:1318-1368 [primitive_make_semaphore]. *)
Definition es_make (n : nat) (initial max : Z) : es_world := ES None [] initial max (replicate n Idle).

Definition es_at (w : es_world) (t : nat) (o : sem_op) (p : es_point) : option (es_world * list (event sem_op)) :=
  Some (ES (es_mutex w) (es_waiters w) (es_count w) (es_max w) (<[t := Run o p]> (es_threads w)), []).
Definition es_ret (w : es_world) (t : nat) (o : sem_op) (r : result) : option (es_world * list (event sem_op)) :=
  Some (ES (es_mutex w) (es_waiters w) (es_count w) (es_max w) (<[t := Idle]> (es_threads w)), [ERet t o r]).
Definition es_with_mutex (w : es_world) m := ES m (es_waiters w) (es_count w) (es_max w) (es_threads w).
Definition es_with_waiters (w : es_world) ws := ES (es_mutex w) ws (es_count w) (es_max w) (es_threads w).
Definition es_with_count (w : es_world) n := ES (es_mutex w) (es_waiters w) n (es_max w) (es_threads w).

(** posix-threads.c:773-790 and 924-956: lock, test, decrement, unlock.  The
    mutex is of the default type. *)
Definition es_wait (w : es_world) (t : nat) (timed : bool) (p : es_point) (c : choice sem_op) :=
  let o := SemWait timed in
  match p, c with
  | E0, Go =>
    match es_mutex w with
    | None => es_at (es_with_mutex w (Some t)) t o E1
    | Some _ => None
    end
  | E1, Go =>
    if es_count w <=? 0 then
      es_at (es_with_waiters (es_with_mutex w None) (es_waiters w ++ [t])) t o EParked
    else es_at w t o EUpd
  | EUpd, Go => es_at (es_with_count w (es_count w - 1)) t o E2
  | E2, Go => es_ret (es_with_mutex w None) t o RTrue
  | E3, Go => es_ret (es_with_mutex w None) t o RFalse
  | EParked, Go => if waiting t (es_waiters w) then None else es_at w t o (ERelock false)
  | EParked, Spurious => es_at (es_with_waiters w (remove_waiter t (es_waiters w))) t o (ERelock false)
  | EParked, Timeout =>
    if timed then es_at (es_with_waiters w (remove_waiter t (es_waiters w))) t o (ERelock true) else None
  | ERelock timed_out, Go =>
    match es_mutex w with
    | None => es_at (es_with_mutex w (Some t)) t o (if timed_out then E3 else E1)
    | Some _ => None
    end
  | _, _ => None
  end.

(** posix-threads.c:1070-1089: lock, test, increment, unlock, signal. *)
Definition es_release (w : es_world) (t : nat) (p : es_point) (c : choice sem_op) :=
  match p, c with
  | E0, Go =>
    match es_mutex w with
    | None => es_at (es_with_mutex w (Some t)) t SemRelease E1
    | Some _ => None
    end
  | E1, Go =>
    if es_max w <=? es_count w then es_ret w t SemRelease RError
    else es_at w t SemRelease EUpd
  | EUpd, Go => es_at (es_with_count w (es_count w + 1)) t SemRelease E2
  | E2, Go => es_at (es_with_mutex w None) t SemRelease E3
  | E3, Go => if (length (es_waiters w) =? 0)%nat then es_ret w t SemRelease RTrue else None
  | E3, Pick u =>
    if waiting u (es_waiters w) then
      es_ret (es_with_waiters w (remove_waiter u (es_waiters w))) t SemRelease RTrue
    else None
  | _, _ => None
  end.

Definition es_step (w : es_world) (t : nat) (c : choice sem_op)
  : option (es_world * list (event sem_op)) :=
  match es_threads w !! t with
  | None => None
  | Some Idle =>
    match c with
    | Call o =>
      Some (ES (es_mutex w) (es_waiters w) (es_count w) (es_max w) (<[t := Run o E0]> (es_threads w)),
            [ECall t o])
    | _ => None
    end
  | Some (Run (SemWait timed) p) => es_wait w t timed p c
  | Some (Run SemRelease p) => es_release w t p c
  end.

(** ** Read-write locks *)

Inductive mode := Read | Write.
Inductive rw_op := RWWait (m : mode) (timed : bool) | RWRelease.
(** locks.dylan:326 [<lock-state>]. *)
Inductive lock_state := Count (n : Z) | Writer (t : nat).

Inductive rw_point :=
| WEnter                      (** with-lock (inner-lock) *)
| WTest                       (** the test of [until], or the first test of [release] *)
| WSleep                      (** wait-for(monitor) *)
| WParked                     (** asleep in it *)
| WRelock (timed_out : bool)  (** taking the inner lock again *)
| WGet                        (** reading the state for [+ 1] *)
| WSet (s : lock_state)       (** setting the state *)
| WBroadcast                  (** release-all(monitor) *)
| WLeave (r : result).        (** release(inner-lock), the cleanup of with-lock *)

(** locks.dylan:329-332: the slot [rw-lock-state], the inner lock and the monitor
    (the threads asleep in it).  The field [owner] of the inner lock plays no
    part. *)
Record rw_world := RW {
  rw_inner : option nat; rw_asleep : list nat; rw_state : lock_state;
  rw_threads : list (thread rw_op rw_point) }.

Definition rw_initial (n : nat) : rw_world := RW None [] (Count 0) (replicate n Idle).

Definition rw_at (w : rw_world) (t : nat) (o : rw_op) (p : rw_point) : option (rw_world * list (event rw_op)) :=
  Some (RW (rw_inner w) (rw_asleep w) (rw_state w) (<[t := Run o p]> (rw_threads w)), []).
Definition rw_ret (w : rw_world) (t : nat) (o : rw_op) (r : result) : option (rw_world * list (event rw_op)) :=
  Some (RW (rw_inner w) (rw_asleep w) (rw_state w) (<[t := Idle]> (rw_threads w)), [ERet t o r]).
Definition rw_with_inner (w : rw_world) m := RW m (rw_asleep w) (rw_state w) (rw_threads w).
Definition rw_with_asleep (w : rw_world) ws := RW (rw_inner w) ws (rw_state w) (rw_threads w).
Definition rw_with_state (w : rw_world) s := RW (rw_inner w) (rw_asleep w) s (rw_threads w).

(** locks.dylan:433-452 [locked-for-writing?], [locked-for-reading?],
    [lock-is-free?], [lock-is-free-for-reading?]. *)
Definition locked_for_writing (t : nat) (s : lock_state) : bool :=
  match s with Writer u => (u =? t)%nat | Count _ => false end.
Definition locked_for_reading (s : lock_state) : bool :=
  match s with Count n => 0 <? n | Writer _ => false end.
Definition lock_is_free (s : lock_state) : bool :=
  match s with Count n => n =? 0 | Writer _ => false end.
Definition lock_is_free_for_reading (s : lock_state) : bool :=
  match s with Count _ => true | Writer _ => false end.

(** with-lock (inner-lock) ... end (thread-macros.dylan:77-102): both ends. *)
Definition rw_enter (w : rw_world) (t : nat) (o : rw_op) :=
  match rw_inner w with
  | None => rw_at (rw_with_inner w (Some t)) t o WTest
  | Some u => if (u =? t)%nat then rw_ret w t o RError else None
  end.
Definition rw_leave (w : rw_world) (t : nat) (o : rw_op) (r : result) :=
  match rw_inner w with
  | Some u => if (u =? t)%nat then rw_ret (rw_with_inner w None) t o r else rw_ret w t o RError
  | None => rw_ret w t o RError
  end.

(** locks.dylan:382-420 [wait-for]. *)
Definition rw_wait (w : rw_world) (t : nat) (m : mode) (timed : bool) (p : rw_point)
    (c : choice rw_op) :=
  let o := RWWait m timed in
  match p, c with
  | WEnter, Go => rw_enter w t o
  | WTest, Go =>
    match m with
    | Write => rw_at w t o (if lock_is_free (rw_state w) then WSet (Writer t) else WSleep)
    | Read => rw_at w t o (if lock_is_free_for_reading (rw_state w) then WGet else WSleep)
    end
  | WSleep, Go =>
    match rw_inner w with
    | Some u =>
      if (u =? t)%nat then rw_at (rw_with_asleep (rw_with_inner w None) (rw_asleep w ++ [t])) t o WParked
      else rw_at w t o (WLeave RError)
    | None => rw_at w t o (WLeave RError)
    end
  | WParked, Go => if waiting t (rw_asleep w) then None else rw_at w t o (WRelock false)
  | WParked, Spurious => rw_at (rw_with_asleep w (remove_waiter t (rw_asleep w))) t o (WRelock false)
  | WParked, Timeout =>
    if timed then rw_at (rw_with_asleep w (remove_waiter t (rw_asleep w))) t o (WRelock true) else None
  | WRelock timed_out, Go =>
    match rw_inner w with
    | None => rw_at (rw_with_inner w (Some t)) t o (if timed_out then WLeave RFalse else WTest)
    | Some _ => None
    end
  | WGet, Go =>
    match rw_state w with
    | Count n => rw_at w t o (WSet (Count (n + 1)))
    | Writer _ => rw_at w t o (WLeave RError)
    end
  | WSet s, Go => rw_at (rw_with_state w s) t o (WLeave RTrue)
  | WLeave r, Go => rw_leave w t o r
  | _, _ => None
  end.

(** locks.dylan:350-379 [release]. *)
Definition rw_release (w : rw_world) (t : nat) (p : rw_point) (c : choice rw_op) :=
  let o := RWRelease in
  match p, c with
  | WEnter, Go => rw_enter w t o
  | WTest, Go =>
    if locked_for_writing t (rw_state w) then rw_at w t o (WSet (Count 0))
    else
      match rw_state w with
      | Count n => if 0 <? n then rw_at w t o (WSet (Count (n - 1))) else rw_at w t o (WLeave RError)
      | Writer _ => rw_at w t o (WLeave RError)
      end
  | WSet s, Go =>
    rw_at (rw_with_state w s) t o (if lock_is_free s then WBroadcast else WLeave RTrue)
  | WBroadcast, Go => rw_at (rw_with_asleep w []) t o (WLeave RTrue)
  | WLeave r, Go => rw_leave w t o r
  | _, _ => None
  end.

Definition rw_step (w : rw_world) (t : nat) (c : choice rw_op)
  : option (rw_world * list (event rw_op)) :=
  match rw_threads w !! t with
  | None => None
  | Some Idle =>
    match c with
    | Call o =>
      Some (RW (rw_inner w) (rw_asleep w) (rw_state w) (<[t := Run o WEnter]> (rw_threads w)), [ECall t o])
    | _ => None
    end
  | Some (Run (RWWait m timed) p) => rw_wait w t m timed p c
  | Some (Run RWRelease p) => rw_release w t p c
  end.

(** locks.dylan:423-429 [owned?], [owned-for-reading?], for thread [t]. *)
Definition rw_owned (w : rw_world) (t : nat) : bool := locked_for_writing t (rw_state w).
Definition rw_owned_for_reading (w : rw_world) : bool := locked_for_reading (rw_state w).
