(** Non-local exits of the C back end: sources/lib/run-time/c-run-time-nlx.c and the
    code that sources/dfmc/c-back-end/c-emit-computation.dylan:1224-1309 emits.
    Modelled: bind exit and unwind-protect frames, the per-thread chain of the
    latter, setjmp and longjmp.  Simplified: values and events are numbers, a frame
    is never reused for another one, exits that the compiler turns into a goto
    (c-emit-computation.dylan:1267-1273) are not there, one thread.  The checks under
    VERIFY_NLX are not compiled in (run-time.h:536). *)
From Verif Require Import Base.
Local Open Scope nat_scope.
Local Open Scope outcome_scope.

(** Dylan programs, as far as control goes.  A block's body gets its exit procedure,
    which is a number here, so that it can be stored, returned and called too late. *)
Inductive prog :=
| Return (vs : list nat)
| Emit (e : nat)
| Bind (p : prog) (k : list nat -> prog)
| Block (f : nat -> prog)
| Exit (b : nat) (vs : list nat)
| Protect (body cleanup : prog).

(** run-time.h:538-555.  [destination] is in the control stack below. *)
Record bind_exit_frame := BindExitFrame { exit_values : list nat; present : option nat }.
Record unwind_protect_frame := UnwindFrame {
  saved_values : list nat; ultimate : option nat; previous : option nat }.

(** The C stack: what is left to do in the functions that are active.  A frame's
    [destination] (jmp_buf) is good as long as its function is active. *)
Inductive control :=
| AfterBind (k : list nat -> prog)
| InBlock (b : nat)
| InProtected (u : nat) (cleanup : prog)
| InCleanup (u : nat) (cleanup : prog).

(** What runs: a program, the return of values, or nlx_step. *)
Inductive focus := Run (p : prog) | Values (vs : list nat) | Step (b : nat).

(** run-time.h:579-593: [current] is uwp_frame of the TEB. *)
Record machine := Machine {
  at_ : focus; stack : list control; current : option nat;
  exits : list bind_exit_frame; unwinds : list unwind_protect_frame; trace : list nat }.

(** A null or dangling pointer is undefined behaviour. *)
Definition unwind_of (m : machine) (u : option nat) : outcome unwind_protect_frame :=
  match u with
  | Some u => match unwinds m !! u with Some f => Val f | None => UB end
  | None => UB
  end.
Definition exit_of (m : machine) (b : nat) : outcome bind_exit_frame :=
  match exits m !! b with Some f => Val f | None => UB end.
Definition set_ultimate (l : list unwind_protect_frame) (u : nat) (b : option nat) : list unwind_protect_frame :=
  match l !! u with
  | Some f => <[u := UnwindFrame (saved_values f) b (previous f)]> l
  | None => l
  end.

(** _longjmp (run-time.h:573): the functions above the one that called _setjmp are
    gone; undefined if that one is gone itself. *)
Fixpoint to_block (b : nat) (k : list control) : outcome (list control) :=
  match k with
  | [] => UB
  | InBlock b' :: k => if b =? b' then Val k else to_block b k
  | _ :: k => to_block b k
  end.
Fixpoint to_protect (u : nat) (k : list control) : outcome (prog * list control) :=
  match k with
  | [] => UB
  | (InProtected u' c | InCleanup u' c) :: k => if u =? u' then Val (c, k) else to_protect u k
  | _ :: k => to_protect u k
  end.

(** c-run-time-nlx.c:122-157 [nlx_step]; after the jump to the exit, FRAME_RETVAL
    (267-279) and the rest of the bind-exit (c-emit-computation.dylan:1245-1256);
    after the jump to an unwind-protect frame, its cleanup (1295-1304). *)
Definition nlx_step (m : machine) (b : nat) : outcome machine :=
  do f <- exit_of m b ;
  if decide (current m = present f) then
    do _ <- unwind_of m (current m) ;
    let us := match current m with Some u => set_ultimate (unwinds m) u None | None => unwinds m end in
    do k <- to_block b (stack m) ;
    Val (Machine (Values (exit_values f)) k (current m) (exits m) us (trace m))
  else
    match current m with
    | None => UB
    | Some next =>
      do nf <- unwind_of m (Some next) ;
      do _ <- unwind_of m (previous nf) ;
      let us := match previous nf with Some u => set_ultimate (unwinds m) u (Some b) | None => unwinds m end in
      do ' (c, k) <- to_protect next (stack m) ;
      Val (Machine (Run c) (InCleanup next c :: k) (previous nf) (exits m) us (trace m))
    end.

(** c-run-time-nlx.c:159-181 [FALL_THROUGH_UNWIND]. *)
Definition fall_through_unwind (m : machine) (vs : list nat) : outcome (list unwind_protect_frame) :=
  do f <- unwind_of m (current m) ;
  match current m with
  | Some u => Val (<[u := UnwindFrame vs None (previous f)]> (unwinds m))
  | None => UB
  end.

(** c-run-time-nlx.c:183-217 [CONTINUE_UNWIND]. *)
Definition continue_unwind (m : machine) (k : list control) : outcome machine :=
  do f <- unwind_of m (current m) ;
  match ultimate f with
  | Some b => Val (Machine (Step b) k (current m) (exits m) (unwinds m) (trace m))
  | None => Val (Machine (Values (saved_values f)) k (previous f) (exits m) (unwinds m) (trace m))
  end.

(** One step of the emitted code. *)
Definition step (m : machine) : outcome machine :=
  let stay a k := Val (Machine a k (current m) (exits m) (unwinds m) (trace m)) in
  match at_ m with
  | Run (Return vs) => stay (Values vs) (stack m)
  | Run (Emit e) => Val (Machine (Values []) (stack m) (current m) (exits m) (unwinds m) (trace m ++ [e]))
  | Run (Bind p k) => stay (Run p) (AfterBind k :: stack m)
  (* c-emit-computation.dylan:1243-1246; c-run-time-nlx.c:236-246 SETUP_EXIT_FRAME *)
  | Run (Block f) =>
    let b := length (exits m) in
    Val (Machine (Run (f b)) (InBlock b :: stack m) (current m)
           (exits m ++ [BindExitFrame [] (current m)]) (unwinds m) (trace m))
  (* c-emit-computation.dylan:1282-1284; c-run-time-nlx.c:219-234 NLX *)
  | Run (Exit b vs) =>
    do f <- exit_of m b ;
    Val (Machine (Step b) (stack m) (current m) (<[b := BindExitFrame vs (present f)]> (exits m)) (unwinds m) (trace m))
  (* c-emit-computation.dylan:1293-1299; c-run-time-nlx.c:248-261 SETUP_UNWIND_FRAME *)
  | Run (Protect body c) =>
    let u := length (unwinds m) in
    Val (Machine (Run body) (InProtected u c :: stack m) (Some u) (exits m)
           (unwinds m ++ [UnwindFrame [] None (current m)]) (trace m))
  | Step b => nlx_step m b
  | Values vs =>
    match stack m with
    | [] => Val m
    | AfterBind k :: s => stay (Run (k vs)) s
    (* c-emit-computation.dylan:1257-1261 *)
    | InBlock _ :: s => stay (Values vs) s
    (* c-emit-computation.dylan:1300-1304 *)
    | InProtected u c :: s =>
      do us <- fall_through_unwind m vs ;
      Val (Machine (Run c) (InCleanup u c :: s) (current m) (exits m) us (trace m))
    (* c-emit-computation.dylan:1305 *)
    | InCleanup _ _ :: s => continue_unwind m s
    end
  end.

(** posix-threads.c:196: a thread starts with the top frame. *)
Definition start (p : prog) : machine :=
  Machine (Run p) [] (Some 0) [] [UnwindFrame [] None None] [].

Inductive steps : machine -> machine -> Prop :=
| steps_refl m : steps m m
| steps_next m m' m'' : step m = Val m' -> steps m' m'' -> steps m m''.
