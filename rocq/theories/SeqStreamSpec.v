(** What the documentation (documentation/source/library-reference/io/streams.rst)
    says about a stream over a sequence: it has contents and a position. *)
From Verif Require Import Base SeqStreamModel.
Local Open Scope Z_scope.
Local Open Scope outcome_scope.

Section spec.
  Context {A : Type} (fill : A) (is_nl is_cr : A -> bool).

  (** [pristine]: the stream has not been cleared yet. *)
  Record view := View { contents : list A; position : nat; pristine : bool }.

  Inductive op :=
  | ReadElement (supplied : bool) | UnreadElement (x : A) | Peek (supplied : bool)
  | Read (n : Z) (supplied : bool) | ReadInto (n : Z) (into : list A) (start : Z) (supplied : bool)
  | ReadTo (test : A -> bool) (supplied : bool) | ReadThrough (test : A -> bool) (supplied : bool)
  | ReadToEnd | SkipThrough (test : A -> bool) | ReadLine (supplied : bool)
  | WriteElement (x : A) | Write (src : list A) (start : Z) (stop : option Z)
  | AtEnd | Size | Position | SetPosition (p : Z) | Adjust (delta : Z) (from : reference)
  | Contents (clear : bool).

  Inductive result :=
  | RElement (a : answer A A) | RSequence (a : answer A (list A)) | RInto (into : list A) (a : answer A Z)
  | RLine (a : answer A (list A * bool)) | RFound (a : answer A bool)
  | RDone (a : answer A ()) | RBool (b : bool) | RInt (z : Z).

  Definition remaining (v : view) : list A := drop (position v) (contents v).
  Definition advance (v : view) (k : nat) : view := View (contents v) (position v + k) (pristine v).
  Definition move (v : view) (p : nat) : view := View (contents v) p (pristine v).
  Definition eos {R} (supplied : bool) : answer A R := if supplied then EosValue else EosError.

  (** The elements before the first one that satisfies [test], and that one. *)
  Fixpoint split_at (test : A -> bool) (l : list A) : list A * option A :=
    match l with
    | [] => ([], None)
    | x :: l => if test x then ([], Some x) else let '(b, m) := split_at test l in (x :: b, m)
    end.

  (** The first line and the length of its terminator: \n, \r or \r\n. *)
  Fixpoint split_line (l : list A) : list A * nat :=
    match l with
    | [] => ([], 0%nat)
    | x :: l =>
      if is_nl x then ([], 1%nat)
      else if is_cr x then ([], match l with y :: _ => if is_nl y then 2%nat else 1%nat | [] => 1%nat end)
      else let '(line, k) := split_line l in (x :: line, k)
    end.

  (** Overwrite from the position on; a gap is filled. *)
  Definition overwrite (v : view) (src : list A) : view :=
    View (take (position v) (contents v) ++ replicate (position v - length (contents v)) fill ++ src ++
          drop (position v + length src) (contents v))
         (position v + length src) (pristine v).

  Definition move_to (v : view) (p : Z) : view * result :=
    if p <? 0 then (v, RDone Failed) else (move v (Z.to_nat p), RDone (Ret ())).

  Definition spec (d : direction) (v : view) (o : op) : view * result :=
    let r := remaining v in
    let avail := Z.of_nat (length r) in
    match o with
    | ReadElement sup =>
      if readable d then match r with x :: _ => (advance v 1, RElement (Ret x)) | [] => (v, RElement (eos sup)) end
      else (v, RElement Failed)
    | Peek sup =>
      if readable d then match r with x :: _ => (v, RElement (Ret x)) | [] => (v, RElement (eos sup)) end
      else (v, RElement Failed)
    | UnreadElement x =>
      if readable d then (View (<[(position v - 1)%nat := x]> (contents v)) (position v - 1) (pristine v), RElement (Ret x))
      else (v, RElement Failed)
    | Read n sup =>
      if negb (readable d) || (n <? 0) then (v, RSequence Failed)
      else if n <=? avail then (advance v (Z.to_nat n), RSequence (Ret (take (Z.to_nat n) r)))
      else (advance v (length r),
            RSequence (if sup then EosValue else match r with [] => EosError | _ => IncompleteRead avail r end))
    | ReadInto n into start sup =>
      if readable d then
        (advance v (Z.to_nat n),
         RInto (take (Z.to_nat start) into ++ take (Z.to_nat n) r ++ drop (Z.to_nat (start + n)) into) (Ret n))
      else (v, RInto into Failed)
    | ReadTo test sup =>
      if negb (readable d) then (v, RLine Failed)
      else match r with
           | [] => (v, RLine (eos sup))
           | _ => match split_at test r with
                  | (b, Some _) => (advance v (length b + 1), RLine (Ret (b, true)))
                  | (b, None) => (advance v (length b), RLine (Ret (b, false)))
                  end
           end
    | ReadThrough test sup =>
      if negb (readable d) then (v, RLine Failed)
      else match r with
           | [] => (v, RLine (eos sup))
           | _ => match split_at test r with
                  | (b, Some x) => (advance v (length b + 1), RLine (Ret (b ++ [x], true)))
                  | (b, None) => (advance v (length b), RLine (Ret (b, false)))
                  end
           end
    | ReadToEnd => if readable d then (advance v (length r), RSequence (Ret r)) else (v, RSequence Failed)
    | SkipThrough test =>
      if negb (readable d) then (v, RFound Failed)
      else match split_at test r with
           | (b, Some _) => (advance v (length b + 1), RFound (Ret true))
           | (b, None) => (advance v (length b), RFound (Ret false))
           end
    | ReadLine sup =>
      if negb (readable d) then (v, RLine Failed)
      else match r with
           | [] => (v, RLine (eos sup))
           | _ => let '(line, k) := split_line r in
                  (advance v (length line + k), RLine (Ret (line, (0 <? k)%nat)))
           end
    | WriteElement x => if writable d then (overwrite v [x], RDone (Ret ())) else (v, RDone Failed)
    | Write src start stop =>
      let stop := default (zlen src) stop in
      if writable d && (0 <=? start) && (start <=? stop) && (stop <=? zlen src)
      then (overwrite v (take (Z.to_nat (stop - start)) (drop (Z.to_nat start) src)), RDone (Ret ()))
      else (v, RDone Failed)
    | AtEnd => (v, RBool (readable d && (length (contents v) <=? position v)%nat))
    | Size => (v, RInt (zlen (contents v)))
    | Position => (v, RInt (Z.of_nat (position v)))
    | SetPosition p => move_to v p
    | Adjust delta FromStart => move_to v delta
    | Adjust delta FromCurrent => move_to v (Z.of_nat (position v) + delta)
    | Adjust delta FromEnd => move_to v (zlen (contents v) + delta)
    | Contents clear => ((if clear then View [] 0 false else v), RSequence (Ret (contents v)))
    end.

  (** The calls for which the code does what the documentation says.  [st] is
      the [start:] of the stream.  What is missing is refuted below, or undefined. *)
  Definition target_ok (d : direction) (st : Z) (v : view) (t : Z) : Prop :=
    t < 0 \/ (st <= t /\ (t <= zlen (contents v) \/ (writable d = true /\ pristine v = true))).
  Definition inside (v : view) : Prop := (position v <= length (contents v))%nat.
  Definition allowed (d : direction) (st : Z) (v : view) (o : op) : Prop :=
    match o with
    | UnreadElement _ => inside v /\ (0 < position v)%nat
    | Read _ _ => inside v
    | ReadInto n into start _ =>
      inside v /\ 0 <= n <= Z.of_nat (length (remaining v)) /\ 0 <= start /\ start + n <= zlen into
    | SetPosition p => p < 0 \/ (st <= p <= zlen (contents v))
    | Adjust delta FromStart => target_ok d st v delta
    | Adjust delta FromCurrent => target_ok d st v (Z.of_nat (position v) + delta)
    | Adjust _ FromEnd => False
    | Contents clear => clear = true -> writable d = true
    | _ => True
    end.

  Fixpoint allowed_history (d : direction) (st : Z) (v : view) (os : list op) : Prop :=
    match os with
    | [] => True
    | o :: os => allowed d st v o /\ allowed_history d st (spec d v o).1 os
    end.
  Fixpoint spec_history (d : direction) (v : view) (os : list op) : view * list result :=
    match os with
    | [] => (v, [])
    | o :: os => let '(v, r) := spec d v o in let '(v, rs) := spec_history d v os in (v, r :: rs)
    end.

  (** The code, one call. *)
  Definition map_found (a : answer A (list A * bool)) : answer A bool :=
    match a with Ret (_, b) => Ret b | EosValue => EosValue | EosError => EosError
               | IncompleteRead c l => IncompleteRead c l | Failed => Failed end.
  Definition map_first (a : answer A (list A * bool)) : answer A (list A) :=
    match a with Ret (l, _) => Ret l | EosValue => EosValue | EosError => EosError
               | IncompleteRead c l => IncompleteRead c l | Failed => Failed end.
  Definition call (fuel : nat) (s : stream) (o : op) : outcome (stream * result) :=
    match o with
    | ReadElement sup => let '(s, a) := read_element s sup in Val (s, RElement a)
    | UnreadElement x => let '(s, a) := unread_element s x in Val (s, RElement a)
    | Peek sup => let '(s, a) := peek s sup in Val (s, RElement a)
    | Read n sup => let '(s, a) := read s n sup in Val (s, RSequence a)
    | ReadInto n into start sup => let '(s, d, a) := read_into s n into start sup in Val (s, RInto d a)
    | ReadTo test sup => do ' (s, a) <- read_to fuel s test sup ; Val (s, RLine a)
    | ReadThrough test sup => do ' (s, a) <- read_through fuel s test sup ; Val (s, RLine a)
    | ReadToEnd => do ' (s, a) <- read_to_end fuel s ; Val (s, RSequence (map_first a))
    | SkipThrough test => do ' (s, a) <- skip_through fuel s test ; Val (s, RFound (map_found a))
    | ReadLine sup => do ' (s, a) <- read_line fuel s is_nl is_cr sup ; Val (s, RLine a)
    | WriteElement x => let '(s, a) := write_element fill s x in Val (s, RDone a)
    | Write src start stop => let '(s, a) := write fill s src start stop in Val (s, RDone a)
    | AtEnd => Val (s, RBool (stream_at_end s))
    | Size => Val (s, RInt (stream_size s))
    | Position => Val (s, RInt (stream_position s))
    | SetPosition p => let '(s, a) := set_stream_position s p in Val (s, RDone a)
    | Adjust delta from => let '(s, a) := adjust_position s delta from in Val (s, RDone a)
    | Contents clear => let '(s, a) := stream_contents fill s clear in Val (s, RSequence a)
    end.

  (** The loops in the calls end. *)
  Definition calls (s : stream) (o : op) (s' : stream) (r : result) : Prop :=
    exists enough, forall fuel, (enough <= fuel)%nat -> call fuel s o = Val (s', r).
  Inductive runs : stream -> list op -> stream -> list result -> Prop :=
  | runs_nil s : runs s [] s []
  | runs_cons s o s' r os s'' rs : calls s o s' r -> runs s' os s'' rs -> runs s (o :: os) s'' (r :: rs).

  (** A new stream shows this. *)
  Definition new_view (l : list A) (d : direction) (start stop : option Z) : view :=
    match d with
    | Output => View [] 0 (match l with [] => true | _ => false end)
    | _ => let a := default 0 start in let b := default (zlen l) stop in
           View (take (Z.to_nat (b - a)) (drop (Z.to_nat a) l)) 0 true
    end.
End spec.
