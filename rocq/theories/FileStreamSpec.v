(** What the documentation (documentation/source/library-reference/io/streams.rst)
    says about a stream over a file: it has contents and a position, and what was
    written is in the file after [force-output] or [close]. *)
From Verif Require Import Base SeqStreamModel SeqStreamSpec FileStreamModel.
Local Open Scope Z_scope.
Local Open Scope outcome_scope.

Section spec.
  Context {A : Type} (zero blank newline : A) (is_nl is_cr : A -> bool) (short : nat -> nat).

  Notation result := (@SeqStreamSpec.result A).
  Record file_view := FileView { contents_of : list A; position_of : nat }.

  Inductive file_op :=
  | FReadElement (supplied : bool) | FUnreadElement (x : A) | FPeek (supplied : bool)
  | FRead (n : Z) (supplied : bool) | FReadInto (n : Z) (into : list A) (start : Z) (supplied : bool)
  | FReadSkip (n : Z) | FReadToEnd | FReadLine (supplied : bool)
  | FWriteElement (x : A) | FWrite (src : list A) (start : Z) (stop : option Z)
  | FWriteLine (src : list A) (start : Z) (stop : option Z) | FWriteFill (x : A) (n : Z)
  | FAtEnd | FSize | FPosition | FSetPosition (p : Z) | FAdjust (delta : Z) (from : reference)
  | FContents | FForceOutput.

  (** What is left to read; overwriting from the position on. *)
  Definition rest (v : file_view) : list A := drop (position_of v) (contents_of v).
  Definition forward (v : file_view) (k : nat) : file_view := FileView (contents_of v) (position_of v + k).
  Definition put (v : file_view) (src : list A) : file_view :=
    FileView (take (position_of v) (contents_of v) ++ src ++ drop (position_of v + length src) (contents_of v))
             (position_of v + length src).
  Definition go (v : file_view) (p : Z) : file_view * result :=
    if (p <? 0) || (zlen (contents_of v) <? p) then (v, RDone Failed)
    else (FileView (contents_of v) (Z.to_nat p), RDone (Ret ())).
  (** Past the end [adjust-stream-position] lets an input-output stream grow. *)
  Definition go_far (r : direction) (v : file_view) (p : Z) : file_view * result :=
    match r with
    | InputOutput =>
      if zlen (contents_of v) <? p
      then (FileView (contents_of v ++ replicate (Z.to_nat p - length (contents_of v)) zero) (Z.to_nat p), RDone (Ret ()))
      else go v p
    | _ => go v p
    end.
  Definition part (src : list A) (start : Z) (stop : option Z) : list A :=
    take (Z.to_nat (default (zlen src) stop - start)) (drop (Z.to_nat start) src).

  (** An incomplete read: the sequence in the error has the wanted size, its first
      [count] elements are the ones read. *)
  Definition file_spec (r : direction) (v : file_view) (o : file_op) : file_view * result :=
    let l := rest v in
    let avail := zlen l in
    match o with
    | FReadElement sup =>
      if readable r then match l with x :: _ => (forward v 1, RElement (Ret x)) | [] => (v, RElement (eos sup)) end
      else (v, RElement Failed)
    | FPeek sup =>
      if readable r then match l with x :: _ => (v, RElement (Ret x)) | [] => (v, RElement (eos sup)) end
      else (v, RElement Failed)
    | FUnreadElement x =>
      if readable r && (0 <? position_of v)%nat
      then (FileView (contents_of v) (position_of v - 1), RElement (Ret x)) else (v, RElement Failed)
    | FRead n sup =>
      if negb (readable r) || (n <? 0) then (v, RSequence Failed)
      else if n <=? avail then (forward v (Z.to_nat n), RSequence (Ret (take (Z.to_nat n) l)))
      else (forward v (length l),
            RSequence (if sup then EosValue else IncompleteRead avail (l ++ replicate (Z.to_nat n - length l) blank)))
    | FReadInto n into start sup =>
      if negb (readable r) then (v, RInto into Failed)
      else
        let got := take (Z.to_nat n) l in
        let into := take (Z.to_nat start) into ++ got ++ drop (Z.to_nat start + length got) into in
        (forward v (length got),
         RInto into (if n <=? avail then Ret n else if sup then EosValue else IncompleteRead avail into))
    | FReadSkip n =>
      if readable r then (forward v (Nat.min (Z.to_nat n) (length l)), RDone (Ret ()))
      else (v, RDone (if 0 <? n then Failed else Ret ()))
    | FReadToEnd => if readable r then (forward v (length l), RSequence (Ret l)) else (v, RSequence Failed)
    | FReadLine sup =>
      if negb (readable r) then (v, RLine Failed)
      else match l with
           | [] => (v, RLine (eos sup))
           | _ => let '(line, k) := split_line is_nl is_cr l in
                  (forward v (length line + k), RLine (Ret (line, (0 <? k)%nat)))
           end
    | FWriteElement x => if writable r then (put v [x], RDone (Ret ())) else (v, RDone Failed)
    | FWrite src start stop =>
      if writable r then (put v (part src start stop), RDone (Ret ())) else (v, RDone Failed)
    | FWriteLine src start stop =>
      if writable r then (put v (part src start stop ++ [newline]), RDone (Ret ())) else (v, RDone Failed)
    | FWriteFill x n => if writable r then (put v (replicate (Z.to_nat n) x), RDone (Ret ())) else (v, RDone Failed)
    | FAtEnd => (v, RBool (readable r && (length (contents_of v) <=? position_of v)%nat))
    | FSize => (v, RInt (zlen (contents_of v)))
    | FPosition => (v, RInt (Z.of_nat (position_of v)))
    | FSetPosition p => go v p
    | FAdjust delta FromStart => go_far r v delta
    | FAdjust delta FromCurrent => go_far r v (Z.of_nat (position_of v) + delta)
    | FAdjust delta FromEnd => go_far r v (zlen (contents_of v) + delta)
    | FContents => (v, RSequence (if readable r then Ret (contents_of v) else Failed))
    | FForceOutput => (v, RDone (Ret ()))
    end.

  (** The code, one call. *)
  Notation file_stream := (@FileStreamModel.stream A).
  Definition file_call (fuel : nat) (s : file_stream) (o : file_op) : outcome (file_stream * result) :=
    match o with
    | FReadElement sup => do ' (s, a) <- read_element zero short s sup ; Val (s, RElement a)
    | FUnreadElement x => do ' (s, a) <- unread_element zero short s x ; Val (s, RElement a)
    | FPeek sup => do ' (s, a) <- peek zero short s sup ; Val (s, RElement a)
    | FRead n sup => do ' (s, a) <- read zero blank short fuel s n sup ; Val (s, RSequence a)
    | FReadInto n into start sup =>
      do ' (s, (into, a)) <- read_into zero short fuel s n into start sup ; Val (s, RInto into a)
    | FReadSkip n => do ' (s, a) <- read_skip zero short fuel s n ; Val (s, RDone a)
    | FReadToEnd => do ' (s, a) <- read_to_end zero blank short fuel s ; Val (s, RSequence a)
    | FReadLine sup => do ' (s, a) <- read_line zero is_nl is_cr short fuel s sup ; Val (s, RLine a)
    | FWriteElement x => do ' (s, a) <- write_element zero short s x ; Val (s, RDone a)
    | FWrite src start stop => do ' (s, a) <- write zero short fuel s src start stop ; Val (s, RDone a)
    | FWriteLine src start stop => do ' (s, a) <- write_line zero short fuel newline s src start stop ; Val (s, RDone a)
    | FWriteFill x n => do ' (s, a) <- write_fill zero short fuel s x n ; Val (s, RDone a)
    | FAtEnd => do ' (s, a) <- stream_at_end zero short s ; Val (s, match a with Ret b => RBool b | _ => RDone Failed end)
    | FSize => let '(s, a) := stream_size s in Val (s, match a with Ret n => RInt (Z.of_nat n) | _ => RDone Failed end)
    | FPosition => Val (s, RInt (Z.of_nat (stream_position s)))
    | FSetPosition p => do ' (s, a) <- set_stream_position zero short s p ; Val (s, RDone a)
    | FAdjust delta from => do ' (s, a) <- adjust_stream_position zero short s delta from ; Val (s, RDone a)
    | FContents => do ' (s, a) <- stream_contents zero blank short fuel s ; Val (s, RSequence a)
    | FForceOutput => do ' (s, a) <- force_output zero short s ; Val (s, RDone a)
    end.

  (** The loops in the calls end. *)
  Definition file_calls (s : file_stream) (o : file_op) (s' : file_stream) (r : result) : Prop :=
    exists enough, forall fuel, (enough <= fuel)%nat -> file_call fuel s o = Val (s', r).
  Inductive file_runs : file_stream -> list file_op -> file_stream -> list result -> Prop :=
  | file_runs_nil s : file_runs s [] s []
  | file_runs_cons s o s' r os s'' rs :
      file_calls s o s' r -> file_runs s' os s'' rs -> file_runs s (o :: os) s'' (r :: rs).
  Fixpoint file_spec_history (r : direction) (v : file_view) (os : list file_op) : file_view * list result :=
    match os with
    | [] => (v, [])
    | o :: os => let '(v, a) := file_spec r v o in let '(v, rs) := file_spec_history r v os in (v, a :: rs)
    end.

  (** The arguments the theorems are about: those for which the documentation says
      what happens. *)
  Definition proper (o : file_op) : Prop :=
    match o with
    | FReadInto n into start _ => 0 <= n /\ 0 <= start /\ start + n <= zlen into
    | FWrite src start stop | FWriteLine src start stop => 0 <= start /\ default (zlen src) stop <= zlen src
    | _ => True
    end.

  (** Histories of an output stream.  [stale] says that the last [force-output] was
      not at the end of the contents and the position was not set since: then the
      code must not be asked to write ([C40_file_force_refuted]). *)
  Definition writes (o : file_op) : bool :=
    match o with FWriteElement _ | FWrite _ _ _ | FWriteLine _ _ _ | FWriteFill _ _ => true | _ => false end.
  Definition next_stale (v : file_view) (o : file_op) (stale : bool) : bool :=
    match o with
    | FForceOutput => stale || (position_of v <? length (contents_of v))%nat
    | FSetPosition _ | FAdjust _ _ =>
      match (file_spec Output v o).2 with RDone (Ret _) => false | _ => stale end
    | _ => stale
    end.
  Fixpoint output_history (v : file_view) (stale : bool) (os : list file_op) : Prop :=
    match os with
    | [] => True
    | o :: os =>
      proper o /\ (writes o = true -> stale = false) /\ (forall x, o <> FUnreadElement x) /\
      output_history (file_spec Output v o).1 (next_stale v o stale) os
    end.

  (** Histories in which the contents stay shorter than the buffer. *)
  Fixpoint small_history (size : nat) (v : file_view) (os : list file_op) : Prop :=
    match os with
    | [] => True
    | o :: os =>
      let v' := (file_spec InputOutput v o).1 in
      proper o /\ (length (contents_of v') < size)%nat /\ small_history size v' os
    end.
End spec.
