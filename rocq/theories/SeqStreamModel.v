(** Streams over sequences: sources/io/streams/sequence-stream.dylan, with the
    positionable part of sources/io/streams/stream.dylan.

    Not modelled: locks, wrapper and outer streams, element types, sequences that
    are shared with the program or cannot be written, the range of <integer>. *)
From Verif Require Import Base.
Local Open Scope Z_scope.

(** What an operation answers: a value, the value of [on-end-of-stream:], an
    <end-of-stream-error>, an <incomplete-read-error> with its [count:] and
    [sequence:], or another error.  Errors leave the stream in a new state, so
    every operation returns the stream too. *)
Inductive answer (A R : Type) :=
| Ret (r : R) | EosValue | EosError | IncompleteRead (count : Z) (elements : list A) | Failed.
Arguments Ret {A R}. Arguments EosValue {A R}. Arguments EosError {A R}.
Arguments IncompleteRead {A R}. Arguments Failed {A R}.

(** stream.dylan:11-14. *)
Inductive direction := Input | Output | InputOutput | Closed.
(** stream.dylan:100-128 [readable?], [writable?], [read-only?], [write-only?]. *)
Definition readable (d : direction) : bool := match d with Input | InputOutput => true | _ => false end.
Definition writable (d : direction) : bool := match d with Output | InputOutput => true | _ => false end.
Definition read_only (d : direction) : bool := match d with Input => true | _ => false end.
Definition write_only (d : direction) : bool := match d with Output => true | _ => false end.

Definition zlen {A} (l : list A) : Z := Z.of_nat (length l).
(** [seq[i]], with its range check. *)
Definition at_index {A} (l : list A) (i : Z) : option A := if i <? 0 then None else l !! Z.to_nat i.
Definition set_index {A} (l : list A) (i : Z) (x : A) : option (list A) :=
  if (0 <=? i) && (i <? zlen l) then Some (<[Z.to_nat i := x]> l) else None.

(** [copy-sequence] with [start:] and [end:]: out of range is an error
    (sources/dylan/sequence.dylan, check-start-compute-end). *)
Definition copy_sequence {A} (l : list A) (start stop : Z) : option (list A) :=
  if (0 <=? start) && (start <=? stop) && (stop <=? zlen l)
  then Some (take (Z.to_nat (stop - start)) (drop (Z.to_nat start) l)) else None.

(** sources/common-dylan/byte-vector.dylan:107-165 [copy-bytes]. *)
Definition copy_bytes {A} (dst : list A) (dst_start : Z) (src : list A) (src_start n : Z) : option (list A) :=
  if (0 <=? n) && (0 <=? src_start) && (0 <=? dst_start) && (src_start + n <=? zlen src) && (dst_start + n <=? zlen dst)
  then Some (take (Z.to_nat dst_start) dst ++ take (Z.to_nat n) (drop (Z.to_nat src_start) src) ++
             drop (Z.to_nat (dst_start + n)) dst)
  else None.

Section seq_stream.
  Context {A : Type} (fill : A).

  (** sequence-stream.dylan:11-17 <sequence-stream> and stream.dylan:175-185.
      [stretchy] says that the sequence is a <stretchy-vector>. *)
  Record stream := Stream {
    seq : list A; stretchy : bool; dir : direction; limit : option Z;
    initial : Z; current : Z; final : Z }.

  Definition with_current (s : stream) (p : Z) : stream :=
    Stream (seq s) (stretchy s) (dir s) (limit s) (initial s) p (final s).
  Definition with_final (s : stream) (p : Z) : stream :=
    Stream (seq s) (stretchy s) (dir s) (limit s) (initial s) (current s) p.
  Definition with_seq (s : stream) (l : list A) : stream :=
    Stream l (stretchy s) (dir s) (limit s) (initial s) (current s) (final s).

  (** sequence-stream.dylan:87-100 [initialize] and stream.dylan:30-51: [start:]
      and [end:] only for input. *)
  Definition make_stream (contents : list A) (is_stretchy : bool) (d : direction) (start stop : option Z) : option stream :=
    match d with
    | Input => Some (Stream contents is_stretchy d stop (default 0 start) (default 0 start) (zlen contents))
    | Output | InputOutput =>
      match start, stop with
      | None, None => Some (Stream contents is_stretchy d None 0 0 (if write_only d then 0 else zlen contents))
      | _, _ => None
      end
    | Closed => None
    end.

  Definition bound (s : stream) : Z := default (final s) (limit s).

  (** defs.dylan:37-43 [end-of-stream-value]. *)
  Definition end_of_stream {R} (s : stream) (supplied : bool) : stream * answer A R :=
    (s, if supplied then EosValue else EosError).

  (** sequence-stream.dylan:134-149 [read-element]. *)
  Definition read_element (s : stream) (supplied : bool) : stream * answer A A :=
    if negb (readable (dir s)) then (s, Failed)
    else if current s <? bound s then
      match at_index (seq s) (current s) with
      | Some x => (with_current s (current s + 1), Ret x)
      | None => (s, Failed)
      end
    else end_of_stream s supplied.

  (** sequence-stream.dylan:151-165 [unread-element]. *)
  Definition unread_element (s : stream) (x : A) : stream * answer A A :=
    if negb (readable (dir s)) then (s, Failed)
    else if 0 <? current s then
      let s' := with_current s (current s - 1) in
      match set_index (seq s) (current s - 1) x with
      | Some l => (with_seq s' l, Ret x)
      | None => (s', Failed)
      end
    else (s, Ret x).

  (** sequence-stream.dylan:167-180 [peek]. *)
  Definition peek (s : stream) (supplied : bool) : stream * answer A A :=
    if negb (readable (dir s)) then (s, Failed)
    else if current s <? bound s then
      match at_index (seq s) (current s) with
      | Some x => (s, Ret x)
      | None => (s, Failed)
      end
    else end_of_stream s supplied.

  (** sequence-stream.dylan:182-209 [read]. *)
  Definition read (s : stream) (n : Z) (supplied : bool) : stream * answer A (list A) :=
    if negb (readable (dir s)) then (s, Failed)
    else
      let pos := current s in
      let src_n := bound s - pos in
      if src_n <? n then
        let s' := with_current s (pos + src_n) in
        if supplied then (s', EosValue)
        else if src_n =? 0 then (s', EosError)
        else match copy_sequence (seq s) pos (pos + src_n) with
             | Some l => (s', IncompleteRead src_n l)
             | None => (s', Failed)
             end
      else
        match copy_sequence (seq s) pos (pos + n) with
        | Some l => (with_current s (pos + n), Ret l)
        | None => (s, Failed)
        end.

  (** The loop at the end of [read-into!]. *)
  Fixpoint into_loop (k : nat) (i : Z) (src : list A) (pos : Z) (dst : list A) (start : Z) : option (list A) :=
    match k with
    | O => Some dst
    | S k =>
      match at_index src (i + pos) with
      | Some x =>
        match set_index dst (i + start) x with
        | Some dst => into_loop k (i + 1) src pos dst start
        | None => None
        end
      | None => None
      end
    end.

  (** sequence-stream.dylan:211-237 [read-into!]. *)
  Definition read_into (s : stream) (n : Z) (dst : list A) (start : Z) (supplied : bool)
    : stream * list A * answer A Z :=
    if negb (readable (dir s)) then (s, dst, Failed)
    else
      let pos := current s in
      let src_n := bound s - pos in
      let dst_n := zlen dst - start in
      let n_read := Z.min n (Z.min src_n dst_n) in
      let s' := with_current s (pos + n_read) in
      if n_read <? n then
        if supplied then (s', dst, EosValue)
        else match copy_sequence dst start (start + n_read) with
             | Some l => (s', dst, IncompleteRead n_read l)
             | None => (s', dst, Failed)
             end
      else
        match into_loop (Z.to_nat n_read) 0 (seq s) pos dst start with
        | Some dst' => (s', dst', Ret n_read)
        | None => (s', dst, Failed)
        end.

  (** sequence-stream.dylan:288-302 [grow-for-stream], both methods.  The new
      sequence is at least [min-size] long, so the loops around the calls run
      at most once. *)
  Definition grow (is_stretchy : bool) (l : list A) (min_size : Z) : list A :=
    let n := zlen l in
    let size := if is_stretchy then min_size else Z.max min_size (2 * n) in
    take (Z.to_nat size) l ++ replicate (Z.to_nat (size - n)) fill.

  (** sequence-stream.dylan:248-266 [write-element]. *)
  Definition write_element (s : stream) (x : A) : stream * answer A () :=
    if negb (writable (dir s)) then (s, Failed)
    else
      let pos := current s in
      let l := if zlen (seq s) <=? pos then grow (stretchy s) (seq s) (pos + 1) else seq s in
      match set_index l pos x with
      | Some l' =>
        let s := with_current (with_seq s l') (pos + 1) in
        ((if final s <=? pos then with_final s (pos + 1) else s), Ret ())
      | None => (with_seq s l, Failed)
      end.

  (** sequence-stream.dylan:268-286 [write]. *)
  Definition write (s : stream) (src : list A) (start : Z) (stop : option Z) : stream * answer A () :=
    if negb (writable (dir s)) then (s, Failed)
    else
      let pos := current s in
      let count := default (zlen src) stop - start in
      let required := pos + count in
      let l := if zlen (seq s) <? required then grow (stretchy s) (seq s) required else seq s in
      match copy_bytes l pos src start count with
      | Some l' =>
        let new_pos := pos + count in
        let s := with_current (with_seq s l') new_pos in
        ((if final s <? new_pos then with_final s new_pos else s), Ret ())
      | None => (with_seq s l, Failed)
      end.

  (** sequence-stream.dylan:307-315 [stream-at-end?]. *)
  Definition stream_at_end (s : stream) : bool :=
    if write_only (dir s) then false
    else default (final s) (if read_only (dir s) then limit s else None) <=? current s.

  (** sequence-stream.dylan:317-321 [stream-size]. *)
  Definition stream_size (s : stream) : Z := bound s - initial s.

  (** sequence-stream.dylan:323-326 [clear-contents]. *)
  Definition clear_contents (s : stream) : stream := with_final (with_current s 0) (default 0 (limit s)).

  (** sequence-stream.dylan:328-347 [stream-contents], [stream-contents-as] for
      the same type: [make] refuses a negative size. *)
  Definition stream_contents (s : stream) (clear : bool) : stream * answer A (list A) :=
    let n := bound s - initial s in
    if n <? 0 then (s, Failed)
    else match copy_bytes (replicate (Z.to_nat n) fill) 0 (seq s) (initial s) n with
         | Some l => ((if clear then clear_contents s else s), Ret l)
         | None => (s, Failed)
         end.

  (** stream.dylan:218-221 [stream-position]. *)
  Definition stream_position (s : stream) : Z := current s - initial s.

  (** stream.dylan:223-236 [stream-position-setter] for integers. *)
  Definition set_stream_position (s : stream) (p : Z) : stream * answer A () :=
    let new_position := p + initial s in
    let too_far := match (if read_only (dir s) then limit s else None) with
                   | Some l => l <? new_position
                   | None => false
                   end in
    if (p <? initial s) || too_far then (s, Failed) else (with_current s new_position, Ret ()).

  (** stream.dylan:238-249: [stream-position(stream) := #"start"] and [#"end"];
      defs.dylan:45-49 [stream-limit-or-error]. *)
  Definition set_position_start (s : stream) : stream * answer A () := set_stream_position s 0.
  Definition set_position_end (s : stream) : stream * answer A () :=
    match limit s with
    | Some l => set_stream_position s (l - initial s)
    | None => (s, Failed)
    end.

  (** stream.dylan:251-261 [adjust-stream-position]. *)
  Inductive reference := FromCurrent | FromStart | FromEnd.
  Definition adjust_position (s : stream) (delta : Z) (r : reference) : stream * answer A () :=
    match r with
    | FromCurrent => set_stream_position s (stream_position s + delta)
    | FromStart => set_stream_position s delta
    | FromEnd =>
      match limit s with
      | Some l => set_stream_position s (l + delta)
      | None => (s, Failed)
      end
    end.

  (** stream.dylan:149-159 [close]. *)
  Definition close (s : stream) : stream :=
    Stream (seq s) (stretchy s) Closed (limit s) (initial s) (current s) (final s).

  (** convenience.dylan:29-50 [read-to], 52-72 [read-through], 74-82
      [read-to-end], 84-92 [skip-through]: the loops read an element while the
      stream is not at its end.  [test] is called with the element that was
      read.  An error of [read-element] leaves the loop. *)
  Fixpoint until_loop (fuel : nat) (test : A -> bool) (keep : bool) (s : stream) (acc : list A)
    : outcome (stream * answer A (list A * bool)) :=
    if stream_at_end s then Val (s, Ret (rev acc, false))
    else
      match fuel with
      | O => NoFuel
      | S fuel =>
        match read_element s false with
        | (s, Ret x) =>
          if test x then Val (s, Ret (rev (if keep then x :: acc else acc), true))
          else until_loop fuel test keep s (x :: acc)
        | (s, EosError) => Val (s, EosError)
        | (s, _) => Val (s, Failed)
        end
      end.
  Definition read_to (fuel : nat) (s : stream) (test : A -> bool) (supplied : bool) :=
    if stream_at_end s then Val (end_of_stream s supplied) else until_loop fuel test false s [].
  Definition read_through (fuel : nat) (s : stream) (test : A -> bool) (supplied : bool) :=
    if stream_at_end s then Val (end_of_stream s supplied) else until_loop fuel test true s [].
  Definition read_to_end (fuel : nat) (s : stream) := until_loop fuel (fun _ => false) false s [].
  Definition skip_through (fuel : nat) (s : stream) (test : A -> bool) := until_loop fuel test false s [].

  (** convenience.dylan:127-154 [read-line]: ends at [nl], at [cr] or at both. *)
  Fixpoint line_loop (fuel : nat) (is_nl is_cr : A -> bool) (s : stream) (acc : list A)
    : outcome (stream * answer A (list A * bool)) :=
    if stream_at_end s then Val (s, Ret (rev acc, false))
    else
      match fuel with
      | O => NoFuel
      | S fuel =>
        match read_element s false with
        | (s, Ret x) =>
          if is_nl x then Val (s, Ret (rev acc, true))
          else if is_cr x then
            match peek s true with
            | (s, Ret y) => if is_nl y then Val ((read_element s false).1, Ret (rev acc, true)) else Val (s, Ret (rev acc, true))
            | (s, _) => Val (s, Ret (rev acc, true))
            end
          else line_loop fuel is_nl is_cr s (x :: acc)
        | (s, EosError) => Val (s, EosError)
        | (s, _) => Val (s, Failed)
        end
      end.
  Definition read_line (fuel : nat) (s : stream) (is_nl is_cr : A -> bool) (supplied : bool) :=
    if stream_at_end s then Val (end_of_stream s supplied) else line_loop fuel is_nl is_cr s [].
End seq_stream.
