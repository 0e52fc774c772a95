(** Buffered streams over files: sources/io/streams/file-stream.dylan,
    sources/io/streams/buffered-stream.dylan and sources/io/unix-file-accessor.dylan.

    Not modelled: opening files ([if-exists:] and the like: the model starts with
    the bytes of the opened file and the offset of its descriptor), failing or
    interrupted system calls, files that other programs change, files that cannot
    be positioned, the coercion of elements to bytes, [outer-stream], locks, the
    range of <integer>, the registry of open streams.  Offsets and indices are
    natural numbers: where the code subtracts them, the difference is not negative,
    or only tested for being positive. *)
From Verif Require Import Base SeqStreamModel.
Local Open Scope outcome_scope.
Local Open Scope nat_scope.

Section file_stream.
  (** [zero] is the byte 0, [blank] what [make] fills new strings with
      (streams/native-buffer.dylan:16).  [short k] bounds the number of bytes that
      the [k]th system call transfers: read(2) and write(2) may transfer less than
      they are asked for, but at least one byte if there is one. *)
  Context {A : Type} (zero blank : A) (is_nl is_cr : A -> bool) (short : nat -> nat).

  (** The file as the operating system sees it, and
      unix-file-accessor.dylan:13-30 <unix-file-accessor>. *)
  Record disk := Disk {
    bytes : list A; offset : nat; system_calls : nat;
    at_end : bool; file_position : nat }.

  (** streams/native-buffer.dylan:20-40 <buffer>: [stop] is [buffer-end], [base] is
      [buffer-position], [first] is [buffer-start]. *)
  Record buffer := Buffer {
    data : list A; next : nat; stop : nat; base : nat; dirty : bool; first : nat }.

  (** streams/file-stream.dylan:11-58 and buffered-stream.dylan:236-242.  The two
      buffers of a <single-buffered-stream> are its shared buffer or #f.
      [null_first] is [buffer-start] of the global $null-buffer
      (file-stream.dylan:534-535), here one for each stream. *)
  Record stream := Stream {
    disk_of : disk; buf : buffer; has_in : bool; has_out : bool; dir : direction; null_first : nat }.

  Definition with_next (b : buffer) (i : nat) : buffer :=
    Buffer (data b) i (stop b) (base b) (dirty b) (first b).
  Definition with_stop (b : buffer) (i : nat) : buffer :=
    Buffer (data b) (next b) i (base b) (dirty b) (first b).
  Definition with_data (b : buffer) (l : list A) : buffer :=
    Buffer l (next b) (stop b) (base b) (dirty b) (first b).
  Definition with_buf (s : stream) (b : buffer) : stream :=
    Stream (disk_of s) b (has_in s) (has_out s) (dir s) (null_first s).
  Definition with_disk (s : stream) (d : disk) (b : buffer) : stream :=
    Stream d b (has_in s) (has_out s) (dir s) (null_first s).
  Definition size_of (b : buffer) : nat := length (data b).

  (** lseek(2). *)
  Definition lseek (d : disk) (p : nat) : disk :=
    Disk (bytes d) p (system_calls d) (at_end d) (file_position d).
  (** How much of [m] bytes the next system call transfers. *)
  Definition transferred (d : disk) (m : nat) : nat :=
    match m with O => O | _ => Nat.max 1 (Nat.min (short (system_calls d)) m) end.
  (** read(2): at most [count] bytes. *)
  Definition sys_read (d : disk) (count : nat) : disk * list A :=
    let got := take (transferred d (Nat.min count (length (bytes d) - offset d))) (drop (offset d) (bytes d)) in
    (Disk (bytes d) (offset d + length got) (S (system_calls d)) (at_end d) (file_position d), got).
  (** write(2): a gap after the end of the file reads as zeros. *)
  Definition overlay (l : list A) (p : nat) (src : list A) : list A :=
    take p l ++ replicate (p - length l) zero ++ src ++ drop (p + length src) l.
  Definition sys_write (d : disk) (src : list A) : disk * nat :=
    let n := transferred d (length src) in
    (Disk (overlay (bytes d) (offset d) (take n src)) (offset d + n) (S (system_calls d)) (at_end d) (file_position d), n).

  (** unix-file-accessor.dylan:94-106 [accessor-size]. *)
  Definition accessor_size (d : disk) : disk * nat :=
    (lseek d (file_position d), length (bytes d)).
  (** unix-file-accessor.dylan:114-134 [accessor-position-setter]. *)
  Definition set_accessor_position (d : disk) (p : nat) : disk :=
    if p =? file_position d then d
    else Disk (bytes d) p (system_calls d) false p.
  (** unix-file-accessor.dylan:136-156 [accessor-read-into!].  The bytes go to
      memory from [i] on, without a check (sources/io/unix-interface.dylan:45-62). *)
  Definition accessor_read_into (d : disk) (into : list A) (i count : nat) : outcome (disk * list A * nat) :=
    if at_end d then Val (d, into, 0)
    else
      let before := file_position d in
      let '(d, got) := sys_read d count in
      if length into <? i + length got then UB
      else
        let d := if length got =? 0 then Disk (bytes d) (offset d) (system_calls d) true (file_position d)
                 else Disk (bytes d) (offset d) (system_calls d) (at_end d) (before + length got) in
        Val (d, take i into ++ got ++ drop (i + length got) into, length got).
  (** unix-file-accessor.dylan:158-178 [accessor-write-from]. *)
  Fixpoint accessor_write_from (fuel : nat) (d : disk) (from : list A) (i count : nat) : outcome disk :=
    match fuel with
    | O => NoFuel
    | S fuel =>
      if length from <? i + count then UB
      else
        let '(d, n) := sys_write d (take count (drop i from)) in
        let d := Disk (bytes d) (offset d) (system_calls d) (at_end d) (file_position d + n) in
        if n <? count then accessor_write_from fuel d from (i + n) (count - n) else Val d
    end.

  (** file-stream.dylan:221-233 [load-buffer]. *)
  Definition load_buffer (d : disk) (b : buffer) (p i count : nat) : outcome (disk * buffer * nat) :=
    let d := if p =? file_position d then d else set_accessor_position d p in
    do ' (d, l, nread) <- accessor_read_into d (data b) i count ;
    Val (d, with_stop (with_data b l) (i + nread), nread).

  (** native-buffer.dylan:222-231 [buffer-fill]: the range is checked. *)
  Definition buffer_fill (b : buffer) (x : A) (i j : nat) : outcome buffer :=
    if (i <=? j) && (j <=? size_of b)
    then Val (with_data b (take i (data b) ++ replicate (j - i) x ++ drop j (data b)))
    else Signal "range".

  (** file-stream.dylan:235-242 [load-buffer-and-fill]. *)
  Definition load_buffer_and_fill (d : disk) (b : buffer) (p i count : nat) : outcome (disk * buffer) :=
    do ' (d, b, _) <- load_buffer d b p i count ;
    do b <- buffer_fill b zero (stop b) (size_of b) ;
    Val (d, b).

  (** file-stream.dylan:413-440 [force-buffer].  Every write transfers a byte, so
      [count] rounds are enough. *)
  Definition force_buffer (r : direction) (d : disk) (b : buffer) : outcome (disk * buffer) :=
    if dirty b then
      let i := first b in
      let count := stop b - i in
      let p := base b + i in
      let d := if p =? file_position d then d else set_accessor_position d p in
      if 0 <? count then
        do d <- accessor_write_from count d (data b) i count ;
        let i := if write_only r then i + count else i in
        Val (d, Buffer (data b) (next b) (stop b) (base b) false i)
      else Val (d, Buffer (data b) (next b) (stop b) (base b) false (first b))
    else Val (d, b).

  (** file-stream.dylan:299-336 [do-next-input-buffer]; the Boolean says that there
      is a buffer. *)
  Definition do_next_input_buffer (s : stream) : outcome (stream * bool) :=
    let p := base (buf s) + stop (buf s) in
    do ' (d, b) <- force_buffer (dir s) (disk_of s) (buf s) ;
    do ' (d, b, nread) <- load_buffer d b p 0 (size_of b) ;
    Val (with_disk s d (Buffer (data b) 0 nread p false 0), 0 <? nread).

  (** file-stream.dylan:256-289 [do-get-input-buffer]. *)
  Definition do_get_input_buffer (s : stream) : outcome (stream * answer A bool) :=
    if negb (readable (dir s)) then Val (s, Failed)
    else if has_out s then
      let s := Stream (disk_of s) (buf s) true false (dir s) (null_first s) in
      let b := buf s in
      if stop b <=? next b then
        if size_of b <=? stop b then Val (s, Failed)
        else
          let i := stop b in
          do ' (d, b, _) <- load_buffer (disk_of s) b (base b + stop b) i (stop b - i) ;
          if stop b <=? next b then
            do ' (d, b) <- force_buffer (dir s) d b ;
            Val (with_disk s d b, Ret false)
          else Val (with_disk s d b, Ret true)
      else Val (s, Ret true)
    else Val (s, Failed).

  (** buffered-stream.dylan:86-100 [get-input-buffer]. *)
  Definition get_input_buffer (s : stream) : outcome (stream * answer A bool) :=
    if has_in s then
      if stop (buf s) <=? next (buf s) then do ' (s, sb) <- do_next_input_buffer s ; Val (s, Ret sb)
      else Val (s, Ret true)
    else do_get_input_buffer s.

  (** file-stream.dylan:346-360 [do-get-output-buffer]. *)
  Definition do_get_output_buffer (s : stream) : outcome (stream * answer A ()) :=
    if negb (writable (dir s)) then Val (s, Failed)
    else if has_in s then
      do b <- buffer_fill (buf s) zero (stop (buf s)) (size_of (buf s)) ;
      Val (Stream (disk_of s) b false true (dir s) (null_first s), Ret ())
    else Val (s, Failed).

  (** file-stream.dylan:368-386 [do-next-output-buffer]. *)
  Definition do_next_output_buffer (s : stream) : outcome (stream * answer A ()) :=
    if negb (stop (buf s) =? size_of (buf s)) then Val (s, Failed)
    else
      let p := base (buf s) + stop (buf s) in
      do ' (d, b) <- force_buffer (dir s) (disk_of s) (buf s) ;
      Val (with_disk s d (Buffer (replicate (size_of b) zero) 0 0 p false 0), Ret ()).

  (** buffered-stream.dylan:169-182 [get-output-buffer]. *)
  Definition get_output_buffer (s : stream) : outcome (stream * answer A ()) :=
    if has_out s then
      if size_of (buf s) <=? next (buf s) then do_next_output_buffer s else Val (s, Ret ())
    else do_get_output_buffer s.

  (** Errors go through; [m] never answers with the end of the stream. *)
  Definition andthen {R S} (m : outcome (stream * answer A R)) (k : stream -> R -> outcome (stream * answer A S)) :
      outcome (stream * answer A S) :=
    do ' (s, a) <- m ;
    match a with
    | Ret r => k s r
    | EosValue => Val (s, EosValue) | EosError => Val (s, EosError)
    | IncompleteRead c l => Val (s, IncompleteRead c l) | Failed => Val (s, Failed)
    end.

  (** defs.dylan:37-43 [end-of-stream-value].  The value of [on-end-of-stream:] is not
      an integer: [read] compares it with a count (buffered-stream.dylan:423). *)
  Definition end_of_stream {R} (supplied : bool) : answer A R := if supplied then EosValue else EosError.

  (** buffered-stream.dylan:388-402 [read-element]. *)
  Definition read_element (s : stream) (supplied : bool) : outcome (stream * answer A A) :=
    andthen (get_input_buffer s) (fun s sb =>
      if sb then
        do x <- vread (data (buf s)) (next (buf s)) ;
        Val (with_buf s (with_next (buf s) (next (buf s) + 1)), Ret x)
      else Val (s, end_of_stream supplied)).

  (** buffered-stream.dylan:404-415 [peek]. *)
  Definition peek (s : stream) (supplied : bool) : outcome (stream * answer A A) :=
    andthen (get_input_buffer s) (fun s sb =>
      if sb then do x <- vread (data (buf s)) (next (buf s)) ; Val (s, Ret x)
      else Val (s, end_of_stream supplied)).

  (** buffered-stream.dylan:430-467 [read-into!], the loop: [i] is the next index of
      [into] to fill, [e] the end.  A destination that is too small is an error in
      [copy-bytes] (native-buffer.dylan:240-262). *)
  Fixpoint read_loop (fuel : nat) (s : stream) (sb : bool) (into : list A) (start i e : Z) (supplied : bool) :
      outcome (stream * (list A * answer A Z)) :=
    match fuel with
    | O => NoFuel
    | S fuel =>
      if (i <? e)%Z then
        if sb then
          let b := buf s in
          if stop b <=? next b then
            do ' (s, sb) <- do_next_input_buffer s ;
            read_loop fuel s sb into start i e supplied
          else
            let count := Nat.min (stop b - next b) (Z.to_nat (e - i)) in
            match copy_bytes into i (data b) (Z.of_nat (next b)) (Z.of_nat count) with
            | Some into =>
              read_loop fuel (with_buf s (with_next b (next b + count))) sb into start (i + Z.of_nat count) e supplied
            | None => Val (s, (into, Failed))
            end
        else Val (s, (into, if supplied then EosValue else IncompleteRead (i - start) into))
      else Val (s, (into, Ret (i - start)%Z))
    end.
  Definition read_into (fuel : nat) (s : stream) (n : Z) (into : list A) (start : Z) (supplied : bool) :
      outcome (stream * (list A * answer A Z)) :=
    do ' (s, a) <- get_input_buffer s ;
    match a with
    | Ret sb => read_loop fuel s sb into start start (start + n) supplied
    | _ => Val (s, (into, Failed))
    end.

  (** buffered-stream.dylan:417-428 [read]; [make] wants a size that is not negative. *)
  Definition read (fuel : nat) (s : stream) (n : Z) (supplied : bool) : outcome (stream * answer A (list A)) :=
    if (n <? 0)%Z then Val (s, Failed)
    else
      do ' (s, (elements, a)) <- read_into fuel s n (replicate (Z.to_nat n) blank) 0 supplied ;
      Val (s, match a with
              | Ret _ => Ret elements
              | EosValue => EosValue | EosError => EosError
              | IncompleteRead c l => IncompleteRead c l | Failed => Failed
              end).

  (** buffered-stream.dylan:671-693 [read-skip]. *)
  Fixpoint skip_loop (fuel : nat) (s : stream) (sb : bool) (i e : Z) : outcome stream :=
    match fuel with
    | O => NoFuel
    | S fuel =>
      if (i <? e)%Z then
        if sb then
          let b := buf s in
          if stop b <=? next b then
            do ' (s, sb) <- do_next_input_buffer s ;
            skip_loop fuel s sb i e
          else
            let count := Nat.min (stop b - next b) (Z.to_nat (e - i)) in
            skip_loop fuel (with_buf s (with_next b (next b + count))) sb (i + Z.of_nat count) e
        else Val s
      else Val s
    end.
  Definition read_skip (fuel : nat) (s : stream) (n : Z) : outcome (stream * answer A ()) :=
    if (0 <? n)%Z then
      andthen (get_input_buffer s) (fun s sb => do s <- skip_loop fuel s sb 0 n ; Val (s, Ret ()))
    else Val (s, Ret ()).

  (** buffered-stream.dylan:546-573 the scan of the buffer for \n or \r in [read-line]. *)
  Fixpoint scan (l : list A) : list A * option A :=
    match l with
    | [] => ([], None)
    | x :: l => if is_nl x || is_cr x then ([], Some x) else let '(before, m) := scan l in (x :: before, m)
    end.
  (** buffered-stream.dylan:508-588 [read-line]: the loop answers with the line, if
      anything was read, and whether a line end was matched. *)
  Fixpoint line_loop (fuel : nat) (s : stream) (sb : bool) (line : option (list A)) :
      outcome (stream * (option (list A) * bool)) :=
    match fuel with
    | O => NoFuel
    | S fuel =>
      if sb then
        let b := buf s in
        if stop b <=? next b then
          do ' (s, sb) <- do_next_input_buffer s ;
          line_loop fuel s sb line
        else if size_of b <? stop b then UB
        else
          let '(before, m) := scan (take (stop b - next b) (drop (next b) (data b))) in
          let line := Some (default [] line ++ before) in
          match m with
          | Some c =>
            let ni := next b + length before + 1 in
            let s := with_buf s (with_next b ni) in
            if is_nl c then Val (s, (line, true))
            else
              do ' (s, more) <- (if stop b <=? ni then do_next_input_buffer s else Val (s, true)) ;
              if more then
                do x <- vread (data (buf s)) (next (buf s)) ;
                Val (if is_nl x then with_buf s (with_next (buf s) (next (buf s) + 1)) else s, (line, true))
              else Val (s, (line, true))
          | None => line_loop fuel (with_buf s (with_next b (stop b))) sb line
          end
      else Val (s, (line, false))
    end.
  Definition read_line (fuel : nat) (s : stream) (supplied : bool) : outcome (stream * answer A (list A * bool)) :=
    match dir s with
    | Closed => Val (s, Failed)
    | _ =>
      andthen (get_input_buffer s) (fun s sb =>
        do ' (s, (line, matched)) <- line_loop fuel s sb None ;
        Val (s, match line with Some line => Ret (line, matched) | None => end_of_stream supplied end))
    end.

  (** buffered-stream.dylan:700-709 [write-element]: the index is not checked
      (typed-stream.dylan:111-124, native-buffer.dylan:207-210). *)
  Definition write_element (s : stream) (x : A) : outcome (stream * answer A ()) :=
    andthen (get_output_buffer s) (fun s _ =>
      let b := buf s in
      do l <- vwrite (data b) (next b) x ;
      Val (with_buf s (Buffer l (next b + 1) (Nat.max (next b + 1) (stop b)) (base b) true (first b)), Ret ())).

  (** buffered-stream.dylan:711-737 [write], the loop over [src] from [i] to [e]. *)
  Fixpoint write_loop (fuel : nat) (s : stream) (src : list A) (i e : Z) : outcome (stream * answer A ()) :=
    match fuel with
    | O => NoFuel
    | S fuel =>
      if (i <? e)%Z then
        let b := buf s in
        if size_of b <=? next b then
          andthen (do_next_output_buffer s) (fun s _ => write_loop fuel s src i e)
        else
          let count := Nat.min (size_of b - next b) (Z.to_nat (e - i)) in
          match copy_bytes (data b) (Z.of_nat (next b)) src i (Z.of_nat count) with
          | Some l =>
            write_loop fuel
              (with_buf s (Buffer l (next b + count) (Nat.max (next b + count) (stop b)) (base b) true (first b)))
              src (i + Z.of_nat count) e
          | None => Val (s, Failed)
          end
      else Val (s, Ret ())
    end.
  Definition write (fuel : nat) (s : stream) (src : list A) (start : Z) (e : option Z) : outcome (stream * answer A ()) :=
    andthen (get_output_buffer s) (fun s _ => write_loop fuel s src start (default (zlen src) e)).

  (** buffered-stream.dylan:740-769 [write-line]; the newline sequence is "\n"
      (unix-file-accessor.dylan:186-190). *)
  Definition write_line (fuel : nat) (newline : A) (s : stream) (src : list A) (start : Z) (e : option Z) :
      outcome (stream * answer A ()) :=
    andthen (get_output_buffer s) (fun s _ =>
      andthen (write_loop fuel s src start (default (zlen src) e)) (fun s _ => write_loop fuel s [newline] 0 1)).

  (** buffered-stream.dylan:774-798 [write-fill]. *)
  Fixpoint fill_loop (fuel : nat) (s : stream) (x : A) (i e : Z) : outcome (stream * answer A ()) :=
    match fuel with
    | O => NoFuel
    | S fuel =>
      if (i <? e)%Z then
        let b := buf s in
        if size_of b <=? next b then
          andthen (do_next_output_buffer s) (fun s _ => fill_loop fuel s x i e)
        else
          let count := Nat.min (size_of b - next b) (Z.to_nat (e - i)) in
          do b' <- buffer_fill b x (next b) (next b + count) ;
          fill_loop fuel
            (with_buf s (Buffer (data b') (next b + count) (Nat.max (next b + count) (stop b)) (base b) true (first b)))
            x (i + Z.of_nat count) e
      else Val (s, Ret ())
    end.
  Definition write_fill (fuel : nat) (s : stream) (x : A) (n : Z) : outcome (stream * answer A ()) :=
    andthen (get_output_buffer s) (fun s _ => fill_loop fuel s x 0 n).

  (** file-stream.dylan:166-172 [stream-at-end?]. *)
  Definition stream_at_end (s : stream) : outcome (stream * answer A bool) :=
    if readable (dir s) then andthen (get_input_buffer s) (fun s sb => Val (s, Ret (negb sb)))
    else Val (s, Ret false).

  (** file-stream.dylan:185-202 [stream-size]. *)
  Definition stream_size (s : stream) : stream * answer A nat :=
    match dir s with
    | Closed => (s, Failed)
    | _ =>
      let '(d, n) := accessor_size (disk_of s) in
      (with_disk s d (buf s), Ret (if dirty (buf s) then Nat.max (base (buf s) + stop (buf s)) n else n))
    end.

  (** file-stream.dylan:444-462 [stream-position]. *)
  Definition stream_position (s : stream) : nat :=
    if has_in s || has_out s then base (buf s) + next (buf s)
    else match dir s with Closed => 0 | _ => file_position (disk_of s) end.

  (** streams/buffer.dylan:60-83: the size of a <power-of-two-buffer> is 2 to some
      power, so masking with the off-page and the on-page bits is this. *)
  Definition page_of (b : buffer) (p : nat) : nat := p - p mod size_of b.
  Definition on_page (b : buffer) (p : nat) : nat := p mod size_of b.

  (** file-stream.dylan:570-573 and 720-731: force the $null-buffer out at [p]. *)
  Definition force_null (r : direction) (d : disk) (nf p : nat) : outcome (disk * nat) :=
    do ' (d, b) <- force_buffer r d (Buffer [zero] 0 1 p true nf) ;
    Val (d, first b).

  (** file-stream.dylan:543-571, #"input". *)
  Definition adjust_input (s : stream) (p size : nat) : outcome (stream * answer A ()) :=
    let b := buf s in
    let new_base := page_of b p in
    let new_next := on_page b p in
    if size <? p then Val (s, Failed)
    else if has_in s && (new_base =? base b) && (first b <=? new_next) && (new_next <=? stop b)
    then Val (with_buf s (with_next b new_next), Ret ())
    else Val (Stream (disk_of s) (Buffer (data b) new_next new_next new_base (dirty b) new_next)
                true (has_out s) (dir s) (null_first s), Ret ()).

  (** file-stream.dylan:573-690, #"input-output". *)
  Definition adjust_input_output (s : stream) (p size : nat) : outcome (stream * answer A ()) :=
    let b := buf s in
    let d := disk_of s in
    let new_base := page_of b p in
    let new_next := on_page b p in
    if size <? p then
      do ' (d, b, nf) <-
        (if new_base =? base b then
           let e := base b + stop b in
           if e <? size then
             do ' (d, b) <- load_buffer_and_fill d b e (stop b) (size - e) ; Val (d, b, null_first s)
           else Val (d, b, null_first s)
         else
           do ' (d, b) <- force_buffer (dir s) d b ;
           do ' (d, b) <-
             (if new_base <? size then load_buffer_and_fill d b new_base 0 (size_of b)
              else do b <- buffer_fill b zero 0 (size_of b) ; Val (d, b)) ;
           let b := Buffer (data b) (next b) (stop b) new_base (dirty b) 0 in
           if new_next =? 0 then
             do ' (d, nf) <- force_null (dir s) d (null_first s) (p - 1) ; Val (d, b, nf)
           else Val (d, b, null_first s)) ;
      let b := Buffer (data b) new_next new_next (base b) true (first b) in
      Val (Stream d b false true (dir s) nf, Ret ())
    else if new_base =? base b then
      do ' (d, b) <-
        (if stop b <? size_of b then
           let e := base b + stop b in
           do ' (d, b) <-
             (if e <? size then
                do ' (d, b, _) <- load_buffer d b e (stop b) (Nat.min (size_of b) (size - e)) ; Val (d, b)
              else Val (d, b)) ;
           do b <- buffer_fill b zero (stop b) (size_of b) ;
           Val (d, b)
         else Val (d, b)) ;
      Val (Stream d (with_next b new_next) (has_in s) (negb (has_in s) || has_out s) (dir s) (null_first s), Ret ())
    else
      do ' (d, b) <- force_buffer (dir s) d b ;
      do ' (d, b) <- load_buffer_and_fill d b new_base 0 (size_of b) ;
      Val (Stream d (Buffer (data b) new_next (stop b) new_base false 0) (has_in s) (negb (has_in s) || has_out s)
             (dir s) (null_first s), Ret ()).

  (** file-stream.dylan:692-748, #"output". *)
  Definition adjust_output (s : stream) (p size : nat) : outcome (stream * answer A ()) :=
    let b := buf s in
    let new_base := page_of b p in
    let new_next := on_page b p in
    if (new_base =? base b) && (first b <=? new_next) && (new_next <=? stop b)
    then Val (Stream (disk_of s) (with_next b new_next) (has_in s) true (dir s) (null_first s), Ret ())
    else
      do ' (d, b) <- force_buffer (dir s) (disk_of s) b ;
      if size <? p then
        if new_next =? 0 then
          do ' (d, nf) <- force_null (dir s) d (null_first s) (p - 1) ;
          Val (Stream d (Buffer (data b) new_next new_next new_base (dirty b) new_next) (has_in s) true (dir s) nf, Ret ())
        else
          Val (Stream d (Buffer (<[(new_next - 1)%nat := zero]> (data b)) new_next new_next new_base true (new_next - 1))
                 (has_in s) true (dir s) (null_first s), Ret ())
      else Val (Stream d (Buffer (data b) new_next new_next new_base (dirty b) new_next)
                  (has_in s) true (dir s) (null_first s), Ret ()).

  (** file-stream.dylan:537-755 [adjust-stream-position-from-start]. *)
  Definition adjust_from_start (s : stream) (p size : nat) : outcome (stream * answer A ()) :=
    match dir s with
    | Input => adjust_input s p size
    | InputOutput => adjust_input_output s p size
    | Output => adjust_output s p size
    | Closed => Val (s, Failed)
    end.

  (** file-stream.dylan:464-483 [stream-position-setter]. *)
  Definition set_stream_position (s : stream) (p : Z) : outcome (stream * answer A ()) :=
    let '(s, a) := stream_size s in
    match a with
    | Ret size =>
      if ((0 <=? p) && (p <=? Z.of_nat size))%Z then adjust_from_start s (Z.to_nat p) size
      else Val (s, Failed)
    | _ => Val (s, Failed)
    end.
  (** file-stream.dylan:488-500 [writable-file-stream-position-setter]. *)
  Definition set_writable_position (s : stream) (p : Z) : outcome (stream * answer A ()) :=
    let '(s, a) := stream_size s in
    match a with
    | Ret size => if (0 <=? p)%Z then adjust_from_start s (Z.to_nat p) size else Val (s, Failed)
    | _ => Val (s, Failed)
    end.
  (** file-stream.dylan:502-531 [adjust-stream-position]. *)
  Definition adjust_stream_position (s : stream) (delta : Z) (from : reference) : outcome (stream * answer A ()) :=
    let '(s, a) := stream_size s in
    match a with
    | Ret size =>
      let p := match from with
               | FromCurrent => Z.of_nat (stream_position s) + delta
               | FromStart => delta
               | FromEnd => Z.of_nat size + delta
               end%Z in
      if ((p <? 0) || (write_only (dir s) && (Z.of_nat size <? p)))%Z then Val (s, Failed)
      else adjust_from_start s (Z.to_nat p) size
    | _ => Val (s, Failed)
    end.

  (** file-stream.dylan:759-764 [unread-element]. *)
  Definition unread_element (s : stream) (x : A) : outcome (stream * answer A A) :=
    andthen (adjust_stream_position s (-1) FromCurrent) (fun s _ => Val (s, Ret x)).

  (** file-stream.dylan:766-783 [read-to-end]. *)
  Definition read_to_end (fuel : nat) (s : stream) : outcome (stream * answer A (list A)) :=
    match dir s with
    | Closed => Val (s, Failed)
    | _ =>
      let '(s, a) := stream_size s in
      match a with
      | Ret size => read fuel s (Z.of_nat size - Z.of_nat (stream_position s)) false
      | _ => Val (s, Failed)
      end
    end.

  (** buffered-stream.dylan:482-489 [do-force-output] and file-stream.dylan:392-407
      [force-output-buffers], [do-force-output-buffers]; external-stream.dylan:76-84
      [force-output]. *)
  Definition force_output (s : stream) : outcome (stream * answer A ()) :=
    if writable (dir s) then
      andthen (get_output_buffer s) (fun s _ =>
        do ' (d, b) <- force_buffer (dir s) (disk_of s) (buf s) ;
        Val (with_disk s d b, Ret ()))
    else Val (s, Ret ()).

  (** file-stream.dylan:785-812 [stream-contents]. *)
  Definition stream_contents (fuel : nat) (s : stream) : outcome (stream * answer A (list A)) :=
    if negb (readable (dir s)) then Val (s, Failed)
    else
      let original := stream_position s in
      andthen (force_output s) (fun s _ =>
      andthen (set_stream_position s 0) (fun s _ =>
      let '(s, a) := stream_size s in
      match a with
      | Ret size =>
        andthen (read fuel s (Z.of_nat size) false) (fun s contents =>
        andthen (set_stream_position s (Z.of_nat original)) (fun s _ => Val (s, Ret contents)))
      | _ => Val (s, Failed)
      end)).

  (** file-stream.dylan:204-216 and external-stream.dylan:49-73 [close]. *)
  Definition close (s : stream) (abort : bool) : outcome (stream * answer A ()) :=
    match dir s with
    | Closed => Val (s, Ret ())
    | _ =>
      andthen (if abort then Val (s, Ret ()) else force_output s) (fun s _ =>
      Val (Stream (disk_of s) (buf s) false false Closed (null_first s), Ret ()))
    end.

  (** file-stream.dylan:68-104 [initialize]: the descriptor of the opened file is at
      [start] (0, or the end with [if-exists: #"append"]); the buffer has [size]
      elements.  unix-file-accessor.dylan:57-71 [accessor-open]. *)
  Definition make_stream (l : list A) (start size : nat) (r : direction) : outcome (stream * answer A ()) :=
    set_stream_position
      (Stream (Disk l start 0 false start) (Buffer (replicate size blank) 0 0 0 false 0) false false r 0)
      (Z.of_nat start).
End file_stream.
