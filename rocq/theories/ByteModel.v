(** Model of the byte-vector module, sources/common-dylan/byte-vector.dylan.  A <byte-vector>, <byte-string> or
    vector is the list of its elements (bytes, character codes).  Writing outside of an object is UB. *)
From Verif Require Import Base IntModel NumStrModel.
From Coq Require Import ZArith.
Local Open Scope outcome_scope.
Local Open Scope Z_scope.

(** check-start-compute-end, sources/dylan/sequence.dylan:498-511 *)
Definition check_start_compute_end (size start : Z) (last : option Z) : outcome Z :=
  let last := match last with None => size | Some last => last end in
  if start <? 0 then Signal "Invalid start"
  else if size <? last then Signal "Invalid end"
  else if last <? start then Signal "Invalid bounds"
  else Val last.

(** primitive-fill-bytes!: memset, sources/lib/run-time/c-run-time.c:127-132; offset and size as they come from
    byte-vector-fill.  memset stores the low byte of the value. *)
Definition fill_bytes (dst : list Z) (offset size value : Z) : outcome (list Z) :=
  if 0 <? size then
    if (offset <? 0) || (Z.of_nat (length dst) <? offset + size) then UB
    else Val (take (Z.to_nat offset) dst ++ replicate (Z.to_nat size) (value mod 256) ++ drop (Z.to_nat (offset + size)) dst)
  else Val dst.

(** byte-vector-fill, byte-vector.dylan:32-38 and 41-47 (a character is given by its code) *)
Definition byte_vector_fill (target : list Z) (value : Z) (start : Z) (last : option Z) : outcome (list Z) :=
  do last <- check_start_compute_end (Z.of_nat (length target)) start last ;
  do n <- int_result (last - start) ;
  do n <- int_result (n + 1) ;
  fill_bytes target start n value.

(** Two byte ranges of one object overlap. *)
Definition overlap (a b n : Z) : bool := (a <? b + n) && (b <? a + n).

(** primitive-replace-bytes!: memcpy, sources/lib/run-time/c-run-time.c:147-155, within two objects or (same) one:
    memcpy is undefined if the ranges overlap. *)
Definition replace_bytes (same : bool) (dst : list Z) (dst_start : Z) (src : list Z) (src_start n : Z) : outcome (list Z) :=
  if 0 <? n then
    if same && overlap dst_start src_start n then UB
    else if (dst_start <? 0) || (src_start <? 0) || (Z.of_nat (length dst) <? dst_start + n) || (Z.of_nat (length src) <? src_start + n) then UB
    else Val (take (Z.to_nat dst_start) dst ++ take (Z.to_nat n) (drop (Z.to_nat src_start) src) ++ drop (Z.to_nat (dst_start + n)) dst)
  else Val dst.

(** copy-bytes between byte vectors and byte strings, byte-vector.dylan:106-164; if [same], src is dst *)
Definition copy_bytes (same : bool) (dst : list Z) (dst_start : Z) (src : list Z) (src_start n : Z) : outcome (list Z) :=
  do src_end <- int_result (src_start + n) ;
  do dst_end <- int_result (dst_start + n) ;
  if (0 <=? n) && (0 <=? src_start) && (0 <=? dst_start) && (src_end <=? Z.of_nat (length src)) && (dst_end <=? Z.of_nat (length dst))
  then replace_bytes same dst dst_start src src_start n
  else Signal "SRC-START DST-START AND N OUTSIDE OF SRC AND DST".

(** element and element-setter with bounds checks *)
Definition elt (v : list Z) (i : Z) : outcome Z :=
  if i <? 0 then Signal "element-range-error" else match v !! Z.to_nat i with Some x => Val x | None => Signal "element-range-error" end.
Definition set_elt (v : list Z) (i x : Z) : outcome (list Z) :=
  if (i <? 0) || (Z.of_nat (length v) <=? i) then Signal "element-range-error" else Val (<[Z.to_nat i := x]> v).

(** The loop of copy-bytes on other sequences, byte-vector.dylan:54-101; [k] turns from i on.  If [same], what is
    stored can be read again. *)
Fixpoint copy_loop (same : bool) (k : nat) (i : Z) (dst : list Z) (dst_start : Z) (src : list Z) (src_start : Z) : outcome (list Z) :=
  match k with
  | O => Val dst
  | S k =>
      do x <- elt (if same then dst else src) (src_start + i) ;
      do dst <- set_elt dst (dst_start + i) x ;
      copy_loop same k (i + 1) dst dst_start src src_start
  end.
Definition copy_bytes_general (same : bool) (dst : list Z) (dst_start : Z) (src : list Z) (src_start n : Z) : outcome (list Z) :=
  copy_loop same (Z.to_nat n) 0 dst dst_start src src_start.

(** The loop of from-hexstring, byte-vector.dylan:210-218, without bounds checks *)
Definition raw_elt (v : list Z) (i : Z) : outcome Z :=
  if i <? 0 then UB else match v !! Z.to_nat i with Some x => Val x | None => UB end.
Definition raw_set (v : list Z) (i x : Z) : outcome (list Z) :=
  if (i <? 0) || (Z.of_nat (length v) <=? i) then UB else Val (<[Z.to_nat i := x]> v).

Fixpoint from_hex_loop (fuel : nat) (string : list Z) (i : Z) (result : list Z) : outcome (list Z) :=
  match fuel with
  | O => NoFuel
  | S fuel =>
      if i <? Z.of_nat (length string) - 1 then
        do hi <- raw_elt string i ;
        do lo <- raw_elt string (i + 1) ;
        let b := Z.shiftl (Z.land hi 15 + 9 * Z.shiftr hi 6) 4 + Z.land lo 15 + 9 * Z.shiftr lo 6 in
        if (0 <=? b) && (b <=? 255) then
          do result <- raw_set result (i / 2) b ;
          from_hex_loop fuel string (i + 2) result
        else Signal "not of type <byte>"
      else Val result
  end.

(** from-hexstring, byte-vector.dylan:202-221 *)
Definition from_hexstring (string : list Z) : outcome (list Z) :=
  if Z.odd (Z.of_nat (length string)) then Signal "String size must be multiple of 2."
  else from_hex_loop (S (length string)) string 0 (replicate (Nat.div (length string) 2) 0).

(** The loop of hexstring, byte-vector.dylan:227-236; [k] turns from i on *)
Definition hex_code (d : Z) : Z := Z.lor d 48 + (if 10 <=? d then 39 else 0).
Fixpoint hex_loop (k : nat) (i : Z) (data result : list Z) : outcome (list Z) :=
  match k with
  | O => Val result
  | S k =>
      do b <- raw_elt data i ;
      let lo := Z.land b 15 in
      let hi := Z.shiftr b 4 in
      do result <- raw_set result (i * 2) (hex_code hi) ;
      do result <- raw_set result (i * 2 + 1) (hex_code lo) ;
      hex_loop k (i + 1) data result
  end.

(** hexstring, byte-vector.dylan:223-239 *)
Definition hexstring (data : list Z) : outcome (list Z) :=
  hex_loop (length data) 0 data (replicate (length data * 2) 32).
