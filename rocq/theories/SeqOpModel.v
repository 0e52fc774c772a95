(** Model of copy-sequence, fill! and replace-subsequence! on vectors, strings, stretchy vectors and
    deques: sources/dylan/sequence.dylan, mutable-sequence.dylan, vector.dylan, array.dylan,
    string-speed.dylan, stretchy-vector.dylan, deque.dylan.  (Lists are in ListModel.v.)
    Collections, heaps and iteration protocols are those of CollModel.v; a heap is needed because the
    sequence inserted may be the target itself.  Unchecked accesses outside a vector are [UB]. *)
From Verif Require Import Base CollModel AccModel.
From Coq Require Import ZArith.
Local Open Scope outcome_scope.
Local Open Scope Z_scope.

(** check-start-compute-end, sequence.dylan:497-511 *)
Definition check_start_compute_end (seq_size start : Z) (last : option Z) : outcome Z :=
  let last := match last with Some last => last | None => seq_size end in
  if start <? 0 then Signal "Invalid start"
  else if seq_size <? last then Signal "Invalid end"
  else if last <? start then Signal "Invalid bounds"
  else Val last.

Definition len (c : coll) : outcome Z := do n <- coll_size c ; Val (Z.of_nat n).

(** make(type, size: n) without fill: (vectors of #f, strings of spaces, deques of #f) *)
Definition make_sized (ty : ttype) (n : Z) : outcome coll :=
  make_filled ty (Z.to_nat n) (match ty with TVec VkString => VChr 32 | _ => VFalse end).

(** primitive-replace! and primitive-replace-bytes! between two vectors (lib/run-time/c-run-time.c:
    147-168): a memcpy of [n] elements; nothing happens when n <= 0.  Outside of the vectors it is [UB]. *)
Definition primitive_replace (dst : list value) (di : Z) (src : list value) (si n : Z) : outcome (list value) :=
  if n <=? 0 then Val dst
  else if (0 <=? di) && (di + n <=? Z.of_nat (length dst)) && (0 <=? si) && (si + n <=? Z.of_nat (length src)) then
    Val (take (Z.to_nat di) dst ++ take (Z.to_nat n) (drop (Z.to_nat si) src) ++ drop (Z.to_nat (di + n)) dst)
  else UB.

(** source[0], checked *)
Definition checked_element (c : coll) (z : Z) : outcome value :=
  do o <- element_nf c (KInt z) ;
  match o with Some v => Val v | None => Signal "element range" end.

(** result[j] := source[i] for j from [j], i from [i], [n] times, without bounds checks *)
Fixpoint vec_copy_loop (n : nat) (result : coll) (j : Z) (source : coll) (i : Z) : outcome coll :=
  match n with
  | O => Val result
  | S n =>
      do v <- array_read source i ;
      do result <- array_write v result j ;
      vec_copy_loop n result (j + 1) source (i + 1)
  end.

(** The inner loop of copy-sequence on <sequence>, sequence.dylan:529-535: for (index from first below last, ...) *)
Fixpoint fip_copy_loop (n : nat) (source : coll) (sf : fip) (s : state) (result : coll) (rf : fip) (rs : state) : outcome coll :=
  match n with
  | O => Val result
  | S n =>
      do v <- run_elt (f_elt sf) source s ;
      do result <- run_set (f_set rf) v result rs ;
      do s <- run_next (f_next sf) source s ;
      do rs <- run_next (f_next rf) result rs ;
      fip_copy_loop n source sf s result rf rs
  end.

(** copy-sequence on <sequence>, sequence.dylan:514-541 *)
Definition copy_sequence_sequence (source : coll) (first : Z) (last : option Z) : outcome coll :=
  do n <- len source ;
  do last <- check_start_compute_end n first last ;
  if first =? last then as_type (type_for_copy source) []
  else
    do v <- checked_element source 0 ;
    do result <- make_filled (type_for_copy source) (Z.to_nat (last - first)) v ;
    let sf := fip_of source in let rf := fip_of result in
    do s <- skip_states (Z.to_nat first) sf source (f_init sf) ;
    fip_copy_loop (Z.to_nat (last - first)) source sf s result rf (f_init rf).

(** copy-sequence on <vector>, vector.dylan:259-279 (stretchy vectors) *)
Definition copy_sequence_vector (source : coll) (first : Z) (last : option Z) : outcome coll :=
  do n <- len source ;
  do last <- check_start_compute_end n first last ;
  let sz := last - first in
  if sz <=? 0 then make_sized (type_for_copy source) 0
  else
    do fill <- checked_element source 0 ;
    do result <- make_filled (type_for_copy source) (Z.to_nat sz) fill ;
    vec_copy_loop (Z.to_nat sz) result 0 source first.

(** copy-sequence on <simple-object-vector>, vector.dylan:936-948, and on <byte-string>,
    string-speed.dylan:127-139 *)
Definition copy_sequence_primitive (k : vkind) (source : list value) (first : Z) (last : option Z) : outcome coll :=
  do last <- check_start_compute_end (Z.of_nat (length source)) first last ;
  let sz := last - first in
  do target <- make_sized (TVec k) sz ;
  match target with
  | CVec k target => do target <- primitive_replace target 0 source first sz ; Val (CVec k target)
  | _ => bad
  end.

(** copy-sequence on <object-deque>, deque.dylan:624-643 *)
Definition copy_sequence_deque (source : coll) (first : Z) (last : option Z) : outcome coll :=
  if negb (first =? 0) || (match last with Some _ => true | None => false end) then copy_sequence_sequence source first last
  else
    do n <- coll_size source ;
    do target <- make_sized TDeq (Z.of_nat n) ;
    fip_copy_loop n source (fip_of source) (f_init (fip_of source)) target (fip_of target) (f_init (fip_of target)).

Definition copy_sequence (source : coll) (first : Z) (last : option Z) : outcome coll :=
  match source with
  | CVec VkStretchy _ => copy_sequence_vector source first last
  | CVec k l => copy_sequence_primitive k l first last
  | CDeq _ _ => copy_sequence_deque source first last
  | _ => Signal "not modelled here"
  end.

(** ** fill! *)

(** fill! on <array>, array.dylan:229-238: the setter checks its index *)
Fixpoint fill_array_loop (n : nat) (place : Z -> nat -> Z) (target : coll) (v : value) (index : Z) : outcome coll :=
  match n with
  | O => Val target
  | S n => do target <- element_set place v target (KInt index) ; fill_array_loop n place target v (index + 1)
  end.
Definition fill_array (place : Z -> nat -> Z) (target : coll) (v : value) (start : Z) (last : option Z) : outcome coll :=
  do n <- len target ;
  do last <- check_start_compute_end n start last ;
  fill_array_loop (Z.to_nat (last - start)) place target v start.

(** fill! on <simple-object-vector>, vector.dylan:874-883; primitive-fill! stores [v] in n consecutive places *)
Definition primitive_fill (l : list value) (start n : Z) (v : value) : outcome (list value) :=
  if n <=? 0 then Val l
  else if (0 <=? start) && (start + n <=? Z.of_nat (length l)) then
    Val (take (Z.to_nat start) l ++ replicate (Z.to_nat n) v ++ drop (Z.to_nat (start + n)) l)
  else UB.
Definition fill_object_vector (l : list value) (v : value) (start : Z) (last : option Z) : outcome coll :=
  do last <- check_start_compute_end (Z.of_nat (length l)) start last ;
  do l <- primitive_fill l start (last - start) v ;
  Val (CVec VkObject l).

(** fill! on <mutable-collection>, mutable-collection.dylan:82-93 *)
Fixpoint fill_all_loop (fuel : nat) (target : coll) (f : fip) (s : state) (v : value) : outcome coll :=
  match fuel with
  | O => NoFuel
  | S fuel =>
      do b <- run_fin (f_fin f) target s (f_limit f) ;
      if b : bool then Val target
      else
        do target <- run_set (f_set f) v target s ;
        do s <- run_next (f_next f) target s ;
        fill_all_loop fuel target f s v
  end.

(** fill! on <mutable-sequence>, mutable-sequence.dylan:163-201: the loop to [start] ... *)
Fixpoint fill_seek (fuel : nat) (target : coll) (f : fip) (s : state) (index start : Z) : outcome (Z * state) :=
  match fuel with
  | O => NoFuel
  | S fuel =>
      if start =? index then Val (index, s)
      else
        do b <- run_fin (f_fin f) target s (f_limit f) ;
        if b : bool then Val (index, s)
        else
          do s <- run_next (f_next f) target s ;
          fill_seek fuel target f s (index + 1) start
  end.
(** ... and the one to [last] *)
Fixpoint fill_to (fuel : nat) (target : coll) (f : fip) (s : state) (v : value) (index last : Z) : outcome coll :=
  match fuel with
  | O => NoFuel
  | S fuel =>
      if index =? last then Val target
      else
        do b <- run_fin (f_fin f) target s (f_limit f) ;
        if b : bool then Signal "Invalid end"
        else
          do target <- run_set (f_set f) v target s ;
          do s <- run_next (f_next f) target s ;
          fill_to fuel target f s v (index + 1) last
  end.
Definition fill_sequence (fuel : nat) (target : coll) (v : value) (start : Z) (last : option Z) : outcome coll :=
  let f := fip_of target in
  if (start =? 0) && (match last with None => true | _ => false end) then fill_all_loop fuel target f (f_init f) v
  else
    do ' (index, s) <- fill_seek fuel target f (f_init f) 0 start ;
    if negb (index =? start) then Signal "Invalid start"
    else
      match last with
      | None => fill_all_loop fuel target f s v
      | Some last =>
          if index <=? last then fill_to fuel target f s v index last
          else Signal "Invalid bounds"
      end.

(** The method called, by the class of the target. *)
Definition fill_bang (fuel : nat) (place : Z -> nat -> Z) (target : coll) (v : value) (start : Z) (last : option Z) : outcome coll :=
  match target with
  | CVec VkObject l => fill_object_vector l v start last
  | CVec _ _ => fill_array place target v start last
  | CDeq _ _ | CList _ => fill_sequence fuel target v start last
  | _ => Signal "not modelled here"
  end.

(** ** replace-subsequence! *)

(** for (index from [index] below [last], e in insert) target[index] := e, without bounds checks;
    [a] is the object written, [s] the one iterated over *)
Fixpoint vec_insert_loop (fuel : nat) (h : heap) (a s : nat) (f : fip) (st : state) (index last : Z) : outcome heap :=
  match fuel with
  | O => NoFuel
  | S fuel =>
      if last <=? index then Val h
      else
        do src <- at_ h s ;
        do b <- run_fin (f_fin f) src st (f_limit f) ;
        if b : bool then Val h
        else
          do e <- run_elt (f_elt f) src st ;
          do c <- at_ h a ;
          do c <- array_write e c index ;
          do st <- run_next (f_next f) src st ;
          vec_insert_loop fuel (upd h a c) a s f st (index + 1) last
  end.

(** (<vector>, <vector>), vector.dylan:515-545.  The result is the heap and the address of the result. *)
Definition replace_vectors (fuel : nat) (h : heap) (t s : nat) (start : Z) (last : option Z) : outcome (heap * nat) :=
  do target <- at_ h t ;
  do insert <- at_ h s ;
  do target_size <- len target ;
  do insert_size <- len insert ;
  do last <- check_start_compute_end target_size start last ;
  let delete_size := last - start in
  if delete_size =? insert_size then
    do h <- vec_insert_loop fuel h t s (fip_of insert) (f_init (fip_of insert)) start last ;
    Val (h, t)
  else
    let new_size := target_size - delete_size + insert_size in
    do new_target <- make_sized (type_for_copy target) new_size ;
    let new_end := start + insert_size in
    do new_target <- vec_copy_loop (Z.to_nat start) new_target 0 target 0 ;
    let a := length h in
    do h <- vec_insert_loop fuel (h ++ [new_target]) a s (fip_of insert) (f_init (fip_of insert)) start new_end ;
    do new_target <- at_ h a ;
    do new_target <- vec_copy_loop (Z.to_nat (Z.min (target_size - last) (new_size - new_end))) new_target new_end target last ;
    Val (upd h a new_target, a).

(** for (state = ..., e in insert) current-element(target, state) := e; returns the last state too *)
Fixpoint fip_insert_loop (fuel : nat) (h : heap) (a : nat) (tf : fip) (ts : state) (s : nat) (f : fip) (st : state) : outcome (heap * state) :=
  match fuel with
  | O => NoFuel
  | S fuel =>
      do src <- at_ h s ;
      do b <- run_fin (f_fin f) src st (f_limit f) ;
      if b : bool then Val (h, ts)
      else
        do e <- run_elt (f_elt f) src st ;
        do c <- at_ h a ;
        do c <- run_set (f_set tf) e c ts ;
        do ts <- run_next (f_next tf) c ts ;
        do st <- run_next (f_next f) src st ;
        fip_insert_loop fuel (upd h a c) a tf ts s f st
  end.

(** current-element(new-target, state) := o-current-element(target, o-state), [n] times *)
Fixpoint fip_move_loop (n : nat) (target : coll) (o : fip) (os : state) (result : coll) (rf : fip) (rs : state) : outcome (coll * state * state) :=
  match n with
  | O => Val (result, os, rs)
  | S n =>
      do v <- run_elt (f_elt o) target os ;
      do result <- run_set (f_set rf) v result rs ;
      do os <- run_next (f_next o) target os ;
      do rs <- run_next (f_next rf) result rs ;
      fip_move_loop n target o os result rf rs
  end.

(** (<mutable-sequence>, <sequence>), mutable-sequence.dylan:88-156.  The replaced segment is skipped
    with the next-state function of the new target (139), here the protocol [nf]. *)
Definition replace_mutable (fuel : nat) (h : heap) (t s : nat) (start : Z) (last : option Z) : outcome (heap * nat) :=
  do target <- at_ h t ;
  do insert <- at_ h s ;
  do target_size <- len target ;
  do insert_size <- len insert ;
  do last <- check_start_compute_end target_size start last ;
  let delete_size := last - start in
  let o := fip_of target in
  let f := fip_of insert in
  if delete_size =? insert_size then
    do ts <- skip_states (Z.to_nat start) o target (f_init o) ;
    do ' (h, _) <- fip_insert_loop fuel h t o ts s f (f_init f) ;
    Val (h, t)
  else
    let new_size := target_size - delete_size + insert_size in
    do new_target <- make_sized (type_for_copy target) new_size ;
    let nf := fip_of new_target in
    let a := length h in
    if (start =? 0) && (last =? target_size) then
      do ' (h, _) <- fip_insert_loop fuel (h ++ [new_target]) a nf (f_init nf) s f (f_init f) ;
      Val (h, a)
    else
      do ' (new_target, os, rs) <- fip_move_loop (Z.to_nat start) target o (f_init o) new_target nf (f_init nf) ;
      do ' (h, rs) <- fip_insert_loop fuel (h ++ [new_target]) a nf rs s f (f_init f) ;
      if last =? target_size then Val (h, a)
      else
        do os <- skip_states (Z.to_nat (last - start)) nf target os ;
        do new_target <- at_ h a ;
        do ' (new_target, _, _) <- fip_move_loop (Z.to_nat (target_size - last)) target o os new_target nf rs ;
        Val (upd h a new_target, a).

(** for (di from [di], e in src) dst[di] := e; the setter makes the deque longer.  Returns di. *)
Fixpoint deque_insert_loop (fuel : nat) (place : Z -> nat -> Z) (h : heap) (t s : nat) (f : fip) (st : state) (di : Z) : outcome (heap * Z) :=
  match fuel with
  | O => NoFuel
  | S fuel =>
      do src <- at_ h s ;
      do b <- run_fin (f_fin f) src st (f_limit f) ;
      if b : bool then Val (h, di)
      else
        do e <- run_elt (f_elt f) src st ;
        do dst <- at_ h t ;
        do dst <- element_set place e dst (KInt di) ;
        let h := upd h t dst in
        do src <- at_ h s ;
        do st <- run_next (f_next f) src st ;
        deque_insert_loop fuel place h t s f st (di + 1)
  end.

(** dst[di] := dst[si], [n] times, both stepping by [by_] *)
Fixpoint deque_move (n : nat) (place : Z -> nat -> Z) (dst : coll) (di si by_ : Z) : outcome coll :=
  match n with
  | O => Val dst
  | S n =>
      do v <- checked_element dst si ;
      do dst <- element_set place v dst (KInt di) ;
      deque_move n place dst (di + by_) (si + by_) by_
  end.

(** size-setter *)
Definition set_size (place : Z -> nat -> Z) (c : coll) (n : Z) : outcome coll :=
  if n <? 0 then bad else resize place c (Z.to_nat n).

(** (<stretchy-mutable-sequence>, <sequence>), stretchy-vector.dylan:27-59: deques *)
Definition replace_deque (fuel : nat) (place : Z -> nat -> Z) (h : heap) (t s : nat) (start : Z) (last : option Z) : outcome (heap * nat) :=
  do dst <- at_ h t ;
  do src <- at_ h s ;
  do dst_size <- len dst ;
  do src_size <- len src ;
  let last := match last with Some last => last | None => dst_size end in
  let new_size := start + (src_size + (dst_size - last)) in
  let insert h := do src <- at_ h s ; deque_insert_loop fuel place h t s (fip_of src) (f_init (fip_of src)) start in
  if new_size <? dst_size then
    do ' (h, di) <- insert h ;
    do dst <- at_ h t ;
    do dst <- deque_move (Z.to_nat (dst_size - last)) place dst di last 1 ;
    do dst <- set_size place dst new_size ;
    Val (upd h t dst, t)
  else if dst_size <? new_size then
    do dst <- set_size place dst new_size ;
    do dst <- deque_move (Z.to_nat (dst_size - last)) place dst (new_size - 1) (dst_size - 1) (-1) ;
    do ' (h, _) <- insert (upd h t dst) ;
    Val (h, t)
  else
    do ' (h, _) <- insert h ;
    Val (h, t).

(** The method called, by the classes of the two sequences. *)
Definition replace_subsequence (fuel : nat) (place : Z -> nat -> Z) (h : heap) (t s : nat) (start : Z) (last : option Z) : outcome (heap * nat) :=
  do target <- at_ h t ;
  do insert <- at_ h s ;
  match target, insert with
  | CVec _ _, CVec _ _ => replace_vectors fuel h t s start last
  | CVec _ _, _ => replace_mutable fuel h t s start last
  | CDeq _ _, _ => replace_deque fuel place h t s start last
  | _, _ => Signal "not modelled here"
  end.
