(** Model of sources/collections/bit-vector.dylan and bit-set.dylan.

    64-bit words are numbers below 2^64.  Bit vectors live in a heap (a list, addressed by
    position) so that the destructive operations may be applied to a vector and itself.
    Simplifications: make(<bit-vector>, size: 0) returns a fresh empty vector instead of the
    shared $empty-bit-vector (it has no words to change); reading or writing a word outside
    the vector is [UB]; sizes are natural numbers and do not overflow <integer>. *)
From Verif Require Import Base.
Local Open Scope nat_scope.
Local Open Scope outcome_scope.

(** bit-vector.dylan:15-20 constants (64-bit target). *)
Definition word_bits : nat := 64.
Definition log_word_size : nat := 6.
Definition word_zero : N := 0%N.
Definition word_minus_one : N := N.ones 64.

(** primitive-machine-word-logand, -logior, -logxor, -lognot, -shift-left-low,
    -unsigned-shift-right, -unsigned-rotate-left, -logbit?, -count-ones. *)
Definition wand (a b : N) : N := N.land a b.
Definition wor (a b : N) : N := N.lor a b.
Definition wxor (a b : N) : N := N.lxor a b.
Definition wnot (a : N) : N := N.ldiff (N.ones 64) a.
Definition wshl (a : N) (k : nat) : N := N.land (N.shiftl a (N.of_nat k)) (N.ones 64).
Definition wshr1 (a : N) : N := N.shiftr a 1.
Definition wrotl1 (a : N) : N := N.lor (N.land (N.shiftl a 1) (N.ones 64)) (N.shiftr a 63).
Definition wbit (a : N) (k : nat) : bool := N.testbit a (N.of_nat k).
Fixpoint count_ones_loop (n : nat) (a : N) : nat :=
  match n with
  | O => 0
  | S n' => (if N.odd a then 1 else 0) + count_ones_loop n' (N.div2 a)
  end.
Definition wcount_ones (a : N) : nat := count_ones_loop 64 a.

(** bit-vector.dylan:28-36 compute-word-offset, compute-bit-offset:
    ash(index, -6) and logand(index, 63). *)
Definition word_offset (i : nat) : nat := i / word_bits.
Definition bit_offset (i : nat) : nat := i mod word_bits.

(** bit-vector.dylan:71-82 raw-mask-for-bits-above, raw-mask-for-bits-strictly-below. *)
Definition mask_above (b : nat) : N := wshl word_minus_one b.
Definition mask_strictly_below (b : nat) : N := wnot (wshl word_minus_one b).

(** bit-vector.dylan:84-94 raw-mask-and-pad-word.  A <bit> is a boolean. *)
Definition mask_and_pad_word (w : N) (b : nat) (pad : bool) : N :=
  if Nat.eqb b 0 then w
  else if negb pad then wand w (mask_strictly_below b)
  else wor w (mask_above b).

(** bit-vector.dylan:496-504 <bit-vector>. *)
Record bitvec := BV { bv_size : nat; bv_words : list N }.
Notation heap := (list bitvec).
Definition word_size (v : bitvec) : nat := length (bv_words v).

Definition get (h : heap) (a : nat) : outcome bitvec :=
  match h !! a with Some v => Val v | None => UB end.

(** The repeated slot bit-vector-word and its setter. *)
Definition word (h : heap) (a i : nat) : outcome N :=
  do v <- get h a; vread (bv_words v) i.
Definition set_word (h : heap) (a i : nat) (w : N) : outcome heap :=
  do v <- get h a;
  do ws <- vwrite (bv_words v) i w;
  Val (<[a := BV (bv_size v) ws]> h).

(** for (i from [i], [n] times) bit-vector-word(r, i) := f(i), where f may look at the heap. *)
Fixpoint for_words (f : heap -> nat -> outcome N) (r : nat) (h : heap) (i n : nat)
  : outcome heap :=
  match n with
  | O => Val h
  | S n' =>
      do w <- f h i;
      do h' <- set_word h r i w;
      for_words f r h' (S i) n'
  end.

(** bit-vector.dylan:102-121 copy-bit-vector-word. *)
Definition copy_bit_vector_word (h : heap) (src dst wo bit_limit : nat) (fill : bool)
  : outcome heap :=
  let bl := bit_offset bit_limit in
  do s <- word h src wo;
  if Nat.eqb bl 0 then set_word h dst wo s
  else set_word h dst wo
         (if negb fill then wand s (mask_strictly_below bl) else wor s (mask_above bl)).

(** bit-vector.dylan:521-557 make(<bit-vector>).  [copy_from] = None stands for the default
    $empty-bit-vector. *)
Definition make_bv (h : heap) (bit_size : nat) (round_up fill : bool) (copy_from : option nat)
  : outcome (heap * nat) :=
  let a := length h in
  if Nat.eqb bit_size 0 then Val (h ++ [BV 0 []], a)
  else
    let wsize := word_offset (bit_size - 1) + 1 in
    let bit_size := if round_up then wsize * word_bits else bit_size in
    let word_fill := if negb fill then word_zero else word_minus_one in
    let h1 := h ++ [BV bit_size (replicate wsize 0%N)] in
    do h2 <- for_words (fun _ _ => Val word_fill) a h1 0 wsize;
    match copy_from with
    | None => Val (h2, a)
    | Some c =>
        do cv <- get h2 c;
        if Nat.eqb (bv_size cv) 0 then Val (h2, a)
        else if bit_size <=? bv_size cv then
          do h3 <- for_words (fun h i => word h c i) a h2 0 wsize;
          Val (h3, a)
        else
          let last := word_size cv - 1 in
          do h3 <- for_words (fun h i => word h c i) a h2 0 last;
          do h4 <- copy_bit_vector_word h3 c a last (bv_size cv) fill;
          Val (h4, a)
    end.

(** bit-vector.dylan:661-680 element-no-bounds-check. *)
Definition element_no_bounds_check (h : heap) (a i : nat) : outcome bool :=
  do w <- word h a (word_offset i); Val (wbit w (bit_offset i)).

(** bit-vector.dylan:624-655 element (no default:). *)
Definition bv_element (h : heap) (a i : nat) : outcome bool :=
  do v <- get h a;
  if i <? bv_size v then element_no_bounds_check h a i
  else Signal "element-range-error"%string.

(** bit-vector.dylan:725-750 element-no-bounds-check-setter. *)
Definition element_no_bounds_check_setter (bit : bool) (h : heap) (a i : nat) : outcome heap :=
  do w <- word h a (word_offset i);
  set_word h a (word_offset i)
    (if negb bit then wand w (wnot (wshl 1 (bit_offset i)))
     else wor w (wshl 1 (bit_offset i))).

(** bit-vector.dylan:686-719 element-setter. *)
Definition bv_element_setter (bit : bool) (h : heap) (a i : nat) : outcome heap :=
  do v <- get h a;
  if i <? bv_size v then element_no_bounds_check_setter bit h a i
  else Signal "element-range-error"%string.

(** ash(-1, k) on <integer> (sources/dylan/integer.dylan:344-359): the tagged -1 is -4; its
    left shift by 62 or more overflows the machine word and signals. *)
Definition ash_minus_one (k : nat) : outcome N :=
  if k <? 62 then Val (mask_above k) else Signal "arithmetic-overflow-error"%string.

(** bit-vector.dylan:756-848 fill!.  [last] = None stands for end: not supplied.  The code
    does not check start and end. *)
Definition fill_bang (h : heap) (a : nat) (value : bool) (start : nat) (last : option nat)
  : outcome heap :=
  do v <- get h a;
  if 0 <? bv_size v then
    let last := match last with None => bv_size v | Some l => l end in
    let swo := word_offset start in
    let lwo := word_offset last in
    let sbo := bit_offset start in
    let lbo := bit_offset last in
    if Nat.eqb lwo swo then
      do start_mask <- ash_minus_one sbo;
      do last_mask <- ash_minus_one lbo;
      do w <- word h a swo;
      if negb value then set_word h a swo (wand (wor last_mask (wnot start_mask)) w)
      else set_word h a swo (wor (wxor last_mask start_mask) w)
    else
      do ' (h1, lwo1) <-
        (if Nat.eqb last (bv_size v) then Val (h, word_size v)
         else if negb (Nat.eqb lbo 0) then
           do w <- word h a lwo;
           do h' <- set_word h a lwo
                      (if negb value then wand w (mask_above lbo)
                       else wor w (mask_strictly_below lbo));
           Val (h', lwo)
         else Val (h, lwo));
      do ' (h2, swo2) <-
        (if negb (Nat.eqb sbo 0) then
           do w <- word h1 a swo;
           do h' <- set_word h1 a swo
                      (if negb value then wand w (mask_strictly_below sbo)
                       else wor w (mask_above sbo));
           Val (h', swo + 1)
         else Val (h1, swo));
      if swo2 <? lwo1 then
        for_words (fun _ _ => Val (if negb value then word_zero else word_minus_one))
          a h2 swo2 (lwo1 - swo2)
      else Val h2
  else Val h.

(** *** Combining two vectors.  The five internal functions have one shape: [op] combines a
    word of v1 (the smaller vector) with one of v2; [tail p1] gives the words of the result
    beyond v1: a constant, or a function of the word of v2. *)
Inductive tail_words := TConst (w : N) | TWord (f : N -> N).

Definition internal (op : N -> N -> N) (tail : bool -> tail_words)
    (h : heap) (r v1 v2 : nat) (p1 : bool) : outcome heap :=
  do rv <- get h r;
  do vv1 <- get h v1;
  let ws1 := word_size vv1 in
  let word_limit := ws1 - 1 in
  do h1 <- for_words (fun h i => do x <- word h v1 i; do y <- word h v2 i; Val (op x y))
             r h 0 word_limit;
  if Nat.eqb (bv_size vv1) (bv_size rv) then
    do x <- word h1 v1 word_limit;
    do y <- word h1 v2 word_limit;
    set_word h1 r word_limit (op x y)
  else
    (* word-limit >= 0 *)
    do h2 <- (if 0 <? ws1 then
                do x <- word h1 v1 word_limit;
                do y <- word h1 v2 word_limit;
                set_word h1 r word_limit
                  (op (mask_and_pad_word x (bit_offset (bv_size vv1)) p1) y)
              else Val h1);
    if ws1 <? word_size rv then
      for_words (fun h i => match tail p1 with
                            | TConst w => Val w
                            | TWord f => do y <- word h v2 i; Val (f y)
                            end) r h2 ws1 (word_size rv - ws1)
    else Val h2.

(** bit-vector.dylan:160-214 bit-vector-and-internal!. *)
Definition and_internal := internal (fun x y => wand x y)
  (fun p1 => if negb p1 then TConst word_zero else TWord (fun y => y)).
(** bit-vector.dylan:217-277 bit-vector-andc2-internal!. *)
Definition andc2_internal := internal (fun x y => wand x (wnot y))
  (fun p1 => if negb p1 then TConst word_zero else TWord wnot).
(** bit-vector.dylan:279-339 bit-vector-andc2-internal-swapped!. *)
Definition andc2_internal_swapped := internal (fun x y => wand (wnot x) y)
  (fun p1 => if negb p1 then TWord (fun y => y) else TConst word_zero).
(** bit-vector.dylan:342-398 bit-vector-or-internal!. *)
Definition or_internal := internal (fun x y => wor x y)
  (fun p1 => if negb p1 then TWord (fun y => y) else TConst word_minus_one).
(** bit-vector.dylan:401-457 bit-vector-xor-internal!. *)
Definition xor_internal := internal (fun x y => wxor x y)
  (fun p1 => if negb p1 then TWord (fun y => y) else TWord wnot).

(** "Sort vectors so that v1.size <= v2.size": e.g. bit-vector.dylan:926-932. *)
Definition sorted_internal (f g : heap -> nat -> nat -> nat -> bool -> outcome heap)
    (h : heap) (r a1 a2 : nat) (s1 s2 : nat) (pad1 pad2 : bool) : outcome heap :=
  if s1 <=? s2 then f h r a1 a2 pad1 else g h r a2 a1 pad2.

Section combining.
Context (f g : heap -> nat -> nat -> nat -> bool -> outcome heap).
Context (result_size : bool -> bool -> nat -> nat -> nat).
Context (in_place : bool -> bool).
Context (result_pad : bool -> bool -> bool).

(** The non-destructive functions, bit-vector.dylan:903-935, 970-1000, 1033-1065, 1100-1119. *)
Definition bv_combine (h : heap) (a1 a2 : nat) (pad1 pad2 : bool) : outcome (heap * nat * bool) :=
  do v1 <- get h a1;
  do v2 <- get h a2;
  let rs := result_size pad1 pad2 (bv_size v1) (bv_size v2) in
  do ' (h1, r) <- make_bv h rs false false None;
  do h2 <- (if 0 <? rs then sorted_internal f g h1 r a1 a2 (bv_size v1) (bv_size v2) pad1 pad2
            else Val h1);
  Val (h2, r, result_pad pad1 pad2).

(** The destructive ones, bit-vector.dylan:941-964, 1006-1027, 1071-1094, 1125-1148.
    [in_place pad1] is the condition besides vector2.size <= vector1.size under which vector1
    itself is the result. *)
Definition combine_bang (h : heap) (a1 a2 : nat) (pad1 pad2 : bool)
  : outcome (heap * nat * bool) :=
  do v1 <- get h a1;
  do v2 <- get h a2;
  do ' (h1, r, rs) <-
    (if (bv_size v2 <=? bv_size v1) || in_place pad1 then Val (h, a1, bv_size v1)
     else do ' (h', r) <- make_bv h (bv_size v2) false false None; Val (h', r, bv_size v2));
  do h2 <- (if 0 <? rs then sorted_internal f g h1 r a1 a2 (bv_size v1) (bv_size v2) pad1 pad2
            else Val h1);
  Val (h2, r, result_pad pad1 pad2).
End combining.

(** bit-vector.dylan:908-921, 975-988, 1038-1051, 1105 result-size. *)
Definition and_size (p1 p2 : bool) (s1 s2 : nat) : nat :=
  if negb p1 then (if negb p2 then Nat.min s1 s2 else s1)
  else (if negb p2 then s2 else Nat.max s1 s2).
Definition andc2_size (p1 p2 : bool) (s1 s2 : nat) : nat :=
  if negb p1 then (if negb p2 then s1 else Nat.min s1 s2)
  else (if negb p2 then Nat.max s1 s2 else s2).
Definition or_size (p1 p2 : bool) (s1 s2 : nat) : nat :=
  if negb p1 then (if negb p2 then Nat.max s1 s2 else s2)
  else (if negb p2 then s1 else Nat.min s1 s2).
Definition xor_size (p1 p2 : bool) (s1 s2 : nat) : nat := Nat.max s1 s2.

Definition andc2_pad (p1 p2 : bool) : bool := p1 && negb p2.

Definition bit_vector_and := bv_combine and_internal and_internal and_size andb.
Definition bit_vector_andc2 := bv_combine andc2_internal andc2_internal_swapped andc2_size andc2_pad.
Definition bit_vector_or := bv_combine or_internal or_internal or_size orb.
Definition bit_vector_xor := bv_combine xor_internal xor_internal xor_size xorb.

Definition bit_vector_and_bang := combine_bang and_internal and_internal negb andb.
Definition bit_vector_andc2_bang :=
  combine_bang andc2_internal andc2_internal_swapped negb andc2_pad.
Definition bit_vector_or_bang := combine_bang or_internal or_internal (fun p => p) orb.
Definition bit_vector_xor_bang := combine_bang xor_internal xor_internal (fun _ => false) xorb.

(** bit-vector.dylan:1154-1163 bit-vector-not. *)
Definition bit_vector_not (h : heap) (a : nat) (pad : bool) : outcome (heap * nat * bool) :=
  do v <- get h a;
  do ' (h1, r) <- make_bv h (bv_size v) false false None;
  do h2 <- for_words (fun h i => do w <- word h a i; Val (wnot w)) r h1 0 (word_size v);
  Val (h2, r, negb pad).

(** bit-vector.dylan:1169-1177 bit-vector-not!. *)
Definition bit_vector_not_bang (h : heap) (a : nat) (pad : bool) : outcome (heap * nat * bool) :=
  do v <- get h a;
  do h2 <- for_words (fun h i => do w <- word h a i; Val (wnot w)) a h 0 (word_size v);
  Val (h2, a, negb pad).

(** bit-vector.dylan:1183-1209 bit-count. *)
Fixpoint count_words (h : heap) (a wsize bo i n count : nat) : outcome nat :=
  match n with
  | O => Val count
  | S n' =>
      do w <- word h a i;
      let w := if Nat.eqb i (wsize - 1) && negb (Nat.eqb bo 0)
               then wand w (mask_strictly_below bo) else w in
      count_words h a wsize bo (S i) n' (count + wcount_ones w)
  end.

Definition bit_count (h : heap) (a : nat) (bit_value : bool) : outcome nat :=
  do v <- get h a;
  do c <- count_words h a (word_size v) (bit_offset (bv_size v)) 0 (word_size v) 0;
  Val (if negb bit_value then bv_size v - c else c).

(** copy-sequence on a <bit-vector> is the one of <vector> (sources/dylan/vector.dylan), bit
    by bit into make(type-for-copy(v), size: n). *)
Fixpoint copy_bits (h : heap) (src dst i n : nat) : outcome heap :=
  match n with
  | O => Val h
  | S n' =>
      do b <- bv_element h src i;
      do h' <- bv_element_setter b h dst i;
      copy_bits h' src dst (S i) n'
  end.
Definition bv_copy_sequence (h : heap) (a : nat) : outcome (heap * nat) :=
  do v <- get h a;
  do ' (h1, r) <- make_bv h (bv_size v) false false None;
  do h2 <- copy_bits h1 a r 0 (bv_size v);
  Val (h2, r).

(** ** Bit sets *)

(** bit-set.dylan:12-16 <bit-set>. *)
Record bset := BS { bs_pad : bool; bs_vec : nat }.
Notation sets := (list bset).
Definition state := (heap * sets)%type.

Definition get_set (s : sets) (k : nat) : outcome bset :=
  match s !! k with Some b => Val b | None => UB end.

(** bit-set.dylan:122-140 set-add!. *)
Definition set_add_bang (h : heap) (b : bset) (x : Z) : outcome (heap * bset) :=
  if (x <? 0)%Z then Signal "element-range-error"%string
  else
    let i := Z.to_nat x in
    do v <- get h (bs_vec b);
    if bv_size v <=? i then
      if negb (bs_pad b) then
        do ' (h1, r) <- make_bv h (i + 1) true false (Some (bs_vec b));
        do h2 <- element_no_bounds_check_setter true h1 r i;
        Val (h2, BS (bs_pad b) r)
      else Val (h, b)
    else
      do h2 <- element_no_bounds_check_setter true h (bs_vec b) i;
      Val (h2, b).

(** bit-set.dylan:178-196 set-remove!. *)
Definition set_remove_bang (h : heap) (b : bset) (x : Z) : outcome (heap * bset) :=
  if (x <? 0)%Z then Signal "element-range-error"%string
  else
    let i := Z.to_nat x in
    do v <- get h (bs_vec b);
    if bv_size v <=? i then
      if bs_pad b then
        do ' (h1, r) <- make_bv h (i + 1) true true (Some (bs_vec b));
        do h2 <- element_no_bounds_check_setter false h1 r i;
        Val (h2, BS (bs_pad b) r)
      else Val (h, b)
    else
      do h2 <- element_no_bounds_check_setter false h (bs_vec b) i;
      Val (h2, b).

(** bit-set.dylan:99-116 set-add. *)
Definition set_add (h : heap) (b : bset) (x : Z) : outcome (heap * bset) :=
  if (x <? 0)%Z then Signal "element-range-error"%string
  else
    let i := Z.to_nat x in
    do v <- get h (bs_vec b);
    do ' (h1, r) <- (if (bv_size v <=? i) && negb (bs_pad b)
                     then make_bv h (i + 1) true false (Some (bs_vec b))
                     else bv_copy_sequence h (bs_vec b));
    do rv <- get h1 r;
    do h2 <- (if i <? bv_size rv then element_no_bounds_check_setter true h1 r i else Val h1);
    Val (h2, BS (bs_pad b) r).

(** bit-set.dylan:155-172 set-remove. *)
Definition set_remove (h : heap) (b : bset) (x : Z) : outcome (heap * bset) :=
  if (x <? 0)%Z then Signal "element-range-error"%string
  else
    let i := Z.to_nat x in
    do v <- get h (bs_vec b);
    do ' (h1, r) <- (if (bv_size v <=? i) && bs_pad b
                     then make_bv h (i + 1) true true (Some (bs_vec b))
                     else bv_copy_sequence h (bs_vec b));
    do rv <- get h1 r;
    do h2 <- (if i <? bv_size rv then element_no_bounds_check_setter false h1 r i else Val h1);
    Val (h2, BS (bs_pad b) r).

Fixpoint add_members (h : heap) (b : bset) (members : list Z) : outcome (heap * bset) :=
  match members with
  | [] => Val (h, b)
  | x :: r => do ' (h', b') <- set_add_bang h b x; add_members h' b' r
  end.

(** bit-set.dylan:22-46 initialize.  The first vector is the slot's default make(<bit-vector>,
    size: 0). *)
Definition make_set (h : heap) (hint all_from : option nat) (members : list Z)
  : outcome (heap * bset) :=
  do ' (h0, e) <- make_bv h 0 false false None;
  do ' (h1, b) <-
    match all_from, hint with
    | Some n, _ => do ' (h', r) <- make_bv h0 n false false None; Val (h', BS true r)
    | None, Some n => do ' (h', r) <- make_bv h0 n false false None; Val (h', BS false r)
    | None, None => Val (h0, BS false e)
    end;
  add_members h1 b members.

(** bit-set.dylan:80-93 member?. *)
Definition set_member (h : heap) (b : bset) (x : Z) : outcome bool :=
  if (x <? 0)%Z then Signal "element-range-error"%string
  else
    do v <- get h (bs_vec b);
    if Z.to_nat x <? bv_size v then element_no_bounds_check h (bs_vec b) (Z.to_nat x)
    else Val (bs_pad b).

(** bit-set.dylan:52-74 =. *)
Fixpoint eq_loop (h : heap) (a1 a2 i n : nat) (result : bool) : outcome bool :=
  match n with
  | O => Val result
  | S n' =>
      if result then
        do x <- bv_element h a1 i;
        do y <- bv_element h a2 i;
        eq_loop h a1 a2 (S i) n' (Bool.eqb x y)
      else eq_loop h a1 a2 (S i) n' false
  end.
Fixpoint pad_loop (h : heap) (a : nat) (pad : bool) (i n : nat) (result : bool) : outcome bool :=
  match n with
  | O => Val result
  | S n' =>
      if result then
        do x <- bv_element h a i;
        pad_loop h a pad (S i) n' (Bool.eqb x pad)
      else pad_loop h a pad (S i) n' false
  end.
Definition set_equal (h : heap) (same : bool) (b1 b2 : bset) : outcome bool :=
  if same then Val true
  else if negb (Bool.eqb (bs_pad b1) (bs_pad b2)) then Val false
  else
    do v1 <- get h (bs_vec b1);
    do v2 <- get h (bs_vec b2);
    let m := Nat.min (bv_size v1) (bv_size v2) in
    do r1 <- eq_loop h (bs_vec b1) (bs_vec b2) 0 m true;
    do r2 <- pad_loop h (bs_vec b1) (bs_pad b1) m (bv_size v1 - m) r1;
    pad_loop h (bs_vec b2) (bs_pad b2) m (bv_size v2 - m) r2.

(** bit-set.dylan:262-268 size: #f for an infinite set. *)
Definition set_size (h : heap) (b : bset) : outcome (option nat) :=
  if bs_pad b then Val None
  else do n <- bit_count h (bs_vec b) true; Val (Some n).

(** bit-set.dylan:253-256 empty?. *)
Definition set_empty (h : heap) (b : bset) : outcome bool :=
  do n <- set_size h b; Val (bool_decide (n = Some 0)).

(** bit-set.dylan:212-225 element (default not supplied).  element on the bit vector is
    declared to return a <bit>: handing back the $unfound default is a type error. *)
Definition set_element (h : heap) (b : bset) (x : Z) : outcome bool :=
  do v <- get h (bs_vec b);
  if ((0 <=? x)%Z && (Z.to_nat x <? bv_size v)) then
    element_no_bounds_check h (bs_vec b) (Z.to_nat x)
  else Signal "type-error"%string.

(** bit-set.dylan:376-380 copy-bit-set!, 387-390 empty-bit-set!, 396-399 universal-bit-set!.
    The pad is stored before fill! is called; on an error from fill! the model drops that
    store (the state of a set after a signalled error is not considered). *)
Definition copy_bit_set_bang (h : heap) (b1 b2 : bset) : outcome (heap * bset) :=
  do ' (h', r) <- bv_copy_sequence h (bs_vec b2); Val (h', BS (bs_pad b2) r).
Definition fill_set (h : heap) (b : bset) (bit : bool) : outcome (heap * bset) :=
  do h' <- fill_bang h (bs_vec b) bit 0 None; Val (h', BS bit (bs_vec b)).

(** *** Iteration *)

(** bit-set.dylan:409-414 <bit-set-iteration-state>. *)
Record istate := IState { st_word : N; st_elem : Z; st_woff : Z; st_boff : Z }.

(** The inner loops: for (i from [i], [n] times, word then word >> 1); stops at the first
    word whose low bit is set.  [e] is current-element, incremented per step where the code
    does so. *)
Fixpoint scan_up (n : nat) (i : Z) (w : N) (e : Z) : option (Z * N * Z) * Z :=
  match n with
  | O => (None, e)
  | S n' =>
      if N.odd w then (Some (i, w, e + 1)%Z, (e + 1)%Z)
      else scan_up n' (i + 1) (wshr1 w) (e + 1)
  end.

(** Outer loops over the words from [j]. *)
Fixpoint scan_words_up (h : heap) (a : nat) (j n : nat) (e : Z)
  : outcome (option (nat * Z * N * Z) * Z) :=
  match n with
  | O => Val (None, e)
  | S n' =>
      do w <- word h a j;
      match scan_up word_bits 0 w e with
      | (Some (i, w', e'), _) => Val (Some (j, i, w', e'), e')
      | (None, e') => scan_words_up h a (S j) n' e'
      end
  end.

(** bit-set.dylan:471-496 bs-fip-initial-state. *)
Definition fip_initial (h : heap) (b : bset) : outcome istate :=
  do v <- get h (bs_vec b);
  do r <- scan_words_up h (bs_vec b) 0 (word_size v) 0;
  let '(woff, boff, w) :=
    match fst r with
    | Some (j, i, w, _) => (Z.of_nat j, i, w)
    | None => (Z.of_nat (word_size v) - 1, 64, 0%N)%Z
    end in
  Val (IState w (woff * 64 + boff) woff boff).

(** bit-set.dylan:503-541 bs-fip-next-state. *)
Definition fip_next (h : heap) (b : bset) (s : istate) : outcome istate :=
  do v <- get h (bs_vec b);
  if (Z.of_nat (bv_size v) <=? st_elem s)%Z then
    Val (IState (st_word s) (st_elem s + 1) (st_woff s) (st_boff s))
  else
    match scan_up (Z.to_nat (63 - st_boff s)) (st_boff s + 1) (wshr1 (st_word s)) (st_elem s) with
    | (Some (i, w, e), _) => Val (IState w e (st_woff s) i)
    | (None, e) =>
        let j := Z.to_nat (st_woff s + 1) in
        do r <- scan_words_up h (bs_vec b) j (word_size v - j) e;
        match fst r with
        | Some (j, i, w, e') => Val (IState w e' (Z.of_nat j) i)
        | None => Val (IState (st_word s) (Z.of_nat (bv_size v)) (st_woff s) (st_boff s))
        end
    end.

(** bit-set.dylan:543-548 bs-fip-finished-state?; limit is size(member-vector) (498-501). *)
Definition fip_finished (h : heap) (b : bset) (s : istate) : outcome bool :=
  do v <- get h (bs_vec b);
  Val (negb (bs_pad b) && (Z.of_nat (bv_size v) <=? st_elem s)%Z).

(** The first [n] elements a forward iteration yields (fewer if it finishes); the boolean
    says whether it finished. *)
Fixpoint iterate_up (n : nat) (h : heap) (b : bset) (s : istate) : outcome (list Z * bool) :=
  do fin <- fip_finished h b s;
  if fin then Val ([], true)
  else
    match n with
    | O => Val ([], false)
    | S n' =>
        do s' <- fip_next h b s;
        do ' (l, f) <- iterate_up n' h b s';
        Val (st_elem s :: l, f)
    end.
Definition forward_elements (n : nat) (h : heap) (b : bset) : outcome (list Z * bool) :=
  do s <- fip_initial h b; iterate_up n h b s.

(** Downward loops: each step rotates the word left by one and looks at its low bit. *)
Fixpoint scan_down (n : nat) (i : Z) (w : N) (e : Z) : option (Z * N * Z) * Z :=
  match n with
  | O => (None, e)
  | S n' =>
      let w := wrotl1 w in
      if N.odd w then (Some (i, w, e - 1)%Z, (e - 1)%Z)
      else scan_down n' (i - 1) w (e - 1)
  end.

Fixpoint scan_words_down (h : heap) (a : nat) (n : nat) (e : Z)
  : outcome (option (nat * Z * N * Z)) :=
  match n with
  | O => Val None
  | S n' =>
      do w <- word h a n';
      match scan_down word_bits 63 w e with
      | (Some (i, w', e'), _) => Val (Some (n', i, w', e'))
      | (None, e') => scan_words_down h a n' e'
      end
  end.

(** bit-set.dylan:569-594 bs-bip-initial-state. *)
Definition bip_initial (h : heap) (b : bset) : outcome istate :=
  do v <- get h (bs_vec b);
  do r <- scan_words_down h (bs_vec b) (word_size v) 0;
  let '(woff, boff, w) :=
    match r with
    | Some (j, i, w, _) => (Z.of_nat j, i, w)
    | None => (0, -1, 0%N)%Z
    end in
  Val (IState w (woff * 64 + boff) woff boff).

(** bit-set.dylan:601-637 bs-bip-next-state. *)
Definition bip_next (h : heap) (b : bset) (s : istate) : outcome istate :=
  match scan_down (Z.to_nat (st_boff s)) (st_boff s - 1) (st_word s) (st_elem s) with
  | (Some (i, w, e), _) => Val (IState w e (st_woff s) i)
  | (None, e) =>
      do r <- scan_words_down h (bs_vec b) (Z.to_nat (st_woff s)) e;
      match r with
      | Some (j, i, w, e') => Val (IState w e' (Z.of_nat j) i)
      | None => Val (IState (st_word s) (-1) (-1) (-1))
      end
  end.

(** bit-set.dylan:639-644 bs-bip-finished-state?, 646-662 backward-iteration-protocol. *)
Fixpoint iterate_down (n : nat) (h : heap) (b : bset) (s : istate) : outcome (list Z) :=
  if (st_elem s <? 0)%Z then Val []
  else
    match n with
    | O => NoFuel
    | S n' =>
        do s' <- bip_next h b s;
        do l <- iterate_down n' h b s';
        Val (st_elem s :: l)
    end.
Definition backward_elements (h : heap) (b : bset) : outcome (list Z) :=
  if bs_pad b then Signal "infinite set"%string
  else
    do v <- get h (bs_vec b);
    do s <- bip_initial h b; iterate_down (S (word_size v * word_bits)) h b s.

(** ** Histories over numbered sets *)
Inductive bop :=
| MakeSet (hint all_from : option nat) (members : list Z)
| SetAdd (k : nat) (x : Z) | SetAddBang (k : nat) (x : Z)
| SetRemove (k : nat) (x : Z) | SetRemoveBang (k : nat) (x : Z)
| Union (k j : nat) | UnionBang (k j : nat)
| Intersection (k j : nat) | IntersectionBang (k j : nat)
| Difference (k j : nat) | DifferenceBang (k j : nat)
| Complement (k : nat) | ComplementBang (k : nat)
| CopyBang (k j : nat) | EmptyBang (k : nat) | UniversalBang (k : nat).

(** A new set is appended; a destructive operation replaces its first argument. *)
Definition new_set (s : sets) (r : heap * bset) : state := (fst r, s ++ [snd r]).
Definition upd_set (s : sets) (k : nat) (r : heap * bset) : state := (fst r, <[k := snd r]> s).
Definition as_set (r : heap * nat * bool) : heap * bset :=
  let '(h, a, p) := r in (h, BS p a).

Definition step (st : state) (o : bop) : outcome state :=
  let '(h, s) := st in
  let binary f k j := do b1 <- get_set s k; do b2 <- get_set s j;
                      do r <- f h (bs_vec b1) (bs_vec b2) (bs_pad b1) (bs_pad b2);
                      Val (as_set r) in
  match o with
  | MakeSet hint af ms => do r <- make_set h hint af ms; Val (new_set s r)
  | SetAdd k x => do b <- get_set s k; do r <- set_add h b x; Val (new_set s r)
  | SetAddBang k x => do b <- get_set s k; do r <- set_add_bang h b x; Val (upd_set s k r)
  | SetRemove k x => do b <- get_set s k; do r <- set_remove h b x; Val (new_set s r)
  | SetRemoveBang k x => do b <- get_set s k; do r <- set_remove_bang h b x; Val (upd_set s k r)
  (* bit-set.dylan:274-280, 286-294 *)
  | Union k j => do r <- binary bit_vector_or k j; Val (new_set s r)
  | UnionBang k j => do r <- binary bit_vector_or_bang k j; Val (upd_set s k r)
  (* bit-set.dylan:300-306, 312-320 *)
  | Intersection k j => do r <- binary bit_vector_and k j; Val (new_set s r)
  | IntersectionBang k j => do r <- binary bit_vector_and_bang k j; Val (upd_set s k r)
  (* bit-set.dylan:326-332, 338-346 *)
  | Difference k j => do r <- binary bit_vector_andc2 k j; Val (new_set s r)
  | DifferenceBang k j => do r <- binary bit_vector_andc2_bang k j; Val (upd_set s k r)
  (* bit-set.dylan:352-357, 363-370 *)
  | Complement k => do b <- get_set s k;
      do r <- bit_vector_not h (bs_vec b) (bs_pad b); Val (new_set s (as_set r))
  | ComplementBang k => do b <- get_set s k;
      do r <- bit_vector_not_bang h (bs_vec b) (bs_pad b); Val (upd_set s k (as_set r))
  | CopyBang k j => do b1 <- get_set s k; do b2 <- get_set s j;
      do r <- copy_bit_set_bang h b1 b2; Val (upd_set s k r)
  | EmptyBang k => do b <- get_set s k; do r <- fill_set h b false; Val (upd_set s k r)
  | UniversalBang k => do b <- get_set s k; do r <- fill_set h b true; Val (upd_set s k r)
  end.

Fixpoint run (st : state) (ops : list bop) : outcome state :=
  match ops with
  | [] => Val st
  | o :: r => do st' <- step st o; run st' r
  end.
