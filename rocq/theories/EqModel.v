(** Model of [=] on collections: sources/dylan/collection.dylan:908-1047, range.dylan:266-293,
    speed.dylan:8-18, string.dylan:223-235.  The collections and their iteration protocols are those
    of CollModel.v.  Simplifications:
    - [=] on elements is a function [eqv] of the elements (it may itself compare collections);
    - lists are proper (the clauses for dotted lists, lines 996 and 1020, are not reached);
    - the method on (<array>, <array>) (976-985) is not reached by the classes modelled: all arrays
      in the model are vectors, for which the method of speed.dylan is more specific. *)
From Verif Require Import Base CollModel.
From Coq Require Import ZArith.
Local Open Scope outcome_scope.
Local Open Scope Z_scope.

(** (<collection>, <collection>), collection.dylan:917-929: the loop, in the order of
    convert-loops.dylan (exhaustion, element and key, while:, step). *)
Fixpoint eq_coll_loop (fuel : nat) (eqv : value -> value -> bool) (c1 : coll) (f : fip) (s : state) (c2 : coll) (eq : bool) : outcome bool :=
  match fuel with
  | O => NoFuel
  | S fuel =>
      do b <- run_fin (f_fin f) c1 s (f_limit f) ;
      if b : bool then Val eq
      else
        do e1 <- run_elt (f_elt f) c1 s ;
        do k <- run_key (f_key f) c1 s ;
        if negb eq then Val eq
        else
          do s <- run_next (f_next f) c1 s ;
          do o <- element_nf c2 k ;
          eq_coll_loop fuel eqv c1 f s c2 (match o with Some e2 => eqv e1 e2 | None => false end)
  end.
Definition eq_coll_coll (fuel : nat) (eqv : value -> value -> bool) (c1 c2 : coll) : outcome bool :=
  if negb (bool_decide (coll_key_test c1 = coll_key_test c2)) then Val false
  else
    do n1 <- coll_size c1 ;
    do n2 <- coll_size c2 ;
    if negb (n1 =? n2)%nat then Val false
    else eq_coll_loop fuel eqv c1 (fip_of c1) (f_init (fip_of c1)) c2 true.

(** (<sequence>, <collection>), collection.dylan:936-947: the loop returns eq and key. *)
Fixpoint eq_seq_coll_loop (fuel : nat) (eqv : value -> value -> bool) (c1 : coll) (f : fip) (s : state) (key : Z) (c2 : coll) (eq : bool) : outcome (bool * Z) :=
  match fuel with
  | O => NoFuel
  | S fuel =>
      do b <- run_fin (f_fin f) c1 s (f_limit f) ;
      if b : bool then Val (eq, key)
      else
        do e1 <- run_elt (f_elt f) c1 s ;
        if negb eq then Val (eq, key)
        else
          do s <- run_next (f_next f) c1 s ;
          do o <- element_nf c2 (KInt key) ;
          eq_seq_coll_loop fuel eqv c1 f s (key + 1) c2 (match o with Some e2 => eqv e1 e2 | None => false end)
  end.
Definition eq_seq_coll (fuel : nat) (eqv : value -> value -> bool) (c1 c2 : coll) : outcome bool :=
  if negb (bool_decide (coll_key_test c2 = 0%nat)) then Val false
  else
    do ' (eq, key) <- eq_seq_coll_loop fuel eqv c1 (fip_of c1) (f_init (fip_of c1)) 0 c2 true ;
    if eq : bool then do n <- coll_size c2 ; Val (key =? Z.of_nat n) else Val false.

(** (<sequence>, <sequence>), collection.dylan:957-973 *)
Fixpoint eq_seq_seq (fuel : nat) (eqv : value -> value -> bool) (c1 : coll) (f1 : fip) (s1 : state) (c2 : coll) (f2 : fip) (s2 : state) : outcome bool :=
  match fuel with
  | O => NoFuel
  | S fuel =>
      do b1 <- run_fin (f_fin f1) c1 s1 (f_limit f1) ;
      if b1 : bool then run_fin (f_fin f2) c2 s2 (f_limit f2)
      else
        do b2 <- run_fin (f_fin f2) c2 s2 (f_limit f2) ;
        if b2 : bool then Val false
        else
          do e1 <- run_elt (f_elt f1) c1 s1 ;
          do e2 <- run_elt (f_elt f2) c2 s2 ;
          if eqv e1 e2 then
            do s1 <- run_next (f_next f1) c1 s1 ;
            do s2 <- run_next (f_next f2) c2 s2 ;
            eq_seq_seq fuel eqv c1 f1 s1 c2 f2 s2
          else Val false
  end.

(** (<list>, <collection>), collection.dylan:991-1003.  The key test of [c2] is not looked at. *)
Fixpoint eq_list_coll (eqv : value -> value -> bool) (l : list value) (key : Z) (c2 : coll) : outcome bool :=
  match l with
  | [] => do n <- coll_size c2 ; Val (key =? Z.of_nat n)
  | x :: l =>
      do o <- element_nf c2 (KInt key) ;
      match o with
      | None => Val false
      | Some e => if negb (eqv e x) then Val false else eq_list_coll eqv l (key + 1) c2
      end
  end.

(** (<list>, <sequence>), collection.dylan:1010-1026 *)
Fixpoint eq_list_seq (eqv : value -> value -> bool) (l : list value) (c2 : coll) (f : fip) (s : state) : outcome bool :=
  match l with
  | [] => run_fin (f_fin f) c2 s (f_limit f)
  | x :: l =>
      do b <- run_fin (f_fin f) c2 s (f_limit f) ;
      if b : bool then Val false
      else
        do e <- run_elt (f_elt f) c2 s ;
        if negb (eqv e x) then Val false
        else do s <- run_next (f_next f) c2 s ; eq_list_seq eqv l c2 f s
  end.

(** Two lists, collection.dylan:1036-1047.  [same i] says whether the two tails reached after [i]
    steps are one object. *)
Fixpoint eq_list_list (same : nat -> bool) (eqv : value -> value -> bool) (i : nat) (l1 l2 : list value) : bool :=
  match l1, l2 with
  | [], [] => true
  | x :: l1, y :: l2 => same i || (eqv x y && eq_list_list same eqv (S i) l1 l2)
  | _, _ => false
  end.

(** x[i] with its bounds check *)
Definition vector_element (l : list value) (i : Z) : outcome value :=
  match znth l i with Some v => Val v | None => Signal "element range" end.

(** (<vector>, <vector>), speed.dylan:8-18; [n] is what remains below x-size. *)
Fixpoint eq_grovel (n : nat) (eqv : value -> value -> bool) (l1 l2 : list value) (i : Z) : outcome bool :=
  match n with
  | O => Val true
  | S n =>
      do x <- vector_element l1 i ;
      do y <- vector_element l2 i ;
      if eqv x y then eq_grovel n eqv l1 l2 (i + 1) else Val false
  end.
Definition eq_vectors (eqv : value -> value -> bool) (l1 l2 : list value) : outcome bool :=
  if (length l1 =? length l2)%nat then eq_grovel (length l1) eqv l1 l2 0 else Val false.

(** == on characters *)
Definition chr_eq (v w : value) : bool := match v, w with VChr a, VChr b => a =? b | _, _ => false end.

(** (<byte-string>, <byte-string>), string.dylan:223-235 *)
Fixpoint eq_string_loop (fuel : nat) (c1 : coll) (f1 : fip) (s1 : state) (c2 : coll) (f2 : fip) (s2 : state) (eq : bool) : outcome bool :=
  match fuel with
  | O => NoFuel
  | S fuel =>
      do b1 <- run_fin (f_fin f1) c1 s1 (f_limit f1) ;
      if b1 : bool then Val eq
      else
        do b2 <- run_fin (f_fin f2) c2 s2 (f_limit f2) ;
        if b2 : bool then Val eq
        else
          do e1 <- run_elt (f_elt f1) c1 s1 ;
          do e2 <- run_elt (f_elt f2) c2 s2 ;
          if negb eq then Val eq
          else
            do s1 <- run_next (f_next f1) c1 s1 ;
            do s2 <- run_next (f_next f2) c2 s2 ;
            eq_string_loop fuel c1 f1 s1 c2 f2 s2 (chr_eq e1 e2)
  end.
Definition eq_strings (fuel : nat) (c1 c2 : coll) : outcome bool :=
  do n1 <- coll_size c1 ;
  do n2 <- coll_size c2 ;
  if negb (n1 =? n2)%nat then Val false
  else eq_string_loop fuel c1 (fip_of c1) (f_init (fip_of c1)) c2 (fip_of c2) (f_init (fip_of c2)) true.

(** Two ranges, range.dylan:266-293 (constant ranges are in RangeModel.v). *)
Definition eq_ranges (c1 c2 : coll) : bool :=
  match c1, c2 with
  | CRange _ _ 0, CRange _ _ 0 => true
  | CRange _ _ 0, CRange _ _ _ => false
  | CRange _ _ _, CRange _ _ 0 => false
  | CRange f1 b1 n1, CRange f2 b2 n2 => (f1 =? f2) && (b1 =? b2) && (n1 =? n2)%nat
  | CRangeInf f1 b1, CRangeInf f2 b2 => (f1 =? f2) && (b1 =? b2)
  | _, _ => false
  end.

(** The method called for each pair of classes; [c2 = c1] in lines 950, 1006 and 1029 swaps. *)
Definition coll_equal (same : nat -> bool) (eqv : value -> value -> bool) (fuel : nat) (c1 c2 : coll) : outcome bool :=
  match c1, c2 with
  | CList l1, CList l2 => Val (eq_list_list same eqv 0 l1 l2)
  | CList l1, CTab _ _ => eq_list_coll eqv l1 0 c2
  | CTab _ _, CList l2 => eq_list_coll eqv l2 0 c1
  | CList l1, _ => eq_list_seq eqv l1 c2 (fip_of c2) (f_init (fip_of c2))
  | _, CList l2 => eq_list_seq eqv l2 c1 (fip_of c1) (f_init (fip_of c1))
  | CTab _ _, CTab _ _ => eq_coll_coll fuel eqv c1 c2
  | CTab _ _, _ => eq_seq_coll fuel eqv c2 c1
  | _, CTab _ _ => eq_seq_coll fuel eqv c1 c2
  | (CRange _ _ _ | CRangeInf _ _), (CRange _ _ _ | CRangeInf _ _) => Val (eq_ranges c1 c2)
  | CVec VkString _, CVec VkString _ => eq_strings fuel c1 c2
  | CVec _ l1, CVec _ l2 => eq_vectors eqv l1 l2
  | _, _ => eq_seq_seq fuel eqv c1 (fip_of c1) (f_init (fip_of c1)) c2 (fip_of c2) (f_init (fip_of c2))
  end.
