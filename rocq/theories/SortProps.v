(** Properties C01, C02, C03: sorting. *)
From Verif Require Import Base SortModel SortSpec SortProofs.

(** C01: with a strict weak ordering, sort! returns normally (no undefined access, no
    endless loop) a permutation of its argument in which no later element is smaller
    than an earlier one -- stable or not. *)
Theorem C01_sort_ordered_permutation :
  forall (A : Type) (test : A -> A -> bool), strict_weak_order test ->
  forall (stable : bool) (v : list A),
  exists v', sort_bang test stable v = Val v' /\ Permutation v' v /\ ordered test v'.
Proof.
  exact (fun A test H stable v =>
    match sort_bang_spec test H stable v with
    | ex_intro _ v' (conj a (conj b (conj c _))) => ex_intro _ v' (conj a (conj b c))
    end).
Qed.
Print Assumptions C01_sort_ordered_permutation.

(** C02: sort!(v, stable: #t) keeps equivalent elements in their original order. *)
Theorem C02_stable_sort :
  forall (A : Type) (test : A -> A -> bool), strict_weak_order test ->
  forall (v : list A),
  exists v', sort_bang test true v = Val v' /\ ordered test v' /\ Permutation v' v
     /\ stable_rearrangement test v v'.
Proof.
  exact (fun A test H v =>
    match sort_bang_spec test H true v with
    | ex_intro _ v' (conj a (conj b (conj c d))) =>
        ex_intro _ v' (conj a (conj c (conj b (d eq_refl))))
    end).
Qed.
Print Assumptions C02_stable_sort.

(** C03: quick-sort! of a sub-range, all of whose accesses are unchecked, returns
    normally (never [UB], never endless), orders exactly that range and leaves the rest
    of the vector alone. *)
Theorem C03_quick_sort_stays_in_range :
  forall (A : Type) (test : A -> A -> bool), strict_weak_order test ->
  forall (v : list A) (s e : nat), s <= e -> e <= length v ->
  exists v', quick_sort test (S (length v)) v s e = Val v' /\
    length v' = length v /\ Permutation v' v /\
    (forall i, ~ (s <= i < e) -> v' !! i = v !! i) /\
    ordered test (take (e - s) (drop s v')).
Proof. exact @quick_sort_range. Qed.
Print Assumptions C03_quick_sort_stays_in_range.

(** C03, limit of the claim: with a test that is not strict ([<=]) the quick sort of ten
    equal elements runs its unchecked scan past the end of the vector. *)
Theorem C03_nonstrict_test_refuted :
  exists (v : list nat), sort_bang Nat.leb false v = UB.
Proof. exact (ex_intro _ (repeat 0 10) eq_refl). Qed.
Print Assumptions C03_nonstrict_test_refuted.

(** The range checks: bounds beyond the vector are reported, not used. *)
Theorem C03_bad_range_signals :
  forall (A : Type) (test : A -> A -> bool) (fuel : nat) (v : list A) (s e : nat),
  length v < s \/ length v < e ->
  quick_sort test (S fuel) v s e = Signal "element-range-error"%string /\
  merge_sort test (S fuel) v s e = Signal "element-range-error"%string /\
  insertion_sort test v s e = Signal "element-range-error"%string.
Proof. exact @bad_range_signals. Qed.
Print Assumptions C03_bad_range_signals.

(** Non-vacuity: [<] on numbers is a strict weak ordering; so is comparing pairs by
    their first component, where distinct pairs are equivalent. *)
Example swo_nat : strict_weak_order Nat.ltb.
Proof. exact swo_ltb. Qed.
Example swo_pairs : strict_weak_order (fun p q : nat * nat => Nat.ltb (fst p) (fst q)).
Proof. exact swo_ltb_fst. Qed.
Example sort_example :
  sort_bang Nat.ltb false [5;3;9;1;7;3;8;2;6;4;0;11;3] = Val [0;1;2;3;3;3;4;5;6;7;8;9;11].
Proof. reflexivity. Qed.
Example stable_example :
  sort_bang (fun p q : nat * nat => Nat.ltb (fst p) (fst q)) true
    [(2,0);(1,1);(2,2);(1,3);(0,4);(2,5);(1,6);(0,7);(3,8);(1,9);(0,10)]
  = Val [(0,4);(0,7);(0,10);(1,1);(1,3);(1,6);(1,9);(2,0);(2,2);(2,5);(3,8)].
Proof. reflexivity. Qed.
