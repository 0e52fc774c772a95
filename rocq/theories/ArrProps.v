(** C65: multidimensional arrays. *)
From stdpp Require Import list_numbers.
From Verif Require Import Base IntModel IntProofs NumStrModel NumStrSpec NumStrProofs ArrModel ArrSpec ArrProofs.
From Coq Require Import ZArith Lia Sorted.
Local Open Scope Z_scope.

(** The list of positions of the specification has every tuple of subscripts in range, and is in strictly ascending
    lexicographic order. *)
Theorem C65_positions_spec dims :
  (forall s, s ∈ positions dims <-> position dims s) /\ StronglySorted before (positions dims).
Proof. split; [intros; apply positions_elem|apply positions_sorted]. Qed.
Print Assumptions C65_positions_spec.

(** make(<array>, dimensions: dims, fill: x) gives an array with these dimensions, with one element for each position,
    all of them x; or, if the number of elements is too large for an <integer>, an error. *)
Theorem C65_make {A} dims (x : A) : good_dims max_integer dims ->
  exists a, make_array (Some dims) None x = Val a /\ dimensions a = dims /\ rank a = Z.of_nat (length dims) /\
    elts a = replicate (length (positions dims)) x.
Proof.
  intros Hg. destruct (make_ok dims x Hg) as (a & Ha & (_ & Hd & _) & He). exists a. split; [done|]. split; [done|].
  split; [unfold rank; by rewrite Hd|]. rewrite He. f_equal. destruct Hg as (_ & Hg & _).
  pose proof (positions_length dims Hg). lia.
Qed.
Print Assumptions C65_make.

Theorem C65_make_too_large {A} dims k (x : A) :
  Forall (fun d => 0 <= d) dims -> length dims <> 1%nat -> max_integer < foldr Z.mul 1 (take k dims) ->
  exists m, make_array (Some dims) None x = Signal m.
Proof. intros. exists "overflow"%string. by apply (make_bad _ k). Qed.
Print Assumptions C65_make_too_large.

(** make(<array>) with a size: a vector; the dimensions, if given too, must be this size alone. *)
Theorem C65_make_size {A} dims n (x : A) : 0 <= n ->
  make_array None (Some n) x = Val (Arr true [] (replicate (Z.to_nat n) x)) /\
  make_array (Some [n]) (Some n) x = Val (Arr true [] (replicate (Z.to_nat n) x)) /\
  (dims <> [n] -> exists m, make_array (Some dims) (Some n) x = Signal m) /\
  exists m, make_array None None x = Signal m.
Proof.
  intros Hn. cbn. rewrite Z.eqb_refl. unfold make_vector, allocate. destruct (Z.ltb_spec n 0); [lia|].
  split; [done|]. split; [done|]. split; [|eauto]. intros Hd. destruct dims as [|d [|]]; eauto.
  destruct (Z.eqb_spec d n) as [->|]; [done|]. eauto.
Qed.
Print Assumptions C65_make_size.

(** row-major-index numbers the positions from 0 in lexicographic order, and is an error for anything else. *)
Theorem C65_row_major_index {A} (a : array A) subs : good_dims max_integer (dimensions a) -> Forall fits subs ->
  (forall p, row_major_index a subs = Val p <-> 0 <= p /\ positions (dimensions a) !! Z.to_nat p = Some subs) /\
  (~ position (dimensions a) subs -> exists m, row_major_index a subs = Signal m).
Proof.
  intros Hg Hs. rewrite row_major_ok by done. split.
  - intros p. rewrite positions_lookup. split.
    + destruct (decide _); [|done]. destruct (decide _) as [Hp|]; [|done]. injection 1 as <-.
      pose proof (horner_range _ _ Hp). split; [lia|]. split; [done|lia].
    + intros (H0 & Hp & He). rewrite decide_True by (by apply position_length). rewrite decide_True by done. f_equal. lia.
  - intros Hn. destruct (decide _); [|eauto]. rewrite decide_False by done. eauto.
Qed.
Print Assumptions C65_row_major_index.

(** Every program of calls of aref-setter, element-setter and fill! on a new array runs without an access outside of the
    array; after it aref gives, at each position, the value of the last call that stored there, element with the
    number of the position gives the same, and the dimensions are unchanged. *)
Theorem C65_history {A} dims (x : A) a ops : good_dims max_integer dims -> Forall op_fits ops ->
  make_array (Some dims) None x = Val a ->
  exists a', run ops a = Val a' /\ dimensions a' = dims /\
    forall p s, positions dims !! p = Some s ->
      let v := foldl (effect (Z.of_nat (length (positions dims))) (Z.of_nat p) s) x ops in
      aref a' s = Val v /\ element a' (Z.of_nat p) None = Val v.
Proof.
  intros Hg Ho Hm. destruct (make_ok dims x Hg) as (a0 & Ha & Hok & He). rewrite Hm in Ha. injection Ha as <-.
  destruct (run_ok _ _ _ Hok Ho) as (a' & Hr & Hok' & H'). exists a'. split; [done|].
  split; [by destruct Hok' as (_ & ? & _)|]. intros p s Hs v.
  assert (Hl : Z.of_nat (length (positions dims)) = prod dims) by (apply positions_length; by destruct Hg as (_ & ? & _)).
  pose proof (lookup_lt_Some _ _ _ Hs) as Hlt.
  assert (Hv : elts a' !! p = Some v).
  { subst v. rewrite Hl. apply H'; [done|]. rewrite He. apply lookup_replicate. split; [done|lia]. }
  apply positions_lookup in Hs as [Hp Hh]. pose proof (good_prod _ Hg) as Hmx. rewrite max_eq in Hmx. split.
  - assert (Hf : Forall fits s).
    { apply Forall_lookup. intros k i Hi. destruct (Forall2_lookup_l _ _ _ _ _ Hp Hi) as (d & Hd & Hr').
      unfold fits. enough (d <= prod dims) by lia.
      clear - Hp Hd. revert k Hd. induction Hp as [|i' d' s' dims' Hi' Hp' IH]; intros k Hd; [done|].
      destruct k as [|k]; cbn in Hd.
      - injection Hd as ->. cbn. fold (prod dims'). pose proof (horner_range _ _ Hp'). nia.
      - specialize (IH _ Hd). cbn. fold (prod dims'). pose proof (horner_range _ _ Hp'). nia. }
    destruct (proj1 (aref_ok _ _ _ Hok' Hf) Hp) as (y & Hy & ->). rewrite <- Hh, Nat2Z.id in Hy. congruence.
  - rewrite (element_ok _ _ _ Hok') by (unfold fits; lia). rewrite decide_True by lia. by rewrite Nat2Z.id, Hv.
Qed.
Print Assumptions C65_history.

(** aref and aref-setter with a wrong number of subscripts or a subscript out of range are errors, and so are element
    (unless a default is given, which is then returned) and element-setter outside of the array: no memory outside of
    the array is touched. *)
Theorem C65_out_of_range {A} dims (x y : A) a ops a' : good_dims max_integer dims -> Forall op_fits ops ->
  make_array (Some dims) None x = Val a -> run ops a = Val a' ->
  (forall subs, Forall fits subs -> ~ position dims subs ->
     (exists m, aref a' subs = Signal m) /\ exists m, aref_setter y a' subs = Signal m) /\
  (forall i, fits i -> ~ 0 <= i < Z.of_nat (length (positions dims)) ->
     (exists m, element a' i None = Signal m) /\ element a' i (Some y) = Val y /\
     exists m, element_setter y a' i = Signal m).
Proof.
  intros Hg Ho Hm Hr. destruct (make_ok dims x Hg) as (a0 & Ha & Hok & He). rewrite Hm in Ha. injection Ha as <-.
  destruct (run_ok _ _ _ Hok Ho) as (a2 & Hr' & Hok' & _). rewrite Hr in Hr'. injection Hr' as <-.
  assert (Hl : Z.of_nat (length (positions dims)) = prod dims) by (apply positions_length; by destruct Hg as (_ & ? & _)).
  split.
  - intros subs Hs Hp. split; [by apply (aref_ok _ _ _ Hok' Hs)|by apply (aref_setter_ok _ _ _ y Hok' Hs)].
  - intros i Hi Hn. rewrite Hl in Hn.
    assert (E : (if decide (0 <= i) then elts a' !! Z.to_nat i else None) = None).
    { destruct (decide (0 <= i)); [|done]. apply lookup_ge_None_2. destruct Hok' as (_ & _ & Hz). unfold size in Hz. lia. }
    rewrite !(element_ok _ _ _ Hok') by done. rewrite E. split; [eauto|]. split; [done|].
    rewrite (proj2 (element_setter_ok _ _ _)); [eauto|]. destruct Hok' as (_ & _ & ->). done.
Qed.
Print Assumptions C65_out_of_range.

(** shallow-copy of an array with at least one element gives an array with the same dimensions and elements. *)
Theorem C65_shallow_copy {A} dims (x : A) a ops a' : good_dims max_integer dims -> Forall op_fits ops ->
  make_array (Some dims) None x = Val a -> run ops a = Val a' -> elts a' <> [] ->
  exists c, shallow_copy a' = Val c /\ dimensions c = dims /\ elts c = elts a'.
Proof.
  intros Hg Ho Hm Hr Hne. destruct (make_ok dims x Hg) as (a0 & Ha & Hok & He). rewrite Hm in Ha. injection Ha as <-.
  destruct (run_ok _ _ _ Hok Ho) as (a2 & Hr' & Hok' & _). rewrite Hr in Hr'. injection Hr' as <-.
  destruct (shallow_copy_ok _ _ Hok') as (c & Hc & (_ & Hd & _) & Hel); [|by eauto].
  unfold size. destruct (elts a'); [done|cbn; lia].
Qed.
Print Assumptions C65_shallow_copy.

(** dimension gives the dimension of an axis, and is an error for other numbers. *)
Theorem C65_dimension {A} (a : array A) axis :
  (forall d, dimension a axis = Val d <-> 0 <= axis /\ dimensions a !! Z.to_nat axis = Some d) /\
  (axis < 0 \/ rank a <= axis -> exists m, dimension a axis = Signal m).
Proof.
  unfold dimension, rank. split.
  - intros d. destruct (Z.ltb_spec axis 0); [split; [done|lia]|]. destruct (dimensions a !! Z.to_nat axis); [|split; naive_solver].
    split; [injection 1 as ->; split; [lia|done]|]. intros [_ [= ->]]. done.
  - intros H. destruct (Z.ltb_spec axis 0); [eauto|]. rewrite lookup_ge_None_2 by lia. eauto.
Qed.
Print Assumptions C65_dimension.

(** Shallow copies of empty arrays are errors: the code passes the function `dimensions' for the dimensions. *)
Theorem C65_shallow_copy_empty_refuted :
  exists a : array Z, make_array (Some [0; 3]) None 7 = Val a /\ exists m, shallow_copy a = Signal m.
Proof. eexists. split; [reflexivity|]. eexists. reflexivity. Qed.
Print Assumptions C65_shallow_copy_empty_refuted.

(** An array of rank 0 has one position, but it is made with no element, and aref reads outside of it. *)
Theorem C65_rank_zero_refuted :
  positions [] = [[]] /\
  exists a : array Z, make_array (Some []) None 7 = Val a /\ row_major_index a [] = Val 0 /\ aref a [] = UB /\ aref_setter 8 a [] = UB.
Proof. split; [done|]. eexists. split; [reflexivity|]. vm_compute. done. Qed.
Print Assumptions C65_rank_zero_refuted.

(** Negative dimensions are accepted, and then the range check of subscripts, an unsigned comparison, lets subscripts
    pass that lead outside of the array. *)
Theorem C65_negative_dimensions_refuted :
  exists a : array Z, make_array (Some [-1; -1]) None 7 = Val a /\ size a = 1 /\ aref a [0; 5] = UB /\ aref_setter 8 a [0; 5] = UB.
Proof. eexists. split; [reflexivity|]. vm_compute. done. Qed.
Print Assumptions C65_negative_dimensions_refuted.

(** Instances: a 2 by 3 by 2 array. *)
Example C65_hyp : good_dims max_integer [2; 3; 2].
Proof.
  split; [done|]. split; [repeat constructor; lia|]. intros k Hk. rewrite max_eq.
  destruct k as [|[|[|k]]]; [lia|cbn; lia|cbn; lia|]. cbn [take]. rewrite take_nil. cbn. lia.
Qed.
Example C65_hyp_ops : Forall (@op_fits Z) [OAref [1; 2; 1] 5; OFill 4 3 None; OAref [1; 2; 3] 6; OElement 4 9].
Proof. repeat constructor; unfold fits; lia. Qed.
Example C65_ex :
  match make_array (Some [2; 3; 2]) None 0 with
  | Val a => match run [OAref [1; 2; 1] 5; OFill 4 3 (Some 6); OAref [1; 2; 3] 6; OElement 4 9] a with Val a => Some (elts a, aref a [1; 2; 1], aref a [0; 2; 0]) | _ => None end
  | _ => None
  end = Some ([0; 0; 0; 4; 9; 4; 0; 0; 0; 0; 0; 5], Val 5, Val 9).
Proof. vm_compute. done. Qed.
Example C65_too_large : max_integer < foldr Z.mul 1 (take 2 [2 ^ 40; 2 ^ 30; 0]).
Proof. rewrite max_eq. cbn. lia. Qed.
