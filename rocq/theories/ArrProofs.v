(** Proofs about arrays. *)
From stdpp Require Import list_numbers.
From Verif Require Import Base IntModel IntProofs NumStrModel NumStrSpec NumStrProofs ArrModel ArrSpec.
From Coq Require Import ZArith Lia Sorted.
From Coq Require Import ZifyBool ZifyNat.
Local Open Scope outcome_scope.
Local Open Scope Z_scope.

(** ** Positions *)
Definition prod (dims : list Z) : Z := foldr Z.mul 1 dims.
Fixpoint horner (sum : Z) (dims subs : list Z) : Z :=
  match dims, subs with d :: dims, i :: subs => horner (sum * d + i) dims subs | _, _ => sum end.

Lemma flat_map_length_const {B C} (f : B -> list C) L l :
  (forall x, length (f x) = L) -> length (flat_map f l) = (length l * L)%nat.
Proof. intros H. induction l as [|x l IH]; [done|]. cbn. rewrite app_length, H, IH. lia. Qed.

Lemma flat_map_lookup_const {B C} (f : B -> list C) L l i j x :
  (forall x, length (f x) = L) -> l !! i = Some x -> (j < L)%nat -> flat_map f l !! (i * L + j)%nat = f x !! j.
Proof.
  intros H. revert i. induction l as [|y l IH]; intros i Hi Hj; [done|]. cbn. destruct i as [|i]; cbn in Hi.
  - injection Hi as ->. rewrite lookup_app_l; [done|]. rewrite H. lia.
  - rewrite lookup_app_r by (rewrite H; lia). rewrite H. replace (S i * L + j - L)%nat with (i * L + j)%nat by lia. auto.
Qed.

Lemma prod_nonneg dims : Forall (fun d => 0 <= d) dims -> 0 <= prod dims.
Proof. induction 1; cbn; [lia|]. unfold prod in *. nia. Qed.

Lemma positions_length dims : Forall (fun d => 0 <= d) dims -> Z.of_nat (length (positions dims)) = prod dims.
Proof.
  induction 1 as [|d dims Hd H IH]; [done|]. cbn.
  rewrite (flat_map_length_const _ (length (positions dims))) by (intros; by rewrite map_length).
  rewrite seqZ_length. unfold prod in *. nia.
Qed.

Lemma horner_shift sum dims subs :
  length subs = length dims -> horner sum dims subs = sum * prod dims + horner 0 dims subs.
Proof.
  revert sum subs. induction dims as [|d dims IH]; intros sum [|i subs] Hl; try done; cbn; [lia|].
  rewrite (IH (sum * d + i)), (IH (i)) by (cbn in Hl; lia). unfold prod. lia.
Qed.

Lemma position_length dims subs : position dims subs -> length subs = length dims.
Proof. apply Forall2_length. Qed.

Lemma position_dims dims subs : position dims subs -> Forall (fun d => 0 <= d) dims.
Proof. unfold position. induction 1; constructor; [lia|done]. Qed.

Lemma horner_range dims subs : position dims subs -> 0 <= horner 0 dims subs < prod dims.
Proof.
  unfold position. induction 1 as [|i d subs dims Hi H IH]; [cbn; lia|]. cbn [horner].
  rewrite horner_shift by (by apply position_length). cbn. fold (prod dims). nia.
Qed.

Lemma positions_horner dims subs :
  position dims subs -> positions dims !! Z.to_nat (horner 0 dims subs) = Some subs.
Proof.
  unfold position. induction 1 as [|i d subs dims Hi H IH]; [done|].
  pose proof (horner_range _ _ H) as Hr. cbn [horner positions].
  rewrite horner_shift by (by apply position_length).
  pose proof (positions_length dims (position_dims _ _ H)) as Hl.
  replace (Z.to_nat ((0 * d + i) * prod dims + horner 0 dims subs))
    with (Z.to_nat i * length (positions dims) + Z.to_nat (horner 0 dims subs))%nat by nia.
  rewrite (flat_map_lookup_const _ _ _ _ _ i); [|by intros; rewrite map_length| |lia].
  - rewrite list_lookup_fmap. by rewrite IH.
  - apply lookup_seqZ. lia.
Qed.

Lemma positions_elem dims s : s ∈ positions dims <-> position dims s.
Proof.
  unfold position. revert s. induction dims as [|d dims IH]; intros s; cbn.
  - rewrite elem_of_list_singleton. split; [intros ->; constructor|by inversion 1].
  - rewrite elem_of_list_In, in_flat_map. split.
    + intros (i & Hi & Hs). apply elem_of_list_In, elem_of_seqZ in Hi. apply in_map_iff in Hs as (s' & <- & Hs).
      apply elem_of_list_In in Hs. constructor; [lia|by apply IH].
    + inversion 1 as [|i ? s' ? Hi Hs]; subst. exists i. split; [apply elem_of_list_In, elem_of_seqZ; lia|].
      apply in_map_iff. exists s'. split; [done|]. apply elem_of_list_In. by apply IH.
Qed.

Lemma before_irrefl s : ~ before s s.
Proof. induction s; inversion 1; subst; [lia|auto]. Qed.

Lemma strongly_app {B} (R : B -> B -> Prop) l1 l2 :
  StronglySorted R l1 -> StronglySorted R l2 -> (forall x y, x ∈ l1 -> y ∈ l2 -> R x y) -> StronglySorted R (l1 ++ l2).
Proof.
  induction 1 as [|x l1 H1 IH HF]; intros H2 H; [done|]. cbn. constructor.
  - apply IH; [done|]. intros. apply H; [by right|done].
  - apply Forall_app. split; [done|]. apply Forall_forall. intros. apply H; [left|done].
Qed.

Lemma positions_sorted dims : StronglySorted before (positions dims).
Proof.
  induction dims as [|d dims IH]; cbn; [repeat constructor|].
  assert (G : forall n m, StronglySorted before (flat_map (fun i => map (cons i) (positions dims)) (seqZ m (Z.of_nat n)))).
  { induction n as [|n IHn]; intros m; [cbn; constructor|].
    rewrite (seqZ_cons m) by lia. cbn [flat_map]. apply strongly_app.
    - clear IHn. pose proof IH as IH'. induction IH' as [|s l Hl IHl HF]; cbn; constructor.
      + apply IHl. by inversion IH.
      + apply Forall_forall. intros t Ht. apply elem_of_list_In, in_map_iff in Ht. destruct Ht as (t' & <- & Ht).
        apply before_there. rewrite Forall_forall in HF. apply HF. by apply elem_of_list_In.
    - replace (Z.pred (Z.of_nat (S n))) with (Z.of_nat n) by lia. apply IHn.
    - intros x y Hx Hy. apply elem_of_list_In, in_map_iff in Hx. destruct Hx as (s & <- & Hs).
      apply elem_of_list_In, in_flat_map in Hy. destruct Hy as (j & Hj & Hy). apply in_map_iff in Hy. destruct Hy as (t & <- & Ht).
      apply elem_of_list_In, elem_of_seqZ in Hj. apply before_here; [lia|].
      apply elem_of_list_In, positions_elem, position_length in Hs. apply elem_of_list_In, positions_elem, position_length in Ht. congruence. }
  destruct (decide (0 <= d)).
  - replace d with (Z.of_nat (Z.to_nat d)) by lia. apply G.
  - rewrite seqZ_nil by lia. constructor.
Qed.

Lemma positions_nodup dims : NoDup (positions dims).
Proof.
  pose proof (positions_sorted dims) as H. induction H as [|s l Hl IH HF]; constructor; [|done].
  intros Hin. rewrite Forall_forall in HF. by eapply before_irrefl, HF.
Qed.

Lemma positions_lookup dims k s :
  positions dims !! k = Some s <-> position dims s /\ Z.of_nat k = horner 0 dims s.
Proof.
  split.
  - intros H. assert (Hp : position dims s) by (apply positions_elem; by eapply elem_of_list_lookup_2). split; [done|].
    pose proof (positions_horner _ _ Hp) as H'. pose proof (NoDup_lookup _ _ _ _ (positions_nodup dims) H H'). 
    pose proof (horner_range _ _ Hp). lia.
  - intros [Hp Hk]. rewrite <- (positions_horner _ _ Hp). f_equal. lia.
Qed.

(** ** row-major-index *)
Lemma max_eq : max_integer = 2305843009213693951.
Proof. by rewrite max_integer_eq. Qed.
Lemma two64 : 2 ^ 64 = 18446744073709551616. Proof. done. Qed.

Lemma erc i d : fits i -> fits d -> 0 <= d -> element_range_check i d = (0 <=? i) && (i <? d).
Proof.
  unfold fits, element_range_check. rewrite two64. intros Hi Hd H.
  rewrite (Z.mod_small d) by lia. destruct (decide (0 <= i)).
  - rewrite Z.mod_small by lia. lia.
  - rewrite <- (Z_mod_plus_full i 1). rewrite Z.mod_small by lia. lia.
Qed.

Global Instance position_dec dims subs : Decision (position dims subs).
Proof. unfold position. apply _. Defined.

Lemma general_ok dims subs sum P :
  length subs = length dims -> Forall fits subs -> Forall (fun d => 0 <= d) dims ->
  0 <= sum < P -> (forall k, (0 < k)%nat -> P * prod (take k dims) <= max_integer) -> 
  general_row_major_index sum dims subs = if decide (position dims subs) then Val (horner sum dims subs) else Signal "element-range-error"%string.
Proof.
  revert subs sum P. induction dims as [|d dims IH]; intros [|i subs] sum P Hl Hs Hd Hsum HP; try done.
  cbn [general_row_major_index]. apply Forall_cons in Hs as [Hi Hs]. apply Forall_cons in Hd as [Hd0 Hd].
  pose proof (HP 1%nat ltac:(lia)) as H1. cbn in H1. rewrite ?take_0 in H1. cbn in H1. rewrite max_eq in H1.
  rewrite erc; [|done| |done].
  2:{ unfold fits. clear IH HP. nia. }
  destruct ((0 <=? i) && (i <? d)) eqn:E.
  2:{ rewrite decide_False; [done|]. inversion 1; subst. lia. }
  rewrite (int_result_ok (sum * d)) by (unfold fits; nia). cbn [obind].
  rewrite (int_result_ok (sum * d + i)) by (unfold fits; nia). cbn [obind].
  rewrite (IH subs _ (P * d)); [|cbn in Hl; lia|done|done|nia|].
  - cbn [horner]. destruct (decide (position dims subs)) as [Hp|Hp].
    + rewrite decide_True; [done|]. constructor; [lia|done].
    + rewrite decide_False; [done|]. inversion 1; subst. by apply Hp.
  - intros k Hk. pose proof (HP (S k) ltac:(lia)) as H2. cbn in H2. fold (prod (take k dims)) in H2. lia.
Qed.

Section arrays.
Context {A : Type}.
Implicit Types a : array A.

Lemma good_small dims k d : good_dims max_integer dims -> dims !! k = Some d -> 0 <= d.
Proof. intros (_ & H & _) Hk. rewrite Forall_lookup in H. eauto. Qed.

Lemma row_major_ok a subs :
  good_dims max_integer (dimensions a) -> Forall fits subs ->
  row_major_index a subs =
    if decide (length subs = length (dimensions a)) then
      if decide (position (dimensions a) subs) then Val (horner 0 (dimensions a) subs) else Signal "element-range-error"%string
    else Signal "Number of subscripts not equal to rank of array"%string.
Proof.
  intros (Hne & Hd & Hk) Hs. unfold row_major_index, rank.
  destruct (decide (length subs = length (dimensions a))) as [Hl|Hl].
  2:{ destruct (_ =? _) eqn:E; [lia|done]. }
  rewrite Hl, Z.eqb_refl.
  assert (G : general_row_major_index 0 (dimensions a) subs = if decide (position (dimensions a) subs) then Val (horner 0 (dimensions a) subs) else Signal "element-range-error"%string).
  { apply (general_ok _ _ _ 1); try done. intros k Hk'. rewrite Z.mul_1_l. apply (Hk k Hk'). }
  destruct (_ =? 2) eqn:E; [|done]. rewrite <- G. clear G.
  destruct (dimensions a) as [|d0 [|d1 [|]]], subs as [|i0 [|i1 [|]]]; cbn in E, Hl; try lia.
  cbn. pose proof (Hk 1%nat ltac:(lia)) as H1. pose proof (Hk 2%nat ltac:(lia)) as H2. cbn in H1, H2. rewrite ?take_0 in *. cbn in H1, H2.
  rewrite max_eq in *. inversion Hs as [|? ? F0 Hs']; subst. inversion Hs' as [|? ? F1 ?]; subst.
  inversion Hd as [|? ? D0 Hd']; subst. inversion Hd' as [|? ? D1 ?]; subst.
  rewrite (erc i0 d0); [|done|unfold fits; lia|done].
  destruct ((0 <=? i0) && (i0 <? d0)) eqn:E0; [|done].
  rewrite (int_result_ok (0 * d0)) by (unfold fits; lia). cbn [obind]. replace (0 * d0 + i0) with i0 by lia.
  rewrite (int_result_ok i0) by done. cbn.
  destruct (element_range_check i1 d1) eqn:E1; [|done].
  destruct (int_result (i0 * d1)) eqn:E2; cbn; try done. destruct (int_result (a0 + i1)); done.
Qed.

(** ** make *)
Lemma product_ok acc dims :
  Forall (fun d => 0 <= d) dims -> 0 <= acc -> (forall k, (0 < k)%nat -> acc * prod (take k dims) <= max_integer) ->
  product acc dims = Val (acc * prod dims).
Proof.
  revert acc. induction dims as [|d dims IH]; intros acc Hd Ha Hk; cbn; [f_equal; lia|].
  apply Forall_cons in Hd as [Hd0 Hd]. pose proof (Hk 1%nat ltac:(lia)) as H1. cbn in H1. rewrite ?take_0 in H1. cbn in H1. rewrite max_eq in H1.
  rewrite int_result_ok by (unfold fits; nia). cbn. rewrite IH; [f_equal; unfold prod; lia|done|nia|].
  intros k Hk'. pose proof (Hk (S k) ltac:(lia)) as H2. cbn in H2. fold (prod (take k dims)) in H2. lia.
Qed.

Lemma product_bad acc dims k :
  Forall (fun d => 0 <= d) dims -> 0 <= acc <= max_integer -> max_integer < acc * prod (take k dims) ->
  product acc dims = Signal "overflow"%string.
Proof.
  revert acc k. induction dims as [|d dims IH]; intros acc k Hd Ha H; cbn.
  { rewrite take_nil in H. cbn in H. lia. }
  apply Forall_cons in Hd as [Hd0 Hd]. destruct k as [|k]; cbn in H; [lia|]. fold (prod (take k dims)) in H.
  rewrite max_eq in *. destruct (decide (acc * d <= 2305843009213693951)).
  - rewrite int_result_ok by (unfold fits; nia). cbn. apply (IH _ k); [done|nia|lia].
  - rewrite int_result_bad by (unfold fits; nia). done.
Qed.

Definition array_ok (dims : list Z) (a : array A) : Prop :=
  good_dims max_integer dims /\ dimensions a = dims /\ size a = prod dims.

Lemma prod_single d : prod [d] = d. Proof. cbn. lia. Qed.

Lemma good_prod dims : good_dims max_integer dims -> 0 <= prod dims <= max_integer.
Proof.
  intros (Hne & Hd & Hk). split; [by apply prod_nonneg|].
  specialize (Hk (length dims)). rewrite take_ge in Hk by lia. apply Hk. destruct dims; [done|cbn; lia].
Qed.

Lemma make_ok dims (x : A) :
  good_dims max_integer dims ->
  exists a, make_array (Some dims) None x = Val a /\ array_ok dims a /\ elts a = replicate (Z.to_nat (prod dims)) x.
Proof.
  intros Hg. pose proof (good_prod _ Hg) as Hp. pose proof Hg as (Hne & Hd & Hk).
  destruct (decide (length dims = 1%nat)) as [H1|H1].
  - destruct dims as [|d [|]]; try done. rewrite prod_single in *. cbn. unfold make_vector, allocate.
    replace (d <? 0) with false by lia. cbn. eexists. split; [done|]. split; [|done].
    split; [done|]. unfold dimensions, size; cbn [vec elts]. rewrite replicate_length, prod_single. split; [f_equal|]; lia.
  - assert (E : make_array (Some dims) None x = make_simple_object_array dims x).
    { destruct dims as [|? [|]]; done. }
    rewrite E. unfold make_simple_object_array, compute_size_from_dimensions.
    replace (match dims with [] => Val 0 | _ :: _ => product 1 dims end) with (product 1 dims) by (by destruct dims).
    rewrite product_ok; [|done|lia|intros k Hk'; rewrite Z.mul_1_l; by apply Hk].
    cbn [obind]. rewrite Z.mul_1_l. unfold allocate. replace (prod dims <? 0) with false by lia. cbn.
    eexists. split; [done|]. split; [|done]. split; [done|]. split; [done|]. unfold size; cbn [elts]. rewrite replicate_length. lia.
Qed.

Lemma make_bad dims k (x : A) :
  Forall (fun d => 0 <= d) dims -> length dims <> 1%nat -> max_integer < prod (take k dims) ->
  make_array (Some dims) None x = Signal "overflow"%string.
Proof.
  intros Hd H1 Hk. assert (Hb : product 1 dims = Signal "overflow"%string).
  { apply (product_bad _ _ k); [done|rewrite max_eq; lia|lia]. }
  destruct dims as [|d [|d' dims]]; [|done|].
  - rewrite take_nil in Hk. cbn in Hk. rewrite max_eq in Hk. lia.
  - cbn [make_array]. unfold make_simple_object_array, compute_size_from_dimensions. by rewrite Hb.
Qed.

(** ** Access *)
Lemma zread_lookup (v : list A) i : 0 <= i < Z.of_nat (length v) -> exists x, v !! Z.to_nat i = Some x /\ zread v i = Val x.
Proof.
  intros H. destruct (lookup_lt_is_Some_2 v (Z.to_nat i)) as [x Hx]; [lia|]. exists x. split; [done|].
  apply zread_val; [lia|done].
Qed.

Lemma size_fits dims a : array_ok dims a -> fits (size a) /\ 0 <= size a.
Proof.
  intros (Hg & _ & ->). apply good_prod in Hg. rewrite max_eq in Hg. unfold fits. lia.
Qed.

Lemma element_ok dims a i : array_ok dims a -> fits i -> forall default,
  element a i default =
    match (if decide (0 <= i) then elts a !! Z.to_nat i else None) with
    | Some x => Val x
    | None => match default with Some d => Val d | None => Signal "element-range-error"%string end
    end.
Proof.
  intros Ha Hi default. destruct (size_fits _ _ Ha) as [Hf H0]. unfold element. rewrite erc by done.
  destruct (decide (0 <= i)); [|by replace (0 <=? i) with false by lia].
  destruct (0 <=? i) eqn:E; [|lia]. cbn. destruct (i <? size a) eqn:E2.
  - destruct (zread_lookup (elts a) i) as (x & Hx & Hr); [unfold size in *; lia|]. by rewrite Hx, Hr.
  - rewrite lookup_ge_None_2; [done|]. unfold size in *; lia.
Qed.

Lemma vec_dims dims a : array_ok dims a -> vec a = true -> dims = [size a].
Proof. intros (_ & <- & _) Hv. unfold dimensions. by rewrite Hv. Qed.

Lemma aref_ok dims a subs : array_ok dims a -> Forall fits subs ->
  (position dims subs -> exists x, elts a !! Z.to_nat (horner 0 dims subs) = Some x /\ aref a subs = Val x) /\
  (~ position dims subs -> exists m, aref a subs = Signal m).
Proof.
  intros Ha Hs. unfold aref. destruct (vec a) eqn:Ev.
  - pose proof (vec_dims _ _ Ha Ev) as ->. split.
    + intros Hp. inversion Hp as [|i ? s ? Hi Hn]; subst. inversion Hn; subst. inversion Hs; subst.
      rewrite (element_ok _ _ _ Ha) by done. rewrite decide_True by lia.
      destruct (lookup_lt_is_Some_2 (elts a) (Z.to_nat i)) as [x Hx]; [unfold size in *; lia|].
      exists x. rewrite Hx. cbn. split; [|done]. replace (0 * size a + i) with i by lia. done.
    + intros Hp. destruct subs as [|i [|]]; eauto. inversion Hs; subst.
      rewrite (element_ok _ _ _ Ha) by done. destruct (decide (0 <= i)); [|eauto].
      rewrite lookup_ge_None_2; [eauto|]. destruct (decide (i < size a)); [|unfold size in *; lia].
      exfalso. apply Hp. constructor; [lia|constructor].
  - destruct Ha as (Hg & Hd & Hz). rewrite row_major_ok by (by rewrite ?Hd). rewrite Hd. split.
    + intros Hp. rewrite decide_True by (by apply position_length). rewrite decide_True by done. cbn.
      pose proof (horner_range _ _ Hp). apply zread_lookup. unfold size in Hz. lia.
    + intros Hp. destruct (decide _); [|eauto]. rewrite decide_False by done. eauto.
Qed.

Lemma with_elts_ok dims a v : array_ok dims a -> length v = length (elts a) -> array_ok dims (with_elts a v).
Proof.
  intros (Hg & Hd & Hz) Hl. split; [done|]. unfold dimensions, with_elts, size in *. cbn. rewrite Hl. done.
Qed.

Lemma element_setter_ok a x i :
  (0 <= i < size a -> element_setter x a i = Val (with_elts a (<[Z.to_nat i := x]> (elts a)))) /\
  (~ 0 <= i < size a -> element_setter x a i = Signal "element-range-error"%string).
Proof.
  unfold element_setter. split; intros H.
  - replace (_ && _) with true by lia. rewrite zwrite_val by (unfold size in *; lia). done.
  - replace (_ && _) with false by lia. done.
Qed.

Lemma aref_setter_ok dims a subs x : array_ok dims a -> Forall fits subs ->
  (position dims subs -> aref_setter x a subs = Val (with_elts a (<[Z.to_nat (horner 0 dims subs) := x]> (elts a)))) /\
  (~ position dims subs -> exists m, aref_setter x a subs = Signal m).
Proof.
  intros Ha Hs. unfold aref_setter. destruct (vec a) eqn:Ev.
  - pose proof (vec_dims _ _ Ha Ev) as ->. split.
    + intros Hp. inversion Hp as [|i ? s ? Hi Hn]; subst. inversion Hn; subst.
      rewrite (proj1 (element_setter_ok _ _ _)) by done. cbn [horner]. replace (0 * size a + i) with i by lia. done.
    + intros Hp. destruct subs as [|i [|]]; eauto.
      rewrite (proj2 (element_setter_ok _ _ _)); [eauto|]. intros Hi. apply Hp. constructor; [lia|constructor].
  - destruct Ha as (Hg & Hd & Hz). rewrite row_major_ok by (by rewrite ?Hd). rewrite Hd. split.
    + intros Hp. rewrite decide_True by (by apply position_length). rewrite decide_True by done. cbn.
      pose proof (horner_range _ _ Hp). rewrite zwrite_val by (unfold size in Hz; lia). done.
    + intros Hp. destruct (decide _); [|eauto]. rewrite decide_False by done. eauto.
Qed.

(** ** fill! *)
Lemma fill_loop_ok k index (v : list A) x :
  0 <= index -> index + Z.of_nat k <= Z.of_nat (length v) ->
  exists w, fill_loop k index v x = Val w /\ length w = length v /\
    forall p, w !! p = if decide (index <= Z.of_nat p < index + Z.of_nat k) then Some x else v !! p.
Proof.
  revert index v. induction k as [|k IH]; intros index v H0 H1.
  { exists v. split; [done|]. split; [done|]. intros p. by rewrite decide_False by lia. }
  cbn [fill_loop]. rewrite zwrite_val by lia. cbn [obind].
  destruct (IH (index + 1) (<[Z.to_nat index := x]> v)) as (w & -> & Hl & Hw); [lia|rewrite insert_length; lia|].
  rewrite insert_length in Hl. exists w. split; [done|]. split; [done|]. intros p. rewrite Hw.
  destruct (decide (index + 1 <= Z.of_nat p < index + 1 + Z.of_nat k)); [by rewrite decide_True by lia|].
  destruct (decide (Z.of_nat p = index)).
  - rewrite decide_True by lia. replace p with (Z.to_nat index) by lia. apply list_lookup_insert. lia.
  - rewrite decide_False by lia. apply list_lookup_insert_ne. lia.
Qed.

Lemma fill_ok dims a x start last : array_ok dims a ->
  let stop := match last with None => size a | Some e => e end in
  (bounds_ok (size a) start stop -> exists w, fill a x start last = Val (with_elts a w) /\ length w = length (elts a) /\
     forall p, w !! p = if decide (start <= Z.of_nat p < stop) then Some x else elts a !! p) /\
  (~ bounds_ok (size a) start stop -> exists m, fill a x start last = Signal m).
Proof.
  intros Ha stop. unfold fill, check_start_compute_end, bounds_ok. fold stop. split; intros H.
  - replace (start <? 0) with false by lia. replace (size a <? stop) with false by lia. replace (stop <? start) with false by lia.
    cbn [obind]. destruct (fill_loop_ok (Z.to_nat (stop - start)) start (elts a) x) as (w & -> & Hl & Hw); [lia|unfold size in *; lia|].
    exists w. split; [done|]. split; [done|]. intros p. rewrite Hw.
    replace (start + Z.of_nat (Z.to_nat (stop - start))) with stop by lia. done.
  - destruct (start <? 0) eqn:E1; [cbn; eauto|]. destruct (size a <? stop) eqn:E2; [cbn; eauto|].
    destruct (stop <? start) eqn:E3; [cbn; eauto|]. lia.
Qed.

(** ** shallow-copy *)
Lemma copy_loop_ok dims a n k key : array_ok dims a -> array_ok dims n -> 0 <= key -> key + Z.of_nat k = size a ->
  take (Z.to_nat key) (elts n) = take (Z.to_nat key) (elts a) ->
  exists n', copy_loop k key n a = Val n' /\ array_ok dims n' /\ elts n' = elts a.
Proof.
  revert key n. induction k as [|k IH]; intros key n Ha Hn H0 Hk Ht.
  { exists n. split; [done|]. split; [done|]. destruct Ha as (_ & _ & Hz), Hn as (_ & _ & Hz'). unfold size in *.
    rewrite !take_ge in Ht by lia. done. }
  cbn [copy_loop]. destruct (size_fits _ _ Ha) as [Hf _].
  destruct (lookup_lt_is_Some_2 (elts a) (Z.to_nat key)) as [x Hx]; [unfold size in *; lia|].
  rewrite (element_ok _ _ _ Ha) by (unfold fits in *; lia). rewrite decide_True by lia. rewrite Hx. cbn [obind].
  assert (Hs : size n = size a). { destruct Ha as (_ & _ & Hz), Hn as (_ & _ & Hz'). congruence. }
  rewrite (proj1 (element_setter_ok _ _ _)) by lia. cbn [obind].
  apply IH; [done| |lia|lia|].
  - apply with_elts_ok; [done|]. apply insert_length.
  - replace (Z.to_nat (key + 1)) with (S (Z.to_nat key)) by lia. cbn [elts with_elts].
    rewrite (take_S_r _ _ x) by (apply list_lookup_insert; unfold size in *; lia).
    rewrite (take_S_r (elts a) _ x) by done. rewrite take_insert by lia. by rewrite Ht.
Qed.

Lemma shallow_copy_ok dims a : array_ok dims a -> 0 < size a ->
  exists n, shallow_copy a = Val n /\ array_ok dims n /\ elts n = elts a.
Proof.
  intros Ha H. unfold shallow_copy. destruct (size a =? 0) eqn:E; [lia|].
  destruct (lookup_lt_is_Some_2 (elts a) 0) as [x Hx]; [unfold size in *; lia|].
  rewrite (element_ok _ _ _ Ha) by (unfold fits; lia). rewrite decide_True by lia. change (Z.to_nat 0) with 0%nat. rewrite Hx. cbn [obind].
  pose proof Ha as (Hg & Hd & Hz). destruct (make_ok dims x Hg) as (n & Hn & Hnok & _). rewrite Hd, Hn. cbn [obind].
  apply copy_loop_ok; try done; lia.
Qed.

(** ** Histories *)
Lemma run_op_ok dims a o : array_ok dims a -> op_fits o ->
  (exists a', run_op o a = Val a' /\ array_ok dims a' /\
     forall p s v, positions dims !! p = Some s -> elts a !! p = Some v -> elts a' !! p = Some (effect (size a) (Z.of_nat p) s v o)) \/
  ((exists m, run_op o a = Signal m) /\
     forall p s v, positions dims !! p = Some s -> elts a !! p = Some v -> effect (size a) (Z.of_nat p) s v o = v).
Proof.
  intros Ha Ho. destruct o as [s' x|i x|x start last]; cbn in *.
  - destruct (aref_setter_ok _ _ _ x Ha Ho) as [G B]. destruct (decide (position dims s')) as [Hp|Hp].
    + left. rewrite (G Hp). eexists. split; [done|]. split; [apply with_elts_ok; [done|apply insert_length]|].
      intros p s v Hs Hv. cbn. apply positions_lookup in Hs as [Hs He]. destruct (decide (s' = s)) as [->|Hne].
      * replace (Z.to_nat _) with p by lia. apply list_lookup_insert. by eapply lookup_lt_Some.
      * rewrite list_lookup_insert_ne; [done|]. intros Heq. apply Hne.
        pose proof (positions_horner _ _ Hp) as H1. pose proof (positions_horner _ _ Hs) as H2.
        rewrite Heq in H1. replace (Z.to_nat (horner 0 dims s)) with p in H2 by lia. congruence.
    + right. split; [by apply B|]. intros p s v Hs Hv. apply positions_lookup in Hs as [Hs He].
      by rewrite decide_False by (intros ->; done).
  - destruct (element_setter_ok a x i) as [G B]. destruct (decide (0 <= i < size a)) as [Hi|Hi].
    + left. rewrite (G Hi). eexists. split; [done|]. split; [apply with_elts_ok; [done|apply insert_length]|].
      intros p s v Hs Hv. cbn. destruct (decide (i = Z.of_nat p)) as [->|Hne].
      * rewrite Nat2Z.id. apply list_lookup_insert. by eapply lookup_lt_Some.
      * rewrite list_lookup_insert_ne; [done|]. lia.
    + right. split; [eauto|]. intros p s v Hs Hv. rewrite decide_False; [done|]. apply lookup_lt_Some in Hv. unfold size in Hi. lia.
  - destruct (fill_ok _ _ x start last Ha) as [G B]. set (stop := match last with None => size a | Some e => e end) in *.
    destruct (decide (bounds_ok (size a) start stop)) as [Hb|Hb].
    + left. destruct (G Hb) as (w & -> & Hl & Hw). eexists. split; [done|]. split; [by apply with_elts_ok|].
      intros p s v Hs Hv. cbn. rewrite Hw. unfold bounds_ok in Hb. 
      destruct (decide (start <= Z.of_nat p < stop)); [by rewrite decide_True by lia|]. rewrite decide_False by lia. done.
    + right. split; [eauto|]. intros p s v Hs Hv. rewrite decide_False; [done|]. unfold bounds_ok in Hb. lia.
Qed.

Lemma run_ok dims ops a : array_ok dims a -> Forall op_fits ops ->
  exists a', run ops a = Val a' /\ array_ok dims a' /\
    forall p s v, positions dims !! p = Some s -> elts a !! p = Some v ->
      elts a' !! p = Some (foldl (effect (prod dims) (Z.of_nat p) s) v ops).
Proof.
  revert a. induction ops as [|o ops IH]; intros a Ha Ho.
  { exists a. done. }
  apply Forall_cons in Ho as [Ho Hos]. pose proof Ha as (_ & _ & Hz).
  destruct (run_op_ok _ _ _ Ha Ho) as [(a1 & E & Ha1 & H1)|[[m E] H1]]; cbn [run]; rewrite E.
  - destruct (IH _ Ha1 Hos) as (a' & Hr & Ha' & H'). exists a'. split; [done|]. split; [done|].
    intros p s v Hs Hv. cbn. rewrite <- Hz. erewrite H'; [|done|by eapply H1]. by rewrite Hz.
  - destruct (IH _ Ha Hos) as (a' & Hr & Ha' & H'). exists a'. split; [done|]. split; [done|].
    intros p s v Hs Hv. cbn. rewrite <- Hz. rewrite (H1 p s v Hs Hv). rewrite Hz. by apply H'.
Qed.
End arrays.
