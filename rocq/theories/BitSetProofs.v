(** Proofs about bit sets: refinement of histories, queries and iteration. *)
From Coq Require Import Sorting.Sorted.
From stdpp Require Import list_numbers.
From Verif Require Import Base BitsModel BitsSpec BitsProofs.
From Coq Require Import ZifyBool ZifyNat ZifyN.
Ltac Zify.zify_post_hook ::= Z.div_mod_to_equations.
Local Open Scope nat_scope.
Local Open Scope outcome_scope.
Arguments Nat.mul : simpl never.
Arguments Nat.div : simpl never.
Arguments Nat.modulo : simpl never.

Section sets.
Context (P : nat -> Prop) (HP64 : forall k, P (k * 64)).

(** Set [b] represents [A]; its vector has a size allowed by [P]. *)
Definition holds (h : list bitvec) (b : bset) (A : nset) : Prop :=
  exists v, h !! bs_vec b = Some v /\ bv_wf v /\ P (bv_size v) /\
    forall i, ext v (bs_pad b) i = A i.

(** The heap only grew, and changed at most at [x]. *)
Definition keeps (x : nat) (h h' : list bitvec) : Prop :=
  length h <= length h' /\ forall a, a < length h -> a <> x -> h' !! a = h !! a.
Definition extends (h h' : list bitvec) : Prop :=
  length h <= length h' /\ forall a, a < length h -> h' !! a = h !! a.

Lemma extends_keeps x h h' : extends h h' -> keeps x h h'.
Proof. intros [? H]. split; auto. Qed.
Lemma extends_app h l : extends h (h ++ l).
Proof. split; [rewrite app_length; lia|]. intros. by rewrite lookup_app_l. Qed.
Lemma keeps_insert x h v : keeps x h (<[x := v]> h).
Proof. split; [by rewrite insert_length|]. intros. by rewrite list_lookup_insert_ne. Qed.
Lemma keeps_refl x h : keeps x h h.
Proof. split; auto. Qed.

Lemma holds_ext h b A A' : holds h b A -> (forall i, A i = A' i) -> holds h b A'.
Proof.
  intros (v & Hv & Wv & Pv & Bv) H. exists v. split_and!; auto. intros i. by rewrite Bv.
Qed.

Lemma holds_lt h b A : holds h b A -> bs_vec b < length h.
Proof. intros (v & Hv & _). by eapply lookup_lt_Some. Qed.

Lemma ext_setter v v' p x b i :
  bv_size v' = bv_size v -> x < bv_size v ->
  (forall j, bit v' j = if decide (j = x) then b else bit v j) ->
  ext v' p i = s_with (ext v p) x b i.
Proof.
  intros Hs Hx Hb. unfold ext, s_with. rewrite Hs, Hb.
  repeat case_decide; try lia; done.
Qed.

(** The size chosen by set-add! and friends. *)
Lemma made_round n : made_size n true = (n + 63) / 64 * 64.
Proof. done. Qed.

(** Growing a vector to hold [x], keeping its extension. *)
Lemma grow_spec h b A x v :
  h !! bs_vec b = Some v -> bv_wf v -> (forall i, ext v (bs_pad b) i = A i) ->
  bv_size v <= x ->
  exists v', make_bv h (x + 1) true (bs_pad b) (Some (bs_vec b)) = Val (h ++ [v'], length h) /\
    bv_wf v' /\ P (bv_size v') /\ x < bv_size v' /\ forall i, ext v' (bs_pad b) i = A i.
Proof.
  intros Hv Wv Bv Hx.
  destruct (make_bv_spec h (x + 1) true (bs_pad b) (Some (bs_vec b))) as (v' & -> & W' & S' & B').
  { by exists v. }
  exists v'. rewrite Hv in B'. rewrite made_round in S'.
  split_and!; auto.
  - rewrite S'. apply HP64.
  - lia.
  - intros i. destruct (decide (i < bv_size v')).
    + rewrite ext_in by done. by rewrite B', Bv.
    + rewrite ext_out by lia. rewrite <- Bv. symmetry. apply ext_out. lia.
Qed.

(** What a destructive operation on [b] does. *)
Definition updates (h : list bitvec) (b : bset) (h' : list bitvec) (b' : bset) (A' : nset) : Prop :=
  keeps (bs_vec b) h h' /\ (bs_vec b' = bs_vec b \/ length h <= bs_vec b') /\ holds h' b' A'.
(** What a non-destructive operation does. *)
Definition makes (h h' : list bitvec) (b' : bset) (A' : nset) : Prop :=
  extends h h' /\ length h <= bs_vec b' /\ holds h' b' A'.

Lemma s_with_same (A : nset) x b i : A x = b -> s_with A x b i = A i.
Proof. unfold s_with. intros <-. by case_decide; subst. Qed.

(** Storing bit [c] for [x]: common part of set-add! and set-remove!. *)
Lemma store_spec h b A x c v :
  h !! bs_vec b = Some v -> bv_wf v -> P (bv_size v) ->
  (forall i, ext v (bs_pad b) i = A i) -> x < bv_size v ->
  exists h', element_no_bounds_check_setter c h (bs_vec b) x = Val h' /\
    keeps (bs_vec b) h h' /\ holds h' b (s_with A x c).
Proof.
  intros Hv Wv Pv Bv Hx.
  destruct (setter_nbc_spec c h (bs_vec b) v x Hv Wv Hx) as (v' & -> & W' & S' & B').
  eexists. split; [reflexivity|]. split; [apply keeps_insert|].
  exists v'. split_and!; auto.
  - apply list_lookup_insert. by eapply lookup_lt_Some.
  - by rewrite S'.
  - intros i. rewrite (ext_setter v v' _ x c) by done. unfold s_with. by rewrite Bv.
Qed.

(** The same on a freshly made vector. *)
Lemma store_fresh h b A x c v :
  bs_vec b = length h -> bv_wf v -> P (bv_size v) ->
  (forall i, ext v (bs_pad b) i = A i) -> x < bv_size v ->
  exists h', element_no_bounds_check_setter c (h ++ [v]) (length h) x = Val h' /\
    makes h h' b (s_with A x c).
Proof.
  intros Hb Wv Pv Bv Hx.
  destruct (store_spec (h ++ [v]) b A x c v) as (h' & E & K & H); auto.
  - rewrite Hb. apply lookup_last_app.
  - rewrite Hb in E. exists h'. split; [done|]. split_and!; auto; [|lia].
    destruct K as [K1 K2]. rewrite app_length in K1, K2. simpl in K1, K2. split; [lia|].
    intros a Ha. rewrite K2 by lia. by rewrite lookup_app_l.
Qed.

Lemma makes_updates h b h' b' A : makes h h' b' A -> updates h b h' b' A.
Proof. intros (E & L & H). split_and!; auto. by apply extends_keeps. Qed.

Lemma makes_app h v b A :
  bs_vec b = length h -> bv_wf v -> P (bv_size v) ->
  (forall i, ext v (bs_pad b) i = A i) -> makes h (h ++ [v]) b A.
Proof.
  intros Hb Wv Pv Bv. split_and!; [apply extends_app|lia|].
  exists v. rewrite Hb. split_and!; auto. apply lookup_last_app.
Qed.

Lemma set_add_bang_spec h b A x :
  holds h b A -> (0 <= x)%Z ->
  exists h' b', set_add_bang h b x = Val (h', b') /\
    updates h b h' b' (s_with A (Z.to_nat x) true).
Proof.
  intros HA Hx. pose proof HA as (v & Hv & Wv & Pv & Bv). unfold set_add_bang.
  rewrite (proj2 (Z.ltb_ge _ _) Hx). rewrite (get_val _ _ _ Hv). cbn [obind].
  set (n := Z.to_nat x).
  destruct (Nat.leb_spec (bv_size v) n).
  - destruct (bs_pad b) eqn:Ep; simpl.
    + eexists _, _. split; [reflexivity|]. split_and!; [apply keeps_refl|auto|].
      eapply holds_ext; [done|]. intros i. symmetry. apply s_with_same.
      rewrite <- Bv. by apply ext_out.
    + destruct (grow_spec h b A n v) as (v' & E & W' & P' & L' & B'); auto; [by rewrite Ep|].
      rewrite Ep in E, B'. rewrite E. cbn [obind].
      destruct (store_fresh h (BS false (length h)) A n true v') as (h' & -> & M); auto.
      cbn [obind]. eexists _, _. split; [reflexivity|]. by apply makes_updates.
  - destruct (store_spec h b A n true v) as (h' & -> & K & H'); auto.
    cbn [obind]. eexists _, _. split; [reflexivity|]. split_and!; auto.
Qed.

Lemma set_remove_bang_spec h b A x :
  holds h b A -> (0 <= x)%Z ->
  exists h' b', set_remove_bang h b x = Val (h', b') /\
    updates h b h' b' (s_with A (Z.to_nat x) false).
Proof.
  intros HA Hx. pose proof HA as (v & Hv & Wv & Pv & Bv). unfold set_remove_bang.
  rewrite (proj2 (Z.ltb_ge _ _) Hx). rewrite (get_val _ _ _ Hv). cbn [obind].
  set (n := Z.to_nat x).
  destruct (Nat.leb_spec (bv_size v) n).
  - destruct (bs_pad b) eqn:Ep; simpl.
    + destruct (grow_spec h b A n v) as (v' & E & W' & P' & L' & B'); auto; [by rewrite Ep|].
      rewrite Ep in E, B'. rewrite E. cbn [obind].
      destruct (store_fresh h (BS true (length h)) A n false v') as (h' & -> & M); auto.
      cbn [obind]. eexists _, _. split; [reflexivity|]. by apply makes_updates.
    + eexists _, _. split; [reflexivity|]. split_and!; [apply keeps_refl|auto|].
      eapply holds_ext; [done|]. intros i. symmetry. apply s_with_same.
      rewrite <- Bv. by apply ext_out.
  - destruct (store_spec h b A n false v) as (h' & -> & K & H'); auto.
    cbn [obind]. eexists _, _. split; [reflexivity|]. split_and!; auto.
Qed.

(** set-add and set-remove: [c] is the bit to store, [g] says whether the vector must grow. *)
Lemma set_store_spec h b A n c v :
  h !! bs_vec b = Some v -> bv_wf v -> P (bv_size v) -> (forall i, ext v (bs_pad b) i = A i) ->
  exists h' b',
    (do ' (h1, r) <- (if (bv_size v <=? n) && negb (Bool.eqb (bs_pad b) c)
                      then make_bv h (n + 1) true (bs_pad b) (Some (bs_vec b))
                      else bv_copy_sequence h (bs_vec b));
     do rv <- get h1 r;
     do h2 <- (if n <? bv_size rv then element_no_bounds_check_setter c h1 r n else Val h1);
     Val (h2, BS (bs_pad b) r)) = Val (h', b') /\ makes h h' b' (s_with A n c).
Proof.
  intros Hv Wv Pv Bv.
  destruct (Nat.leb_spec (bv_size v) n) as [Hle|Hlt];
    [destruct (Bool.eqb_spec (bs_pad b) c) as [Hc|Hc]|]; cbn [andb negb].
  - destruct (copy_sequence_spec h (bs_vec b) v Hv Wv) as (v' & -> & W' & S' & B').
    cbn [obind]. rewrite (get_val _ _ v') by apply lookup_last_app. cbn [obind].
    rewrite (proj2 (Nat.ltb_ge _ _)) by lia. cbn [obind]. eexists _, _. split; [reflexivity|].
    apply makes_app; auto; [by rewrite S'|]. simpl. intros i.
    rewrite s_with_same; [by rewrite B'|]. rewrite <- Bv. rewrite <- Hc. by apply ext_out.
  - destruct (grow_spec h b A n v) as (v' & -> & W' & P' & L' & B'); auto.
    cbn [obind]. rewrite (get_val _ _ v') by apply lookup_last_app. cbn [obind].
    rewrite (proj2 (Nat.ltb_lt _ _)) by lia.
    destruct (store_fresh h (BS (bs_pad b) (length h)) A n c v') as (h' & -> & M); auto.
    cbn [obind]. eexists _, _. split; [reflexivity|done].
  - destruct (copy_sequence_spec h (bs_vec b) v Hv Wv) as (v' & -> & W' & S' & B').
    cbn [obind]. rewrite (get_val _ _ v') by apply lookup_last_app. cbn [obind].
    rewrite (proj2 (Nat.ltb_lt _ _)) by lia.
    destruct (store_fresh h (BS (bs_pad b) (length h)) A n c v') as (h' & -> & M); auto.
    + by rewrite S'.
    + simpl. intros i. by rewrite B'.
    + lia.
    + cbn [obind]. eexists _, _. split; [reflexivity|done].
Qed.

Lemma set_add_spec h b A x :
  holds h b A -> (0 <= x)%Z ->
  exists h' b', set_add h b x = Val (h', b') /\ makes h h' b' (s_with A (Z.to_nat x) true).
Proof.
  intros (v & Hv & Wv & Pv & Bv) Hx. unfold set_add.
  rewrite (proj2 (Z.ltb_ge _ _) Hx). rewrite (get_val _ _ _ Hv). cbn [obind].
  destruct (set_store_spec h b A (Z.to_nat x) true v Hv Wv Pv Bv) as (h' & b' & E & M).
  exists h', b'. split; [|done]. rewrite <- E. destruct (bs_pad b); simpl; rewrite ?andb_false_r; done.
Qed.

Lemma set_remove_spec h b A x :
  holds h b A -> (0 <= x)%Z ->
  exists h' b', set_remove h b x = Val (h', b') /\ makes h h' b' (s_with A (Z.to_nat x) false).
Proof.
  intros (v & Hv & Wv & Pv & Bv) Hx. unfold set_remove.
  rewrite (proj2 (Z.ltb_ge _ _) Hx). rewrite (get_val _ _ _ Hv). cbn [obind].
  destruct (set_store_spec h b A (Z.to_nat x) false v Hv Wv Pv Bv) as (h' & b' & E & M).
  exists h', b'. split; [|done]. rewrite <- E. destruct (bs_pad b); simpl; rewrite ?andb_false_r; done.
Qed.

Lemma add_members_spec ms : forall h h0 b A,
  extends h0 h -> length h0 <= bs_vec b -> holds h b A ->
  match s_add_all A ms with
  | Some A' => exists h' b', add_members h b ms = Val (h', b') /\ makes h0 h' b' A'
  | None => add_members h b ms = Signal "element-range-error"%string
  end.
Proof.
  induction ms as [|x ms IH]; intros h h0 b A E L H.
  - simpl. eexists _, _. split; [done|]. by split_and!.
  - cbn [s_add_all add_members]. case_decide as Hx.
    + destruct (set_add_bang_spec h b A x H Hx) as (h' & b' & -> & [K1 K2] & Hb & H').
      cbn [obind]. apply IH; auto.
      * destruct E as [E1 E2]. split; [lia|]. intros a Ha. rewrite K2 by lia. auto.
      * destruct E as [E1 E2]. lia.
    + unfold set_add_bang. by rewrite (proj2 (Z.ltb_lt _ _)) by lia.
Qed.

Lemma make_set_spec h hint af ms :
  Forall P (op_hints (MakeSet hint af ms)) ->
  match s_add_all (s_initial af) ms with
  | Some A => exists h' b', make_set h hint af ms = Val (h', b') /\ makes h h' b' A
  | None => make_set h hint af ms = Signal "element-range-error"%string
  end.
Proof.
  intros HF. unfold make_set. cbn [make_bv Nat.eqb obind].
  change (make_bv h 0 false false None) with (Val (h ++ [BV 0 []], length h)). cbn [obind].
  set (h0 := h ++ [BV 0 []]).
  assert (exists h1 b, match af, hint with
    | Some n, _ => do ' (h', r) <- make_bv h0 n false false None; Val (h', BS true r)
    | None, Some n => do ' (h', r) <- make_bv h0 n false false None; Val (h', BS false r)
    | None, None => Val (h0, BS false (length h))
    end = Val (h1, b) /\ makes h h1 b (s_initial af)) as (h1 & b & -> & M1 & M2 & M3).
  { assert (forall n p, P n -> exists h1 b,
      (do ' (h', r) <- make_bv h0 n false false None; Val (h', BS p r)) = Val (h1, b) /\
      makes h h1 b (fun i => if decide (n <= i) then p else false)) as Hmake.
    { intros n p Pn. destruct (make_bv_spec h0 n false false None I) as (v & -> & W & S & B).
      cbn [obind]. eexists _, _. split; [reflexivity|]. unfold made_size in S.
      split_and!.
      - unfold h0. rewrite <- app_assoc. apply extends_app.
      - simpl. unfold h0. rewrite app_length. lia.
      - exists v. simpl. split_and!; auto; [apply lookup_last_app|by rewrite S|].
        intros i. unfold ext. rewrite S. repeat case_decide; try lia; auto. apply B. lia. }
    unfold op_hints in HF. destruct af as [n|]; [|destruct hint as [n|]].
    - apply Forall_cons in HF as [Pn _]. destruct (Hmake n true Pn) as (h1 & b & -> & M).
      exists h1, b. split; [done|]. destruct M as (?&?&?). split_and!; auto.
    - apply Forall_cons in HF as [Pn _]. destruct (Hmake n false Pn) as (h1 & b & -> & M).
      exists h1, b. split; [done|]. destruct M as (?&?&?). split_and!; auto.
      eapply holds_ext; [done|]. intros i. simpl. by case_decide.
    - eexists _, _. split; [done|]. apply makes_app; auto.
      + split; [done|constructor].
      + apply (HP64 0). }
  cbn [obind]. by apply add_members_spec.
Qed.

(** The binary operations. *)
Lemma computes_makes f bop h b1 b2 A1 A2 :
  computes f bop -> holds h b1 A1 -> holds h b2 A2 ->
  exists r, f h (bs_vec b1) (bs_vec b2) (bs_pad b1) (bs_pad b2) = Val r /\
    makes h (as_set r).1 (as_set r).2 (fun i => bop (A1 i) (A2 i)).
Proof.
  intros Hf (v1 & H1 & W1 & P1 & B1) (v2 & H2 & W2 & P2 & B2).
  destruct (Hf h _ _ (bs_pad b1) (bs_pad b2) v1 v2 H1 H2 W1 W2) as (v & -> & W & S & B).
  eexists. split; [reflexivity|]. simpl. apply makes_app; auto.
  - by destruct S as [->| ->].
  - intros i. simpl. by rewrite B, B1, B2.
Qed.

Lemma computes_updates f bop h b1 b2 A1 A2 :
  computes_bang f bop -> holds h b1 A1 -> holds h b2 A2 ->
  exists r, f h (bs_vec b1) (bs_vec b2) (bs_pad b1) (bs_pad b2) = Val r /\
    updates h b1 (as_set r).1 (as_set r).2 (fun i => bop (A1 i) (A2 i)).
Proof.
  intros Hf (v1 & H1 & W1 & P1 & B1) (v2 & H2 & W2 & P2 & B2).
  destruct (Hf h _ _ (bs_pad b1) (bs_pad b2) v1 v2 H1 H2 W1 W2) as (v & h' & r & -> & Hr & W & S & B).
  eexists. split; [reflexivity|]. simpl.
  assert (P (bv_size v)) as Pv by (by destruct S as [->| ->]).
  destruct Hr as [[-> ->]|[-> ->]].
  - split_and!; [apply keeps_insert|auto|]. exists v. simpl. split_and!; auto.
    + apply list_lookup_insert. by eapply lookup_lt_Some.
    + intros i. by rewrite B, B1, B2.
  - apply makes_updates. apply makes_app; auto. intros i. simpl. by rewrite B, B1, B2.
Qed.

Lemma fill_set_spec h b A c :
  (forall n, P n -> n <> 62 /\ n <> 63) -> holds h b A ->
  exists r, fill_set h b c = Val r /\ updates h b r.1 r.2 (fun _ => c).
Proof.
  intros HP (v & Hv & Wv & Pv & Bv). unfold fill_set.
  destruct (decide (bv_size v = 0)) as [H0|H0].
  - unfold fill_bang. rewrite (get_val _ _ _ Hv). cbn [obind]. rewrite H0. simpl.
    eexists. split; [reflexivity|]. simpl. split_and!; [apply keeps_refl|auto|].
    exists v. simpl. split_and!; auto. intros i. apply ext_out. lia.
  - destruct (HP _ Pv) as [Hn1 Hn2].
    destruct (fill_spec h (bs_vec b) v c 0 (bv_size v) Hv Wv) with (last_arg := @None nat)
      as (v' & -> & W' & S' & B'); auto; try lia.
    cbn [obind]. eexists. split; [reflexivity|]. simpl. split_and!; [apply keeps_insert|auto|].
    exists v'. simpl. split_and!; auto.
    + apply list_lookup_insert. by eapply lookup_lt_Some.
    + by rewrite S'.
    + intros i. unfold ext. rewrite S'. case_decide; [|done]. rewrite B' by done.
      by rewrite decide_True by lia.
Qed.

(** ** Histories *)
Definition inv (st : state) (As : list nset) : Prop :=
  length (snd st) = length As /\ NoDup (bs_vec <$> snd st) /\
  forall k b A, snd st !! k = Some b -> As !! k = Some A -> holds (fst st) b A.

Lemma inv_new h s As h' b' A' :
  inv (h, s) As -> makes h h' b' A' -> inv (h', s ++ [b']) (As ++ [A']).
Proof.
  intros (L & N & H) (E & B & H'). split_and!; simpl in *.
  - rewrite !app_length. simpl. lia.
  - rewrite fmap_app. apply NoDup_app. split_and!; auto.
    + intros x [c [-> Hc]]%elem_of_list_fmap. apply elem_of_list_lookup in Hc as [k Hk].
      destruct (lookup_lt_is_Some_2 As k) as [A HA].
      { apply lookup_lt_Some in Hk. lia. }
      pose proof (holds_lt _ _ _ (H k _ _ Hk HA)).
      simpl. intros Hin%elem_of_list_singleton. lia.
    + simpl. apply NoDup_singleton.
  - intros k b A Hb HA. apply lookup_app_Some in Hb as [Hb|[Hk Hb]].
    + rewrite lookup_app_l in HA by (apply lookup_lt_Some in Hb; lia).
      destruct (H k _ _ Hb HA) as (v & Hv & ?&?&?).
      exists v. split_and!; auto. destruct E as [_ E]. rewrite E; [done|].
      by eapply lookup_lt_Some.
    + rewrite lookup_app_r in HA by lia. rewrite L in Hb.
      destruct (k - length As) as [|n]; simpl in *; [|by rewrite lookup_nil in Hb].
      by simplify_eq.
Qed.

Lemma inv_upd h s As k b h' b' A' :
  inv (h, s) As -> s !! k = Some b -> updates h b h' b' A' ->
  inv (h', <[k := b']> s) (<[k := A']> As).
Proof.
  intros (L & N & H) Hk (K & B & H'). simpl in *.
  assert (forall j c, j <> k -> s !! j = Some c -> bs_vec c <> bs_vec b /\ bs_vec c < length h) as Hd.
  { intros j c Hj Hc. split.
    - intros He. apply Hj. eapply NoDup_lookup; [apply N| |].
      + rewrite list_lookup_fmap, Hc. done.
      + rewrite list_lookup_fmap, Hk. simpl. by rewrite He.
    - destruct (lookup_lt_is_Some_2 As j) as [A HA]; [apply lookup_lt_Some in Hc; lia|].
      by eapply holds_lt, H. }
  split_and!; simpl.
  - by rewrite !insert_length.
  - rewrite list_fmap_insert. apply NoDup_alt. intros i j x Hi Hj.
    assert (forall i x, <[k:=bs_vec b']> (bs_vec <$> s) !! i = Some x ->
      (i = k /\ x = bs_vec b') \/ (i <> k /\ exists c, s !! i = Some c /\ x = bs_vec c)) as Hc.
    { intros i0 x0 H0. destruct (decide (i0 = k)) as [->|Hn].
      - rewrite list_lookup_insert in H0.
        + left. by simplify_eq.
        + rewrite fmap_length. by eapply lookup_lt_Some.
      - rewrite list_lookup_insert_ne in H0 by done. rewrite list_lookup_fmap in H0.
        destruct (s !! i0) eqn:E; simpl in H0; simplify_eq. right. eauto. }
    destruct (Hc i x Hi) as [[-> ->]|(Hik & c & Hsc & ->)];
    destruct (Hc j _ Hj) as [[-> Hx]|(Hjk & d & Hsd & Hx)]; auto.
    + exfalso. destruct (Hd _ _ Hjk Hsd) as [? ?]. destruct B as [B|B]; [congruence|lia].
    + exfalso. destruct (Hd _ _ Hik Hsc) as [? ?]. destruct B as [B|B]; [congruence|lia].
    + eapply NoDup_lookup; [apply N| |].
      * rewrite list_lookup_fmap, Hsc. done.
      * rewrite list_lookup_fmap, Hsd. simpl. by rewrite Hx.
  - intros j c A Hc HA. destruct (decide (j = k)) as [->|Hn].
    + rewrite list_lookup_insert in Hc by (by eapply lookup_lt_Some).
      rewrite list_lookup_insert in HA.
      * by simplify_eq.
      * apply lookup_lt_Some in HA. by rewrite insert_length in HA.
    + rewrite list_lookup_insert_ne in Hc by done. rewrite list_lookup_insert_ne in HA by done.
      destruct (Hd _ _ Hn Hc) as [? ?].
      destruct (H j _ _ Hc HA) as (v & Hv & ?&?&?). exists v. split_and!; auto.
      destruct K as [_ K]. by rewrite K.
Qed.

Lemma inv_get h s As k : inv (h, s) As -> k < length As ->
  exists b, get_set s k = Val b /\ s !! k = Some b /\ holds h b (nth k As (fun _ => false)).
Proof.
  intros (L & N & H) Hk. simpl in *. destruct (lookup_lt_is_Some_2 s k) as [b Hb]; [lia|].
  destruct (lookup_lt_is_Some_2 As k) as [A HA]; [lia|].
  exists b. unfold get_set. rewrite Hb. split_and!; auto.
  rewrite (nth_lookup_Some _ _ _ _ HA). by eapply H.
Qed.

Lemma step_spec st As o :
  inv st As -> Forall (fun k => k < length As) (op_args o) -> Forall P (op_hints o) ->
  (op_fills o = true -> forall n, P n -> n <> 62 /\ n <> 63) ->
  match spec_step As o with
  | Some As' => exists st', step st o = Val st' /\ inv st' As' /\
                            length As' = if op_makes o then S (length As) else length As
  | None => step st o = Signal "element-range-error"%string
  end.
Proof.
  intros I Hargs Hhints Hfill. destruct st as [h s].
  assert (forall A, length (As ++ [A]) = S (length As)) as Hlen.
  { intros. rewrite app_length. simpl. lia. }
  destruct o as [hint af ms|k x|k x|k x|k x|k j|k j|k j|k j|k j|k j|k|k|k j|k|k];
    cbn [op_args] in Hargs;
    repeat match goal with
      | H : Forall _ (_ :: _) |- _ => apply Forall_cons in H as [? H] end;
    unfold step; cbn [fst snd spec_step op_makes];
    try match goal with
      | H : ?k < length As, H' : ?j < length As |- _ =>
          destruct (inv_get h s As k I H) as (b1 & -> & Hs1 & HA1);
          destruct (inv_get h s As j I H') as (b2 & -> & Hs2 & HA2)
      | H : ?k < length As |- _ =>
          destruct (inv_get h s As k I H) as (b1 & -> & Hs1 & HA1)
      end; cbn [obind fst snd] in *.
  - pose proof (make_set_spec h hint af ms Hhints) as Hm.
    destruct (s_add_all (s_initial af) ms) as [A|].
    + destruct Hm as (h' & b' & -> & M). cbn [obind]. eexists. split; [reflexivity|].
      split; [by eapply inv_new|auto].
    + by rewrite Hm.
  - case_decide as Hx.
    + destruct (set_add_spec h b1 _ x HA1 Hx) as (h' & b' & -> & M). cbn [obind].
      eexists. split; [reflexivity|]. split; [by eapply inv_new|auto].
    + unfold set_add. by rewrite (proj2 (Z.ltb_lt _ _)) by lia.
  - case_decide as Hx.
    + destruct (set_add_bang_spec h b1 _ x HA1 Hx) as (h' & b' & -> & M). cbn [obind].
      eexists. split; [reflexivity|]. split; [by eapply inv_upd|by rewrite insert_length].
    + unfold set_add_bang. by rewrite (proj2 (Z.ltb_lt _ _)) by lia.
  - case_decide as Hx.
    + destruct (set_remove_spec h b1 _ x HA1 Hx) as (h' & b' & -> & M). cbn [obind].
      eexists. split; [reflexivity|]. split; [by eapply inv_new|auto].
    + unfold set_remove. by rewrite (proj2 (Z.ltb_lt _ _)) by lia.
  - case_decide as Hx.
    + destruct (set_remove_bang_spec h b1 _ x HA1 Hx) as (h' & b' & -> & M). cbn [obind].
      eexists. split; [reflexivity|]. split; [by eapply inv_upd|by rewrite insert_length].
    + unfold set_remove_bang. by rewrite (proj2 (Z.ltb_lt _ _)) by lia.
  - destruct (computes_makes _ _ _ _ _ _ _ or_computes HA1 HA2) as (r & -> & M). cbn [obind].
    eexists. split; [reflexivity|]. split; [by eapply inv_new|auto].
  - destruct (computes_updates _ _ _ _ _ _ _ or_computes_bang HA1 HA2) as (r & -> & M). cbn [obind].
    eexists. split; [reflexivity|]. split; [by eapply inv_upd|by rewrite insert_length].
  - destruct (computes_makes _ _ _ _ _ _ _ and_computes HA1 HA2) as (r & -> & M). cbn [obind].
    eexists. split; [reflexivity|]. split; [by eapply inv_new|auto].
  - destruct (computes_updates _ _ _ _ _ _ _ and_computes_bang HA1 HA2) as (r & -> & M). cbn [obind].
    eexists. split; [reflexivity|]. split; [by eapply inv_upd|by rewrite insert_length].
  - destruct (computes_makes _ _ _ _ _ _ _ andc2_computes HA1 HA2) as (r & -> & M). cbn [obind].
    eexists. split; [reflexivity|]. split; [by eapply inv_new|auto].
  - destruct (computes_updates _ _ _ _ _ _ _ andc2_computes_bang HA1 HA2) as (r & -> & M). cbn [obind].
    eexists. split; [reflexivity|]. split; [by eapply inv_upd|by rewrite insert_length].
  - destruct HA1 as (v & Hv & Wv & Pv & Bv).
    destruct (not_spec h (bs_vec b1) (bs_pad b1) v Hv Wv) as (v' & -> & W' & S' & B').
    cbn [obind]. eexists. split; [reflexivity|]. split; [|auto]. eapply inv_new; [done|].
    apply makes_app; auto; [by rewrite S'|]. intros i. simpl. by rewrite B', Bv.
  - destruct HA1 as (v & Hv & Wv & Pv & Bv).
    destruct (not_bang_spec h (bs_vec b1) (bs_pad b1) v Hv Wv) as (v' & -> & W' & S' & B').
    cbn [obind]. eexists. split; [reflexivity|]. split; [|by rewrite insert_length].
    eapply inv_upd; [done..|]. split_and!; [apply keeps_insert|auto|].
    exists v'. simpl. split_and!; auto.
    + apply list_lookup_insert. by eapply lookup_lt_Some.
    + by rewrite S'.
    + intros i. by rewrite B', Bv.
  - destruct HA2 as (v & Hv & Wv & Pv & Bv). unfold copy_bit_set_bang.
    destruct (copy_sequence_spec h (bs_vec b2) v Hv Wv) as (v' & -> & W' & S' & B').
    cbn [obind]. eexists. split; [reflexivity|]. split; [|by rewrite insert_length].
    eapply inv_upd; [done..|]. apply makes_updates. apply makes_app; auto; [by rewrite S'|].
    intros i. simpl. by rewrite B', Bv.
  - destruct (fill_set_spec h b1 _ false (Hfill eq_refl) HA1) as (r & -> & M). cbn [obind].
    eexists. split; [reflexivity|]. split; [by eapply inv_upd|by rewrite insert_length].
  - destruct (fill_set_spec h b1 _ true (Hfill eq_refl) HA1) as (r & -> & M). cbn [obind].
    eexists. split; [reflexivity|]. split; [by eapply inv_upd|by rewrite insert_length].
Qed.

Lemma run_spec ops : forall st As,
  inv st As -> ops_valid (length As) ops -> Forall (fun o => Forall P (op_hints o)) ops ->
  (Exists (fun o => op_fills o = true) ops -> forall n, P n -> n <> 62 /\ n <> 63) ->
  match spec_run As ops with
  | Some As' => exists st', run st ops = Val st' /\ inv st' As'
  | None => run st ops = Signal "element-range-error"%string
  end.
Proof.
  induction ops as [|o ops IH]; intros st As I V HF Hfill; [by exists st|].
  cbn [spec_run run]. destruct V as [V1 V2]. apply Forall_cons in HF as [HF1 HF2].
  pose proof (step_spec st As o I V1 HF1 (fun H => Hfill (Exists_cons_hd _ _ _ H))) as Hst.
  destruct (spec_step As o) as [As'|].
  - destruct Hst as (st' & -> & I' & L'). cbn [obind]. apply IH; [done| |done|].
    + by rewrite L'.
    + intros H. apply Hfill. by apply Exists_cons_tl.
  - by rewrite Hst.
Qed.

Lemma inv_init : inv ([], []) [].
Proof. split_and!; [done|constructor|]. intros k b A H. simpl in H. by rewrite lookup_nil in H. Qed.
End sets.

(** ** Queries *)
Section queries.
Context (P : nat -> Prop).

Lemma member_spec h b A x : holds P h b A ->
  set_member h b x = if decide (0 <= x)%Z then Val (A (Z.to_nat x))
                     else Signal "element-range-error"%string.
Proof.
  intros (v & Hv & Wv & _ & Bv). unfold set_member. destruct (Z.ltb_spec x 0) as [Hx|Hx].
  - by rewrite decide_False by lia.
  - rewrite decide_True by done. rewrite (get_val _ _ _ Hv). cbn [obind].
    destruct (Nat.ltb_spec (Z.to_nat x) (bv_size v)) as [Hl|Hl]; rewrite <- Bv.
    + rewrite ext_in by done. by apply element_nbc_spec.
    + by rewrite ext_out.
Qed.

Lemma holds_pad h b A : holds P h b A -> exists n, forall i, n <= i -> A i = bs_pad b.
Proof.
  intros (v & _ & _ & _ & Bv). exists (bv_size v). intros i Hi. rewrite <- Bv. by apply ext_out.
Qed.

Lemma pad_finite h b A : holds P h b A -> (bs_pad b = false <-> finite_set A).
Proof.
  intros H. destruct (holds_pad _ _ _ H) as [n Hn]. split.
  - intros Hp. exists n. intros i Hi. by rewrite Hn.
  - intros [m Hm]. rewrite <- (Hn (n + m)), Hm by lia. done.
Qed.

Lemma size_spec h b A : holds P h b A ->
  exists r, set_size h b = Val r /\
    match r with
    | None => ~ finite_set A
    | Some n => finite_set A /\ has_size A n
    end.
Proof.
  intros H. pose proof (pad_finite _ _ _ H) as Hpf.
  destruct H as (v & Hv & Wv & _ & Bv). unfold set_size. destruct (bs_pad b).
  - exists None. split; [done|]. intros Hf%Hpf. done.
  - rewrite (bit_count_spec _ _ _ _ Hv Wv). cbn [obind]. eexists. split; [reflexivity|].
    split; [by apply Hpf|].
    exists (filter (fun k => bit v k = true) (seq 0 (bv_size v))).
    split_and!; auto.
    + apply NoDup_filter, NoDup_seq.
    + intros i. rewrite <- Bv. rewrite elem_of_list_filter, elem_of_seq. unfold ext.
      case_decide; split; naive_solver lia.
Qed.

Lemma has_size_0 A : has_size A 0 <-> forall i, A i = false.
Proof.
  split.
  - intros (l & _ & Hl & H) i. destruct l; [|done]. destruct (A i) eqn:E; [|done].
    apply H in E. by apply elem_of_nil in E.
  - intros H. exists []. split_and!; [constructor|done|]. intros i. rewrite H.
    split; [done|]. by intros ?%elem_of_nil.
Qed.

Lemma has_size_unique A n m : has_size A n -> has_size A m -> n = m.
Proof.
  intros (l & N1 & <- & H1) (k & N2 & <- & H2). apply Permutation_length.
  apply NoDup_Permutation; auto. intros x. by rewrite <- H1, <- H2.
Qed.

Lemma empty_spec h b A : holds P h b A ->
  exists r, set_empty h b = Val r /\ (r = true <-> forall i, A i = false).
Proof.
  intros H. destruct (size_spec _ _ _ H) as (r & E & Hr). unfold set_empty. rewrite E.
  cbn [obind]. eexists. split; [reflexivity|]. rewrite bool_decide_eq_true.
  rewrite <- has_size_0. destruct r as [n|].
  - destruct Hr as [_ Hr]. split; [intros [= ->]; done|].
    intros H0. f_equal. by eapply has_size_unique.
  - split; [done|]. intros H0. pose proof (proj1 (has_size_0 A) H0). exfalso. apply Hr. exists 0. auto.
Qed.

Lemma eq_loop_spec h a1 a2 v1 v2 n : forall i r,
  h !! a1 = Some v1 -> h !! a2 = Some v2 -> bv_wf v1 -> bv_wf v2 ->
  i + n <= bv_size v1 -> i + n <= bv_size v2 ->
  exists r', eq_loop h a1 a2 i n r = Val r' /\
    (r' = true <-> r = true /\ forall k, i <= k < i + n -> bit v1 k = bit v2 k).
Proof.
  induction n as [|n IH]; intros i r H1 H2 W1 W2 L1 L2.
  - exists r. split; [done|]. split; [|naive_solver]. intros ->. split; [done|]. lia.
  - cbn [eq_loop]. destruct r.
    + rewrite (bv_element_spec _ _ _ _ H1 W1), (bv_element_spec _ _ _ _ H2 W2).
      rewrite !decide_True by lia. cbn [obind].
      destruct (IH (S i) (Bool.eqb (bit v1 i) (bit v2 i))) as (r' & -> & Hr'); auto; try lia.
      exists r'. split; [done|]. rewrite Hr'. rewrite eqb_true_iff. split.
      * intros [He Hk]. split; [done|]. intros k Hk'. destruct (decide (k = i)) as [->|]; [done|].
        apply Hk. lia.
      * intros [_ Hk]. split; [apply Hk; lia|]. intros k Hk'. apply Hk. lia.
    + destruct (IH (S i) false) as (r' & -> & Hr'); auto; try lia.
      exists r'. split; [done|]. rewrite Hr'. naive_solver.
Qed.

Lemma pad_loop_spec h a v p n : forall i r,
  h !! a = Some v -> bv_wf v -> i + n <= bv_size v ->
  exists r', pad_loop h a p i n r = Val r' /\
    (r' = true <-> r = true /\ forall k, i <= k < i + n -> bit v k = p).
Proof.
  induction n as [|n IH]; intros i r H1 W1 L1.
  - exists r. split; [done|]. split; [|naive_solver]. intros ->. split; [done|]. lia.
  - cbn [pad_loop]. destruct r.
    + rewrite (bv_element_spec _ _ _ _ H1 W1).
      rewrite !decide_True by lia. cbn [obind].
      destruct (IH (S i) (Bool.eqb (bit v i) p)) as (r' & -> & Hr'); auto; try lia.
      exists r'. split; [done|]. rewrite Hr'. rewrite eqb_true_iff. split.
      * intros [He Hk]. split; [done|]. intros k Hk'. destruct (decide (k = i)) as [->|]; [done|].
        apply Hk. lia.
      * intros [_ Hk]. split; [apply Hk; lia|]. intros k Hk'. apply Hk. lia.
    + destruct (IH (S i) false) as (r' & -> & Hr'); auto; try lia.
      exists r'. split; [done|]. rewrite Hr'. naive_solver.
Qed.

Lemma equal_spec h b1 b2 A1 A2 (same : bool) :
  holds P h b1 A1 -> holds P h b2 A2 -> (same = true -> b1 = b2) ->
  exists r, set_equal h same b1 b2 = Val r /\ (r = true <-> forall i, A1 i = A2 i).
Proof.
  intros H1 H2 Hsame. unfold set_equal.
  destruct (holds_pad _ _ _ H1) as [n1 Hn1]. destruct (holds_pad _ _ _ H2) as [n2 Hn2].
  destruct H1 as (v1 & Hv1 & W1 & _ & B1). destruct H2 as (v2 & Hv2 & W2 & _ & B2).
  destruct same.
  { rewrite <- (Hsame eq_refl) in *. exists true. split; [done|]. split; [|done]. intros _ i.
    rewrite <- B1, <- B2. congruence. }
  destruct (Bool.eqb_spec (bs_pad b1) (bs_pad b2)) as [Hp|Hp]; cbn [negb].
  - rewrite (get_val _ _ _ Hv1), (get_val _ _ _ Hv2). cbn [obind].
    set (m := Nat.min (bv_size v1) (bv_size v2)).
    destruct (eq_loop_spec h (bs_vec b1) (bs_vec b2) v1 v2 m 0 true) as (r1 & -> & R1);
      auto; try lia.
    cbn [obind].
    destruct (pad_loop_spec h (bs_vec b1) v1 (bs_pad b1) (bv_size v1 - m) m r1) as (r2 & -> & R2);
      auto; try lia.
    cbn [obind].
    destruct (pad_loop_spec h (bs_vec b2) v2 (bs_pad b2) (bv_size v2 - m) m r2) as (r3 & -> & R3);
      auto; try lia.
    exists r3. split; [done|]. rewrite R3, R2, R1. split.
    + intros [[[_ E1] E2] E3] i. rewrite <- B1, <- B2. unfold ext.
      repeat case_decide; auto.
      * apply E1. lia.
      * rewrite <- Hp. apply E2. lia.
      * rewrite Hp. symmetry. apply E3. lia.
    + intros E.
      assert (forall i, ext v1 (bs_pad b1) i = ext v2 (bs_pad b2) i) as E'.
      { intros i. by rewrite B1, B2. }
      split_and!; auto; intros k Hk; specialize (E' k); unfold ext in E';
        repeat case_decide; try lia; congruence.
  - exists false. split; [done|]. split; [done|]. intros E. exfalso. apply Hp.
    rewrite <- (Hn1 (n1 + n2)), <- (Hn2 (n1 + n2)) by lia. apply E.
Qed.
End queries.

(** ** Forward iteration *)
Definition tail_of (W : N) (i : nat) (w : N) : Prop := forall k, wbit w k = wbit W (i + k).

Lemma tail_of_0 W : tail_of W 0 W.
Proof. intros k. done. Qed.
Lemma tail_of_shr W i w : tail_of W i w -> tail_of W (S i) (wshr1 w).
Proof.
  intros H k. unfold wshr1. replace (S i + k) with (i + S k) by lia. rewrite <- H.
  unfold wbit. rewrite N.shiftr_spec'. f_equal. lia.
Qed.
Lemma odd_wbit w : N.odd w = wbit w 0.
Proof. symmetry. apply N.bit0_odd. Qed.

Lemma scan_up_spec W n : forall i w e,
  tail_of W i w ->
  (exists m w', scan_up n (Z.of_nat i) w e
       = (Some (Z.of_nat (i + m), w', e + 1 + Z.of_nat m), e + 1 + Z.of_nat m)%Z /\
     m < n /\ wbit W (i + m) = true /\ (forall q, q < m -> wbit W (i + q) = false) /\
     tail_of W (i + m) w')
  \/ (scan_up n (Z.of_nat i) w e = (None, e + Z.of_nat n)%Z /\
      forall q, q < n -> wbit W (i + q) = false).
Proof.
  induction n as [|n IH]; intros i w e Ht.
  - right. split; [simpl; f_equal; lia|]. lia.
  - cbn [scan_up]. rewrite odd_wbit. pose proof (Ht 0) as H0. rewrite Nat.add_0_r in H0.
    destruct (wbit w 0).
    + left. exists 0, w. rewrite Nat.add_0_r. split_and!; auto; try lia.
      f_equal; [|lia]. do 2 f_equal. lia.
    + replace (Z.of_nat i + 1)%Z with (Z.of_nat (S i)) by lia.
      destruct (IH (S i) (wshr1 w) (e + 1)%Z (tail_of_shr _ _ _ Ht))
        as [(m & w' & -> & Hm & Hb & Hq & Ht')|[-> Hq]].
      * left. exists (S m), w'. replace (i + S m) with (S i + m) by lia. split_and!; auto; try lia.
        -- f_equal; [|lia]. do 2 f_equal. lia.
        -- intros [|q] Hq'; [by rewrite Nat.add_0_r|]. replace (i + S q) with (S i + q) by lia.
           apply Hq. lia.
      * right. split; [f_equal; lia|]. intros [|q] Hq'; [by rewrite Nat.add_0_r|].
        replace (i + S q) with (S i + q) by lia. apply Hq. lia.
Qed.

(** Position [p] of [v] is a one and [w] is its word shifted down to it. *)
Definition at_bit (v : bitvec) (p : nat) (w : N) : Prop :=
  bit v p = true /\ p < 64 * word_size v /\
  exists W, bv_words v !! (p / 64) = Some W /\ tail_of W (p mod 64) w.

Lemma scan_words_up_spec h a v : h !! a = Some v -> bv_wf v -> forall n j e,
  j + n = word_size v ->
  (exists (p : nat) w, scan_words_up h a j n e
     = Val (Some ((p / 64)%nat, Z.of_nat (p mod 64), w, e + 1 + Z.of_nat (p - 64 * j)),
            e + 1 + Z.of_nat (p - 64 * j))%Z /\
     64 * j <= p /\ at_bit v p w /\ forall q, 64 * j <= q < p -> bit v q = false)
  \/ (exists e', scan_words_up h a j n e = Val (None, e') /\
      forall q, 64 * j <= q -> bit v q = false).
Proof.
  intros Ha Wv. pose proof (proj1 Wv) as Lv. unfold word_size.
  induction n as [|n IH]; intros j e Hj.
  - right. exists e. split; [done|]. intros q Hq. unfold bit.
    rewrite lookup_ge_None_2; [done|]. lia.
  - cbn [scan_words_up]. destruct (wf_word v j Wv) as (W & HW & _); [lia|].
    rewrite (word_val _ _ _ _ _ Ha HW). cbn [obind].
    assert (forall q, q < 64 -> bit v (64 * j + q) = wbit W q) as Hbit.
    { intros q Hq. rewrite (bit_word _ _ W).
      - f_equal. lia.
      - rewrite <- HW. f_equal. lia. }
    destruct (scan_up_spec W word_bits 0 W e (tail_of_0 W))
      as [(m & w' & E & Hm & Hb & Hq & Ht)|[E Hq]]; change (Z.of_nat 0) with 0%Z in E;
      rewrite E; unfold word_bits in *.
    + left. rewrite Nat.add_0_l in *. exists (64 * j + m), w'.
      assert ((64 * j + m) / 64 = j) as D1 by lia.
      assert ((64 * j + m) mod 64 = m) as D2 by lia.
      rewrite D1, D2. replace (64 * j + m - 64 * j) with m by lia.
      split_and!; [done|lia| |].
      * split_and!; [by rewrite Hbit|unfold word_size; lia|].
        exists W. rewrite D1, D2. auto.
      * intros q Hq'. replace q with (64 * j + (q - 64 * j)) by lia.
        rewrite Hbit by lia. apply (Hq (q - 64 * j)). lia.
    + assert (forall q, 64 * j <= q < 64 * S j -> bit v q = false) as Hzero.
      { intros q Hq'. replace q with (64 * j + (q - 64 * j)) by lia.
        rewrite Hbit by lia. apply (Hq (q - 64 * j)). lia. }
      destruct (IH (S j) (e + Z.of_nat 64)%Z) as [(p & w & -> & Hp & Hat & Hz)|(e' & -> & Hz)].
      * lia.
      * left. exists p, w. split_and!; auto; try lia.
        -- replace (e + Z.of_nat 64 + 1 + Z.of_nat (p - 64 * S j))%Z with (e + 1 + Z.of_nat (p - 64 * j))%Z by lia. done.
        -- intros q Hq'. destruct (decide (q < 64 * S j)); [apply Hzero|apply Hz]; lia.
      * right. exists e'. split; [done|]. intros q Hq'.
        destruct (decide (q < 64 * S j)); [apply Hzero|apply Hz]; lia.
Qed.

Definition proper (v : bitvec) (s : istate) (p : nat) : Prop :=
  st_elem s = Z.of_nat p /\ st_woff s = Z.of_nat (p / 64) /\
  st_boff s = Z.of_nat (p mod 64) /\ at_bit v p (st_word s).

Lemma fip_initial_spec h b v : h !! bs_vec b = Some v -> bv_wf v ->
  exists s, fip_initial h b = Val s /\
   ((exists p, proper v s p /\ forall q, q < p -> bit v q = false) \/
    (st_elem s = Z.of_nat (64 * word_size v) /\ forall q, bit v q = false)).
Proof.
  intros Hv Wv. unfold fip_initial. rewrite (get_val _ _ _ Hv). cbn [obind].
  destruct (scan_words_up_spec h _ v Hv Wv (word_size v) 0 0%Z) as [(p & w & -> & Hp & Hat & Hz)|(e' & -> & Hz)].
  - lia.
  - cbn [obind fst]. eexists. split; [reflexivity|]. left. exists p. split.
    + split_and!; simpl; auto. lia.
    + intros q Hq. apply Hz. lia.
  - cbn [obind fst]. eexists. split; [reflexivity|]. right. split; [simpl; lia|].
    intros q. apply Hz. lia.
Qed.

Lemma fip_next_spec h b v s p : h !! bs_vec b = Some v -> bv_wf v ->
  proper v s p -> p < bv_size v ->
  exists s', fip_next h b s = Val s' /\
   ((exists p', p < p' /\ proper v s' p' /\ forall q, p < q < p' -> bit v q = false) \/
    (st_elem s' = Z.of_nat (bv_size v) /\ forall q, p < q -> bit v q = false)).
Proof.
  intros Hv Wv (He & Hw & Hb & Hbit & Hlt & W & HW & Ht) Hp. unfold fip_next.
  rewrite (get_val _ _ _ Hv). cbn [obind]. rewrite (proj2 (Z.leb_gt _ _)) by lia.
  rewrite He, Hw, Hb.
  replace (Z.to_nat (63 - Z.of_nat (p mod 64))) with (63 - p mod 64) by lia.
  replace (Z.of_nat (p mod 64) + 1)%Z with (Z.of_nat (S (p mod 64))) by lia.
  assert (forall q, p / 64 * 64 <= q < p / 64 * 64 + 64 -> bit v q = wbit W (q mod 64)) as Hq64.
  { intros q Hq. apply bit_word. rewrite <- HW. f_equal. lia. }
  destruct (scan_up_spec W (63 - p mod 64) (S (p mod 64)) (wshr1 (st_word s)) (Z.of_nat p)
    (tail_of_shr _ _ _ Ht)) as [(m & w' & -> & Hm & Hbm & Hzm & Htm)|[-> Hzm]].
  - eexists. split; [reflexivity|]. left. exists (p + 1 + m). split; [lia|]. split.
    + split_and!; simpl; try lia.
      split_and!.
      * rewrite Hq64 by lia. rewrite <- Hbm. f_equal. lia.
      * lia.
      * exists W. replace ((p + 1 + m) / 64) with (p / 64) by lia. split; [done|].
        replace ((p + 1 + m) mod 64) with (S (p mod 64) + m) by lia. done.
    + intros q Hq. rewrite Hq64 by lia. rewrite <- (Hzm (q - p - 1)) by lia. f_equal. lia.
  - assert (forall q, p < q < 64 * (p / 64 + 1) -> bit v q = false) as Hz1.
    { intros q Hq. rewrite Hq64 by lia. rewrite <- (Hzm (q - p - 1)) by lia. f_equal. lia. }
    replace (Z.to_nat (Z.of_nat (p / 64) + 1)) with (p / 64 + 1) by lia.
    destruct (scan_words_up_spec h _ v Hv Wv (word_size v - (p / 64 + 1)) (p / 64 + 1)
      (Z.of_nat p + Z.of_nat (63 - p mod 64))%Z) as [(p' & w & -> & Hp' & Hat & Hz)|(e' & -> & Hz)].
    + lia.
    + cbn [obind fst]. eexists. split; [reflexivity|]. left. exists p'. split; [lia|]. split.
      * split_and!; simpl; auto. lia.
      * intros q Hq. destruct (decide (q < 64 * (p / 64 + 1))); [apply Hz1|apply Hz]; lia.
    + cbn [obind fst]. eexists. split; [reflexivity|]. right. split; [done|].
      intros q Hq. destruct (decide (q < 64 * (p / 64 + 1))); [apply Hz1|apply Hz]; lia.
Qed.

(** The iteration state stands for the least member that is at least [q]. *)
Definition good (v : bitvec) (A : nset) (q : nat) (s : istate) : Prop :=
  (exists p, q <= p /\ proper v s p /\ p < bv_size v /\ forall i, q <= i < p -> A i = false) \/
  (exists p, q <= p /\ st_elem s = Z.of_nat p /\ bv_size v <= p /\ forall i, q <= i < p -> A i = false).

(** A set is [sound_fwd] if it is finite or its vector fills whole words. *)
Definition sound_fwd (v : bitvec) (pad : bool) : Prop := pad = false \/ bv_size v mod 64 = 0.

Lemma ext_bit_false v p i : bv_wf v -> i < bv_size v -> bit v i = false -> ext v p i = false.
Proof. intros. by rewrite ext_in. Qed.

Lemma initial_good h b v A : h !! bs_vec b = Some v -> bv_wf v ->
  (forall i, ext v (bs_pad b) i = A i) -> sound_fwd v (bs_pad b) ->
  exists s, fip_initial h b = Val s /\ good v A 0 s.
Proof.
  intros Hv Wv Bv Hs. pose proof (proj1 Wv) as Lv.
  destruct (fip_initial_spec h b v Hv Wv) as (s & -> & Hcase).
  exists s. split; [done|]. destruct Hcase as [(p & Hp & Hz)|[He Hz]].
  - destruct (decide (p < bv_size v)) as [Hlt|Hge].
    + left. exists p. split_and!; auto; [lia|]. intros i Hi. rewrite <- Bv.
      apply ext_bit_false; auto; [lia|]. apply Hz. lia.
    + right. exists p. destruct Hp as (He & _ & _ & _ & Hpw & _).
      split_and!; auto; try lia. intros i Hi. rewrite <- Bv.
      destruct (decide (i < bv_size v)).
      * apply ext_bit_false; auto. apply Hz. lia.
      * rewrite ext_out by lia. destruct Hs as [Hs|Hs]; [done|].
        unfold word_size in Hpw. lia.
  - right. exists (64 * word_size v). unfold word_size in *. split_and!; auto; try lia.
    intros i Hi. rewrite <- Bv. destruct (decide (i < bv_size v)).
    + by apply ext_bit_false.
    + rewrite ext_out by lia. destruct Hs as [Hs|Hs]; [done|]. lia.
Qed.

Lemma next_good h b v A q s : h !! bs_vec b = Some v -> bv_wf v ->
  (forall i, ext v (bs_pad b) i = A i) -> sound_fwd v (bs_pad b) -> good v A q s ->
  exists s', fip_next h b s = Val s' /\ good v A (Z.to_nat (st_elem s) + 1) s'.
Proof.
  intros Hv Wv Bv Hs Hg. pose proof (proj1 Wv) as Lv.
  destruct Hg as [(p & Hqp & Hp & Hlt & Hz)|(p & Hqp & He & Hge & Hz)].
  - destruct (fip_next_spec h b v s p Hv Wv Hp Hlt) as (s' & -> & Hcase).
    exists s'. split; [done|]. destruct Hp as (He & _). rewrite He, Nat2Z.id.
    destruct Hcase as [(p' & Hpp & Hp' & Hz')|[He' Hz']].
    + destruct (decide (p' < bv_size v)) as [Hlt'|Hge'].
      * left. exists p'. split_and!; auto; [lia|]. intros i Hi. rewrite <- Bv.
        apply ext_bit_false; auto; [lia|]. apply Hz'. lia.
      * right. exists p'. destruct Hp' as (He' & _ & _ & _ & Hpw & _).
        split_and!; auto; try lia. intros i Hi. rewrite <- Bv.
        destruct (decide (i < bv_size v)).
        -- apply ext_bit_false; auto. apply Hz'. lia.
        -- rewrite ext_out by lia. destruct Hs as [Hs|Hs]; [done|].
           unfold word_size in Hpw. lia.
    + right. exists (bv_size v). split_and!; auto; try lia. intros i Hi. rewrite <- Bv.
      apply ext_bit_false; auto; [lia|]. apply Hz'. lia.
  - unfold fip_next. rewrite (get_val _ _ _ Hv). cbn [obind].
    rewrite (proj2 (Z.leb_le _ _)) by lia. eexists. split; [reflexivity|].
    right. exists (p + 1). simpl. split_and!; try lia.
Qed.

Definition lists_from (A : nset) (q : nat) (l : list Z) (fin : bool) : Prop :=
  StronglySorted Z.lt l /\
  (forall x, x ∈ l -> (Z.of_nat q <= x)%Z /\ A (Z.to_nat x) = true) /\
  (forall i, q <= i -> A i = true ->
     Z.of_nat i ∈ l \/ (fin = false /\ forall x, x ∈ l -> (x < Z.of_nat i)%Z)) /\
  (fin = false -> exists i, q <= i /\ A i = true /\ Z.of_nat i ∉ l).

Lemma iterate_up_spec h b v A : h !! bs_vec b = Some v -> bv_wf v ->
  (forall i, ext v (bs_pad b) i = A i) -> sound_fwd v (bs_pad b) ->
  forall n q s, good v A q s ->
  exists l fin, iterate_up n h b s = Val (l, fin) /\ lists_from A q l fin /\
    length l <= n /\ (fin = false -> length l = n).
Proof.
  intros Hv Wv Bv Hs. induction n as [|n IH]; intros q s Hg.
  - cbn [iterate_up]. unfold fip_finished. rewrite (get_val _ _ _ Hv). cbn [obind].
    destruct (negb (bs_pad b) && (Z.of_nat (bv_size v) <=? st_elem s)%Z) eqn:Ef.
    + eexists _, _. split; [reflexivity|]. split; [|split; [simpl; lia|done]].
      apply andb_true_iff in Ef as [Ep%negb_true_iff El%Z.leb_le].
      destruct Hg as [(p & Hqp & (He & _) & Hlt & Hz)|(p & Hqp & He & Hge & Hz)]; [lia|].
      split_and!; [constructor| |  |done].
      * intros x Hx. by apply elem_of_nil in Hx.
      * intros i Hi Hai. destruct (decide (i < p)); [rewrite Hz in Hai by lia; done|].
        rewrite <- Bv, ext_out in Hai by lia. congruence.
    + eexists _, _. split; [reflexivity|]. split; [|split; [simpl; lia|done]].
      split_and!; [constructor| | |].
      * intros x Hx. by apply elem_of_nil in Hx.
      * intros i Hi Hai. right. split; [done|]. intros x Hx. by apply elem_of_nil in Hx.
      * intros _. apply andb_false_iff in Ef.
        destruct Hg as [(p & Hqp & (He & _ & _ & Hb & _) & Hlt & Hz)|(p & Hqp & He & Hge & Hz)];
        exists p; split_and!; auto; try apply not_elem_of_nil.
        -- rewrite <- Bv. by rewrite ext_in.
        -- rewrite <- Bv, ext_out by done. destruct Ef as [Ef%negb_false_iff|Ef%Z.leb_gt]; [done|lia].
  - cbn [iterate_up]. unfold fip_finished. rewrite (get_val _ _ _ Hv). cbn [obind].
    destruct (negb (bs_pad b) && (Z.of_nat (bv_size v) <=? st_elem s)%Z) eqn:Ef.
    + eexists _, _. split; [reflexivity|]. split; [|split; [simpl; lia|done]].
      apply andb_true_iff in Ef as [Ep%negb_true_iff El%Z.leb_le].
      destruct Hg as [(p & Hqp & (He & _) & Hlt & Hz)|(p & Hqp & He & Hge & Hz)]; [lia|].
      split_and!; [constructor| |  |done].
      * intros x Hx. by apply elem_of_nil in Hx.
      * intros i Hi Hai. destruct (decide (i < p)); [rewrite Hz in Hai by lia; done|].
        rewrite <- Bv, ext_out in Hai by lia. congruence.
    + destruct (next_good h b v A q s Hv Wv Bv Hs Hg) as (s' & -> & Hg').
      cbn [obind]. destruct (IH _ _ Hg') as (l & fin & -> & (L1 & L2 & L3 & L4) & Hl1 & Hl2).
      cbn [obind]. eexists _, _. split; [reflexivity|].
      assert (exists p, q <= p /\ st_elem s = Z.of_nat p /\ A p = true /\
                forall i, q <= i < p -> A i = false) as (p & Hqp & He & HAp & Hz).
      { apply andb_false_iff in Ef.
        destruct Hg as [(p & Hqp & (He & _ & _ & Hb & _) & Hlt & Hz)|(p & Hqp & He & Hge & Hz)];
        exists p; split_and!; auto; rewrite <- Bv.
        - by rewrite ext_in.
        - rewrite ext_out by done. destruct Ef as [Ef%negb_false_iff|Ef%Z.leb_gt]; [done|lia]. }
      rewrite He in *. rewrite Nat2Z.id in *.
      split; [|split; [simpl; lia|]].
      * split_and!.
        -- constructor; [done|]. rewrite List.Forall_forall. intros x Hx%elem_of_list_In.
           apply L2 in Hx. lia.
        -- intros x Hx. apply elem_of_cons in Hx as [->|Hx].
           ++ rewrite Nat2Z.id. split; [lia|done].
           ++ destruct (L2 _ Hx). split; [lia|done].
        -- intros i Hi HAi. destruct (decide (i < p)); [rewrite Hz in HAi by lia; done|].
           destruct (decide (i = p)) as [->|Hne]; [left; apply elem_of_list_here|].
           destruct (L3 i) as [Hin|[Hf Hlt]]; auto; [lia| |].
           ++ left. by apply elem_of_list_further.
           ++ right. split; [done|]. intros x [->|Hx]%elem_of_cons; [lia|auto].
        -- intros Hf. destruct (L4 Hf) as (i & Hi & HAi & Hni). exists i. split_and!; auto; [lia|].
           intros [Heq|Hx]%elem_of_cons; [lia|done].
      * intros Hf. simpl. by rewrite Hl2.
Qed.

Lemma forward_spec (P : nat -> Prop) h b A n :
  holds P h b A -> (finite_set A \/ forall k, P k -> k mod 64 = 0) ->
  exists l fin, forward_elements n h b = Val (l, fin) /\ lists_up A l fin /\
    length l <= n /\ (fin = false -> length l = n).
Proof.
  intros H Hc. pose proof (pad_finite _ _ _ _ H) as Hpf.
  destruct H as (v & Hv & Wv & Pv & Bv).
  assert (sound_fwd v (bs_pad b)) as Hs.
  { destruct Hc as [Hc|Hc]; [left; by apply Hpf|right; auto]. }
  destruct (initial_good h b v A Hv Wv Bv Hs) as (s & E & Hg).
  unfold forward_elements. rewrite E. cbn [obind].
  destruct (iterate_up_spec h b v A Hv Wv Bv Hs n 0 s Hg) as (l & fin & -> & (L1 & L2 & L3 & L4) & Hl).
  eexists _, _. split; [reflexivity|]. split; [|done]. split_and!; auto.
  - intros i. apply L3. lia.
  - intros Hf. destruct (L4 Hf) as (i & _ & ?). eauto.
Qed.

(** ** Backward iteration *)
Lemma wbit_rotl w k : wok w -> k < 64 -> wbit (wrotl1 w) k = wbit w ((k + 63) mod 64).
Proof.
  intros Hw Hk. unfold wrotl1. change (N.lor ?a ?b) with (wor a b).
  change (N.land (N.shiftl w 1) (N.ones 64)) with (wshl w 1).
  rewrite wbit_wor, wbit_shl. rewrite bool_decide_true by done. cbn [andb].
  assert (wbit (N.shiftr w 63) k = wbit w (k + 63)) as ->.
  { unfold wbit. rewrite N.shiftr_spec'. f_equal. lia. }
  case_bool_decide as Hk1; cbn [andb orb].
  - rewrite (wok_high w (k + 63)) by (done || lia). rewrite orb_false_r. f_equal. lia.
  - f_equal. lia.
Qed.
Lemma wok_rotl w : wok w -> wok (wrotl1 w).
Proof.
  intros Hw. unfold wrotl1. apply wok_wor.
  - apply wok_wand_r. done.
  - apply wok_intro. intros k Hk. unfold wbit. rewrite N.shiftr_spec'.
    replace (N.of_nat k + 63)%N with (N.of_nat (k + 63)) by lia. apply (wok_high w); [done|lia].
Qed.

(** [w] is [W] rotated so that its low bit is bit [i] of [W] (bit 0 for i = 64). *)
Definition rot_of (W : N) (i : nat) (w : N) : Prop :=
  wok w /\ forall k, k < 64 -> wbit w k = wbit W ((k + i) mod 64).

Lemma rot_of_64 W : wok W -> rot_of W 64 W.
Proof. intros H. split; [done|]. intros k Hk. f_equal. lia. Qed.
Lemma rot_of_rotl W i w : rot_of W (S i) w -> rot_of W i (wrotl1 w).
Proof.
  intros [Hok H]. split; [by apply wok_rotl|]. intros k Hk. rewrite wbit_rotl by done.
  rewrite H by lia. f_equal. lia.
Qed.

(** Scanning the bits i-1, ..., i-n of [W] downwards. *)
Lemma scan_down_spec W n : forall i w e,
  n <= i <= 64 -> rot_of W i w ->
  (exists m w', scan_down n (Z.of_nat i - 1) w e
       = (Some (Z.of_nat (i - 1 - m), w', e - 1 - Z.of_nat m), e - 1 - Z.of_nat m)%Z /\
     m < n /\ wbit W (i - 1 - m) = true /\ (forall q, q < m -> wbit W (i - 1 - q) = false) /\
     rot_of W (i - 1 - m) w')
  \/ (scan_down n (Z.of_nat i - 1) w e = (None, e - Z.of_nat n)%Z /\
      forall q, q < n -> wbit W (i - 1 - q) = false).
Proof.
  induction n as [|n IH]; intros i w e Hi Hr.
  - right. split; [simpl; f_equal; lia|]. lia.
  - destruct i as [|i]; [lia|]. cbn [scan_down]. rewrite odd_wbit.
    apply rot_of_rotl in Hr. pose proof (proj2 Hr 0 ltac:(lia)) as H0.
    rewrite Nat.add_0_l, Nat.mod_small in H0 by lia.
    replace (S i - 1) with i by lia.
    destruct (wbit (wrotl1 w) 0).
    + left. exists 0, (wrotl1 w). rewrite Nat.sub_0_r. split_and!; auto; try lia.
      f_equal; [|lia]. f_equal. f_equal; [f_equal|]; lia.
    + replace (Z.of_nat (S i) - 1 - 1)%Z with (Z.of_nat i - 1)%Z by lia.
      destruct (IH i (wrotl1 w) (e - 1)%Z) as [(m & w' & -> & Hm & Hb & Hq & Ht')|[-> Hq]].
      * lia.
      * done.
      * left. exists (S m), w'. replace (i - S m) with (i - 1 - m) by lia. split_and!; auto; try lia.
        -- f_equal; [|lia]. f_equal. f_equal. lia.
        -- intros [|q] Hq'; [by rewrite Nat.sub_0_r|]. replace (i - S q) with (i - 1 - q) by lia.
           apply Hq. lia.
      * right. split; [f_equal; lia|]. intros [|q] Hq'; [by rewrite Nat.sub_0_r|].
        replace (i - S q) with (i - 1 - q) by lia. apply Hq. lia.
Qed.

Definition at_bit_down (v : bitvec) (p : nat) (w : N) : Prop :=
  bit v p = true /\ p < 64 * word_size v /\
  exists W, bv_words v !! (p / 64) = Some W /\ rot_of W (p mod 64) w.

Lemma scan_words_down_spec h a v : h !! a = Some v -> bv_wf v -> forall n e,
  n <= word_size v ->
  (exists (p : nat) w, scan_words_down h a n e
     = Val (Some ((p / 64)%nat, Z.of_nat (p mod 64), w, e - Z.of_nat (64 * n - p))%Z) /\
     p < 64 * n /\ at_bit_down v p w /\ forall q, p < q < 64 * n -> bit v q = false)
  \/ (scan_words_down h a n e = Val None /\ forall q, q < 64 * n -> bit v q = false).
Proof.
  intros Ha Wv. pose proof (proj1 Wv) as Lv. unfold word_size.
  induction n as [|n IH]; intros e Hn.
  - right. split; [done|]. lia.
  - cbn [scan_words_down]. destruct (wf_word v n Wv) as (W & HW & HWok); [lia|].
    rewrite (word_val _ _ _ _ _ Ha HW). cbn [obind].
    assert (forall q, q < 64 -> bit v (64 * n + q) = wbit W q) as Hbit.
    { intros q Hq. rewrite (bit_word _ _ W).
      - f_equal. lia.
      - rewrite <- HW. f_equal. lia. }
    destruct (scan_down_spec W word_bits 64 W e) as [(m & w' & E & Hm & Hb & Hq & Ht)|[E Hq]];
      [unfold word_bits; lia|by apply rot_of_64|..];
      change (Z.of_nat 64 - 1)%Z with 63%Z in E; rewrite E; unfold word_bits in *.
    + left. exists (64 * n + (63 - m)), w'.
      assert ((64 * n + (63 - m)) / 64 = n) as D1 by lia.
      assert ((64 * n + (63 - m)) mod 64 = 63 - m) as D2 by lia.
      rewrite D1, D2. replace (64 - 1 - m) with (63 - m) in * by lia.
      split_and!; [|lia| |].
      * do 3 f_equal. lia.
      * split_and!; [by rewrite Hbit by lia|unfold word_size; lia|].
        exists W. rewrite D1, D2. auto.
      * intros q Hq'. replace q with (64 * n + (q - 64 * n)) by lia.
        rewrite Hbit by lia. rewrite <- (Hq (63 - (q - 64 * n))) by lia. f_equal. lia.
    + assert (forall q, 64 * n <= q < 64 * S n -> bit v q = false) as Hzero.
      { intros q Hq'. replace q with (64 * n + (q - 64 * n)) by lia.
        rewrite Hbit by lia. rewrite <- (Hq (63 - (q - 64 * n))) by lia. f_equal. lia. }
      destruct (IH (e - Z.of_nat 64)%Z) as [(p & w & -> & Hp & Hat & Hz)|(-> & Hz)].
      * lia.
      * left. exists p, w. split_and!; auto; try lia.
        -- do 3 f_equal. lia.
        -- intros q Hq'. destruct (decide (q < 64 * n)); [apply Hz|apply Hzero]; lia.
      * right. split; [done|]. intros q Hq'.
        destruct (decide (q < 64 * n)); [apply Hz|apply Hzero]; lia.
Qed.

Definition proper_down (v : bitvec) (s : istate) (p : nat) : Prop :=
  st_elem s = Z.of_nat p /\ st_woff s = Z.of_nat (p / 64) /\
  st_boff s = Z.of_nat (p mod 64) /\ at_bit_down v p (st_word s).

(** The state stands for the greatest one below [q]; [A] is the raw content. *)
Definition good_down (v : bitvec) (q : nat) (s : istate) : Prop :=
  (exists p, p < q /\ proper_down v s p /\ forall i, p < i < q -> bit v i = false) \/
  (st_elem s = (-1)%Z /\ forall i, i < q -> bit v i = false).

Lemma bip_initial_spec h b v : h !! bs_vec b = Some v -> bv_wf v ->
  exists s, bip_initial h b = Val s /\ good_down v (64 * word_size v) s.
Proof.
  intros Hv Wv. unfold bip_initial. rewrite (get_val _ _ _ Hv). cbn [obind].
  destruct (scan_words_down_spec h _ v Hv Wv (word_size v) 0%Z) as [(p & w & -> & Hp & Hat & Hz)|(-> & Hz)].
  - lia.
  - cbn [obind]. eexists. split; [reflexivity|]. left. exists p. split_and!; auto.
    split_and!; simpl; auto. lia.
  - cbn [obind]. eexists. split; [reflexivity|]. right. split; auto.
Qed.

Lemma bip_next_spec h b v s p : h !! bs_vec b = Some v -> bv_wf v -> proper_down v s p ->
  exists s', bip_next h b s = Val s' /\ good_down v p s'.
Proof.
  intros Hv Wv (He & Hw & Hb & Hbit & Hlt & W & HW & Hr). unfold bip_next.
  rewrite He, Hw, Hb, !Nat2Z.id.
  assert (forall q, p / 64 * 64 <= q < p / 64 * 64 + 64 -> bit v q = wbit W (q mod 64)) as Hq64.
  { intros q Hq. apply bit_word. rewrite <- HW. f_equal. lia. }
  destruct (scan_down_spec W (p mod 64) (p mod 64) (st_word s) (Z.of_nat p))
    as [(m & w' & -> & Hm & Hbm & Hzm & Htm)|[-> Hzm]]; [lia|done|..].
  - eexists. split; [reflexivity|]. left. exists (p - 1 - m). split_and!; [lia| |].
    + split_and!; simpl; try lia. split_and!.
      * rewrite Hq64 by lia. rewrite <- Hbm. f_equal. lia.
      * lia.
      * exists W. replace ((p - 1 - m) / 64) with (p / 64) by lia. split; [done|].
        replace ((p - 1 - m) mod 64) with (p mod 64 - 1 - m) by lia. done.
    + intros q Hq. rewrite Hq64 by lia. rewrite <- (Hzm (p - 1 - q)) by lia. f_equal. lia.
  - assert (forall q, 64 * (p / 64) <= q < p -> bit v q = false) as Hz1.
    { intros q Hq. rewrite Hq64 by lia. rewrite <- (Hzm (p - 1 - q)) by lia. f_equal. lia. }
    destruct (scan_words_down_spec h _ v Hv Wv (p / 64) (Z.of_nat p - Z.of_nat (p mod 64))%Z)
      as [(p' & w & -> & Hp' & Hat & Hz)|(-> & Hz)].
    + lia.
    + cbn [obind]. eexists. split; [reflexivity|]. left. exists p'. split_and!; [lia| |].
      * split_and!; simpl; auto. lia.
      * intros q Hq. destruct (decide (q < 64 * (p / 64))); [apply Hz|apply Hz1]; lia.
    + cbn [obind]. eexists. split; [reflexivity|]. right. split; [done|].
      intros q Hq. destruct (decide (q < 64 * (p / 64))); [apply Hz|apply Hz1]; lia.
Qed.

Lemma iterate_down_spec h b v : h !! bs_vec b = Some v -> bv_wf v -> forall n q s,
  q < n -> good_down v q s ->
  exists l, iterate_down n h b s = Val l /\ StronglySorted Z.gt l /\
    forall x, x ∈ l <-> (0 <= x < Z.of_nat q)%Z /\ bit v (Z.to_nat x) = true.
Proof.
  intros Hv Wv. induction n as [|n IH]; intros q s Hn Hg; [lia|].
  cbn [iterate_down]. destruct Hg as [(p & Hpq & Hp & Hz)|[He Hz]].
  - pose proof Hp as (He & _ & _ & Hb & _). rewrite He.
    rewrite (proj2 (Z.ltb_ge _ _)) by lia.
    destruct (bip_next_spec h b v s p Hv Wv Hp) as (s' & -> & Hg'). cbn [obind].
    destruct (IH p s') as (l & -> & Hl1 & Hl2); [lia|done|]. cbn [obind].
    eexists. split; [reflexivity|]. split.
    + constructor; [done|]. rewrite List.Forall_forall. intros x Hx%elem_of_list_In.
      apply Hl2 in Hx. lia.
    + intros x. rewrite elem_of_cons, Hl2. split.
      * intros [->|[Hx1 Hx2]]; [rewrite Nat2Z.id|]; split; auto; lia.
      * intros [Hx1 Hx2]. destruct (decide (x = Z.of_nat p)) as [->|Hne]; [by left|].
        destruct (decide (Z.to_nat x < p)).
        -- right. split; [lia|done].
        -- rewrite Hz in Hx2 by lia. done.
  - rewrite He. simpl. exists []. split; [done|]. split; [constructor|].
    intros x. split; [by intros ?%elem_of_nil|]. intros [Hx1 Hx2]. rewrite Hz in Hx2 by lia. done.
Qed.

(** No stray ones above the size. *)
Definition tail_clear (v : bitvec) : Prop := forall i, bv_size v <= i -> bit v i = false.

Lemma aligned_tail_clear v : bv_wf v -> bv_size v mod 64 = 0 -> tail_clear v.
Proof.
  intros [Hl _] Ha i Hi. unfold bit. rewrite lookup_ge_None_2; [done|]. lia.
Qed.

Lemma backward_spec (P : nat -> Prop) h b A :
  holds P h b A -> (forall v, h !! bs_vec b = Some v -> tail_clear v) ->
  (finite_set A -> exists l, backward_elements h b = Val l /\ lists_down A l) /\
  (~ finite_set A -> exists m, backward_elements h b = Signal m).
Proof.
  intros H Htc. pose proof (pad_finite _ _ _ _ H) as Hpf.
  destruct H as (v & Hv & Wv & Pv & Bv). specialize (Htc v Hv). split.
  - intros Hf. apply Hpf in Hf. unfold backward_elements. rewrite Hf.
    rewrite (get_val _ _ _ Hv). cbn [obind].
    destruct (bip_initial_spec h b v Hv Wv) as (s & -> & Hg). cbn [obind].
    destruct (iterate_down_spec h b v Hv Wv (S (word_size v * word_bits)) (64 * word_size v) s)
      as (l & -> & Hl1 & Hl2); [unfold word_bits; lia|done|].
    eexists. split; [reflexivity|]. split; [done|]. intros x. rewrite Hl2.
    pose proof (proj1 Wv) as Lv. unfold word_size.
    rewrite <- Bv, Hf. unfold ext. split.
    + intros [Hx Hb]. split; [lia|]. case_decide; [done|]. rewrite Htc in Hb by lia. done.
    + intros [Hx Hb]. case_decide; [|done]. split; [lia|done].
  - intros Hf. destruct (bs_pad b) eqn:Ep.
    + eexists. unfold backward_elements. by rewrite Ep.
    + exfalso. by apply Hf, Hpf.
Qed.
