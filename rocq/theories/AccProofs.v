(** Proofs about accumulators. *)
From stdpp Require Import list_numbers.
From Verif Require Import Base CollModel CollSpec AccModel AccSpec.
From Coq Require Import ZArith ZifyBool ZifyNat.
Local Open Scope outcome_scope.
Local Open Scope Z_scope.

Definition cell (m : list (list word)) (b i : nat) : option word := m !! b ≫= fun ws => ws !! i.

Definition sized (m : list (list word)) : Prop := Forall (fun ws => length ws = 25%nat) m.

Lemma sized_len m b ws : sized m -> m !! b = Some ws -> length ws = 25%nat.
Proof. intros H Hb. exact (Forall_lookup_1 _ _ _ _ H Hb). Qed.

Lemma buf_read_ok m b i w : sized m -> 0 <= i -> cell m b (Z.to_nat i) = Some w -> buf_read m b i = Val w.
Proof.
  unfold cell, buf_read. intros Hs Hi H. destruct (m !! b) as [ws|] eqn:E; [|done]. cbn in H.
  pose proof (lookup_lt_Some _ _ _ H). replace ((0 <=? i) && (i <? Z.of_nat (length ws))) with true by lia. by apply zread_val.
Qed.

Lemma buf_write_ok m b i x : sized m -> 0 <= i < 25 -> (b < length m)%nat ->
  exists m', buf_write m b i x = Val m' /\ sized m' /\ length m' = length m /\
    cell m' b (Z.to_nat i) = Some x /\ (forall b' i', (b', i') <> (b, Z.to_nat i) -> cell m' b' i' = cell m b' i').
Proof.
  unfold buf_write. intros Hs Hi Hb. destruct (lookup_lt_is_Some_2 m b Hb) as [ws E]. rewrite E.
  pose proof (sized_len _ _ _ Hs E) as Hl. replace ((0 <=? i) && (i <? Z.of_nat (length ws))) with true by lia.
  rewrite zwrite_val by lia. cbn. eexists. split; [done|]. split.
  { unfold sized. apply Forall_insert; [done|]. by rewrite insert_length. }
  rewrite insert_length. split; [done|]. unfold cell. split.
  - rewrite list_lookup_insert by done. cbn. rewrite list_lookup_insert by lia. done.
  - intros b' i' Hne. destruct (decide (b' = b)) as [->|Hb'].
    + rewrite list_lookup_insert by done. rewrite E. cbn. rewrite list_lookup_insert_ne by congruence. done.
    + rewrite list_lookup_insert_ne by done. done.
Qed.

Lemma cell_app m ws b i : (b < length m)%nat -> cell (m ++ [ws]) b i = cell m b i.
Proof. intros H. unfold cell. rewrite lookup_app_l by done. done. Qed.

(** The words [w] stored so far, in the order in which they were stored. *)
Definition holds (m : list (list word)) (w : list word) : Prop :=
  forall j r x, (r < 24)%nat -> w !! (24 * j + r)%nat = Some x -> cell m j (24 - r) = Some x.

Definition back_link (j : nat) : word := match j with O => WFalse | S j => WBuf j end.
Definition next_link (last j : nat) : word := if (j =? last)%nat then WFalse else WBuf (S j).

Record building (a : acc) (w : list word) : Prop := {
  b_sized : sized (a_mem a);
  b_buf : length (a_mem a) = S (a_buf a);
  b_index : 0 <= a_index a <= 24;
  b_len : Z.of_nat (length w) = 24 * Z.of_nat (a_buf a) + 24 - a_index a;
  b_holds : holds (a_mem a) w;
  b_links : forall j, (j <= a_buf a)%nat -> cell (a_mem a) j 0 = Some (back_link j);
  b_size : a_size a = None
}.

Lemma holds_end m w j : holds m w -> Z.of_nat (length w) <= 24 * Z.of_nat j -> forall m',
  (forall b i, (b < j)%nat -> cell m' b i = cell m b i) -> holds m' w.
Proof. intros H Hl m' Hm j' r x Hr Hx. rewrite Hm; [by apply H|]. apply lookup_lt_Some in Hx. lia. Qed.

Lemma building_make keyed kt : building (acc_make keyed kt) [].
Proof. split; cbn; try done. - by repeat constructor. - intros j Hj. assert (j = 0%nat) as -> by lia. done. Qed.

Lemma extend_ok a w : building a w -> a_index a = 0 ->
  exists a', extend_accumulator a = Val a' /\ building a' w /\ a_index a' = 24 /\ a_keyed a' = a_keyed a /\ a_kt a' = a_kt a.
Proof.
  intros [H1 H2 H3 H4 H5 H6 H7] Hi. unfold extend_accumulator.
  destruct (buf_write_ok (a_mem a ++ [new_buffer]) (length (a_mem a)) 0 (WBuf (a_buf a))) as (m' & -> & Hs & Hl & Hc & Ho).
  { apply Forall_app. split; [done|]. repeat constructor. }
  { lia. }
  { rewrite app_length. cbn. lia. }
  cbn. eexists. split; [done|]. split; [|done]. rewrite app_length in Hl. cbn in Hl. change (Z.to_nat 0) with 0%nat in *. change (acc_buf_size - 1) with 24. split; cbn -[Z.mul Z.add Z.sub]; try done; try lia.
  - apply (holds_end (a_mem a) w (length (a_mem a)) H5); [lia|]. intros b i Hb. rewrite Ho by (intros [=]; lia). by apply cell_app.
  - intros j Hj. destruct (decide (j = length (a_mem a))) as [->|Hne].
    + rewrite Hc, H2. done.
    + rewrite Ho by (intros [=]; lia). rewrite cell_app by lia. apply H6. lia.
Qed.

Lemma push_ok a w x : building a w -> 0 < a_index a ->
  exists m', buf_write (a_mem a) (a_buf a) (a_index a) x = Val m' /\
    building (Acc (a_keyed a) (a_kt a) m' (a_buf a) (a_index a - 1) (a_size a)) (w ++ [x]).
Proof.
  intros [H1 H2 H3 H4 H5 H6 H7] Hi.
  destruct (buf_write_ok (a_mem a) (a_buf a) (a_index a) x) as (m' & -> & Hs & Hl & Hc & Ho); [done|lia|lia|].
  eexists. split; [done|]. split; cbn; try done; try lia.
  - rewrite app_length. cbn. lia.
  - intros j r y Hr Hy. destruct (decide (24 * j + r < length w)%nat) as [Hlt|Hge].
    + rewrite lookup_app_l in Hy by done. rewrite Ho; [by apply H5|]. intros [= -> E]. lia.
    + rewrite lookup_app_r in Hy by lia. pose proof (lookup_lt_Some _ _ _ Hy) as Hlt. cbn in Hlt.
      replace (24 * j + r - length w)%nat with 0%nat in Hy by lia. injection Hy as <-.
      assert (j = a_buf a) as -> by lia. rewrite <- Hc. f_equal. lia.
  - intros j Hj. rewrite Ho; [by apply H6|]. intros [=]. lia.
Qed.

(** Adding entries. *)
Definition flat1 (keyed : bool) (e : key * value) : list word := if keyed then [WVal e.2; WKey e.1] else [WVal e.2].
Definition flat (keyed : bool) (kvs : list (key * value)) : list word := concat (map (flat1 keyed) kvs).
Definition stride (keyed : bool) : nat := if keyed then 2%nat else 1%nat.

Lemma flat_length keyed kvs : length (flat keyed kvs) = (stride keyed * length kvs)%nat.
Proof. unfold flat. induction kvs as [|e kvs IH]; cbn; [lia|]. rewrite app_length, IH. destruct keyed; cbn; lia. Qed.

Lemma flat_app keyed l l' : flat keyed (l ++ l') = flat keyed l ++ flat keyed l'.
Proof. unfold flat. by rewrite map_app, concat_app. Qed.

Lemma flat_lookup keyed kvs j k v : kvs !! j = Some (k, v) ->
  flat keyed kvs !! (stride keyed * j)%nat = Some (WVal v) /\ (keyed = true -> flat keyed kvs !! (stride keyed * j + 1)%nat = Some (WKey k)).
Proof.
  revert j. induction kvs as [|[k' v'] kvs IH]; intros j H; [done|]. destruct j as [|j].
  - injection H as -> ->. destruct keyed; cbn; done.
  - destruct (IH j H) as [H1 H2]. unfold flat in *. cbn [map concat].
    replace (stride keyed * S j)%nat with (length (flat1 keyed (k', v')) + stride keyed * j)%nat by (destruct keyed; cbn; lia).
    split; [rewrite lookup_app_r by lia; rewrite <- H1; f_equal; lia|].
    intros Hk. rewrite lookup_app_r by lia. rewrite <- H2 by done. f_equal. lia.
Qed.

Definition adding (keyed : bool) (kt : nat) (a : acc) (kvs : list (key * value)) : Prop :=
  building a (flat keyed kvs) /\ a_keyed a = keyed /\ a_kt a = kt.

Lemma acc_add_ok kt a kvs k v : adding false kt a kvs -> exists a', acc_add a v = Val a' /\ adding false kt a' (kvs ++ [(k, v)]).
Proof.
  intros (Hb & Hk & Ht). unfold acc_add.
  assert (exists a1, (if 0 <? a_index a then Val a else extend_accumulator a) = Val a1 /\ building a1 (flat false kvs) /\ 0 < a_index a1 /\
     a_keyed a1 = false /\ a_kt a1 = kt) as (a1 & -> & Hb1 & Hi1 & Hk1 & Ht1).
  { destruct (0 <? a_index a) eqn:E; [exists a; split_and!; try done; lia|].
    destruct (extend_ok _ _ Hb) as (a' & -> & ? & ? & ? & ?); [destruct Hb; lia|]. exists a'. split_and!; try done; try lia; congruence. }
  cbn [obind]. destruct (push_ok _ _ (WVal v) Hb1 Hi1) as (m' & -> & Hb2). cbn. eexists. split; [done|]. split; [|done].
  rewrite flat_app. exact Hb2.
Qed.

Lemma acc_set_ok kt a kvs k v : adding true kt a kvs -> exists a', acc_set a k v = Val a' /\ adding true kt a' (kvs ++ [(k, v)]).
Proof.
  intros (Hb & Hk & Ht). unfold acc_set.
  assert (exists a1, (if 0 <? a_index a then Val a else extend_accumulator a) = Val a1 /\ building a1 (flat true kvs) /\ 0 < a_index a1 /\
     a_keyed a1 = true /\ a_kt a1 = kt) as (a1 & -> & Hb1 & Hi1 & Hk1 & Ht1).
  { destruct (0 <? a_index a) eqn:E; [exists a; split_and!; try done; lia|].
    destruct (extend_ok _ _ Hb) as (a' & -> & ? & ? & ? & ?); [destruct Hb; lia|]. exists a'. split_and!; try done; try lia; congruence. }
  cbn [obind]. destruct (push_ok _ _ (WVal v) Hb1 Hi1) as (m' & -> & Hb2). cbn [obind].
  destruct (push_ok _ _ (WKey k) Hb2) as (m2 & E2 & Hb3).
  { cbn. pose proof (b_len _ _ Hb1) as Hl. rewrite flat_length in Hl. cbn in Hl. lia. }
  cbn in E2. rewrite E2. cbn [obind]. eexists. split; [done|]. split; [|done].
  rewrite flat_app. cbn. cbn in Hb3. replace (a_index a1 - 2) with (a_index a1 - 1 - 1) by lia. rewrite <- app_assoc in Hb3. exact Hb3.
Qed.

(** Inverting the chain of buffers. *)
Lemma invert_loop_ok last w : forall j fuel m size, sized m -> length m = S last -> (j <= last)%nat -> (j <= fuel)%nat -> holds m w ->
  (forall i, (i < j)%nat -> cell m i 0 = Some (back_link i)) -> (forall i, (j <= i <= last)%nat -> cell m i 0 = Some (next_link last i)) ->
  exists m', invert_loop fuel m j (back_link j) size = Val (m', 0%nat, size + 24 * Z.of_nat j) /\ sized m' /\ length m' = S last /\ holds m' w /\
    forall i, (i <= last)%nat -> cell m' i 0 = Some (next_link last i).
Proof.
  induction j as [|j IH]; intros fuel m size Hs Hl Hj Hf Hh Hb Hn.
  - exists m. split; [destruct fuel; cbn; do 2 f_equal; lia|]. split; [done|]. split; [done|]. split; [done|]. intros i Hi. apply Hn. lia.
  - destruct fuel as [|fuel]; [lia|]. cbn [invert_loop back_link]. rewrite (buf_read_ok m j 0 (back_link j)) by (try done; apply Hb; lia). cbn [obind].
    destruct (buf_write_ok m j 0 (WBuf (S j))) as (m1 & -> & Hs1 & Hl1 & Hc1 & Ho1); [done|lia|lia|]. cbn [obind]. change (Z.to_nat 0) with 0%nat in *.
    destruct (IH fuel m1 (size + acc_buf_size - 1)) as (m' & -> & ? & ? & ? & ?); try done; try lia.
    + intros j' r x Hr Hx. rewrite Ho1 by (intros [=]; lia). by apply Hh.
    + intros i Hi. rewrite Ho1 by (intros [=]; lia). apply Hb. lia.
    + intros i Hi. destruct (decide (i = j)) as [->|Hne].
      * rewrite Hc1. unfold next_link. replace (j =? last)%nat with false by lia. done.
      * rewrite Ho1 by (intros [=]; lia). apply Hn. lia.
    + exists m'. split; [|done]. unfold acc_buf_size. do 2 f_equal. lia.
Qed.

(** Position [p] of the iteration over an inverted accumulator that holds the words [w]. *)
Record iterating (a : acc) (w : list word) (p : nat) : Prop := {
  i_sized : sized (a_mem a);
  i_holds : holds (a_mem a) w;
  i_bound : (length w <= 24 * length (a_mem a))%nat;
  i_links : forall j, (j < length (a_mem a))%nat -> cell (a_mem a) j 0 = Some (next_link (length (a_mem a) - 1) j);
  i_pos : (p < length w)%nat -> Z.of_nat p = 24 * Z.of_nat (a_buf a) + 24 - a_index a /\ 0 < a_index a <= 24
}.

Lemma invert_ok a w : building a w -> exists a', invert_accumulator a = Val a' /\ iterating a' w 0 /\
  a_size a' = Some (Z.of_nat (length w)) /\ a_keyed a' = a_keyed a /\ a_kt a' = a_kt a.
Proof.
  intros [H1 H2 H3 H4 H5 H6 H7]. unfold invert_accumulator.
  rewrite (buf_read_ok _ _ 0 (back_link (a_buf a))) by (try done; apply H6; lia). cbn [obind].
  destruct (buf_write_ok (a_mem a) (a_buf a) 0 WFalse) as (m1 & -> & Hs1 & Hl1 & Hc1 & Ho1); [done|lia|lia|]. cbn [obind]. change (Z.to_nat 0) with 0%nat in *.
  destruct (invert_loop_ok (a_buf a) w (a_buf a) (length m1) m1 (acc_buf_size - a_index a - 1)) as (m' & -> & Hs & Hl & Hh & Hn); try done; try lia.
  - intros j r x Hr Hx. rewrite Ho1 by (intros [=]; lia). by apply H5.
  - intros i Hi. rewrite Ho1 by (intros [=]; lia). apply H6. lia.
  - intros i Hi. assert (i = a_buf a) as -> by lia. rewrite Hc1. unfold next_link. rewrite Nat.eqb_refl. done.
  - cbn [obind]. eexists. split; [done|]. split; [|cbn; split; [f_equal; unfold acc_buf_size; lia|done]]. split; cbn; try done.
    + lia.
    + intros j Hj. rewrite Hn by lia. rewrite Hl. cbn. rewrite Nat.sub_0_r. done.
Qed.

Lemma acc_size_ok keyed kt a kvs : adding keyed kt a kvs -> exists a', acc_size a = Val (a', Z.of_nat (length kvs)) /\
  iterating a' (flat keyed kvs) 0 /\ a_keyed a' = keyed /\ a_kt a' = kt.
Proof.
  intros (Hb & Hk & Ht). unfold acc_size. rewrite (b_size _ _ Hb). destruct (invert_ok _ _ Hb) as (a' & -> & Hi & Hz & Hk' & Ht'). cbn [obind].
  rewrite Hz. exists a'. split; [|split; [done|split; congruence]]. do 2 f_equal. rewrite Hk', Hk, flat_length. destruct keyed; cbn [stride].
  - rewrite Z.shiftr_div_pow2 by lia. change (2 ^ 1) with 2. symmetry. apply Z.div_unique with (r := 0); lia.
  - lia.
Qed.

(** Iterating. *)
Fixpoint fold_out {R} (step : R -> key -> value -> outcome R) (r : R) (kvs : list (key * value)) : outcome R :=
  match kvs with
  | [] => Val r
  | (k, v) :: kvs => do r <- step r k v ; fold_out step r kvs
  end.

Lemma iter_read a w p x d : iterating a w p -> (p + d < length w)%nat -> Z.of_nat d < a_index a -> w !! (p + d)%nat = Some x -> 
  buf_read (a_mem a) (a_buf a) (a_index a - Z.of_nat d) = Val x.
Proof.
  intros [H1 H2 H3 H4 H5] Hp Hd Hx. destruct H5 as [H5 H6]; [lia|]. apply buf_read_ok; [done|lia|].
  replace (Z.to_nat (a_index a - Z.of_nat d)) with (24 - (p + d - 24 * a_buf a))%nat by lia. apply H2; [lia|]. rewrite <- Hx. f_equal. lia.
Qed.

Lemma iter_next keyed kt a kvs j : iterating a (flat keyed kvs) (stride keyed * j) -> a_keyed a = keyed -> a_kt a = kt -> (j < length kvs)%nat ->
  exists a', acc_next a = Val a' /\ iterating a' (flat keyed kvs) (stride keyed * S j) /\ a_keyed a' = keyed /\ a_kt a' = kt.
Proof.
  intros [H1 H2 H3 H4 H5] Hk Ht Hj. pose proof (flat_length keyed kvs) as Hfl.
  destruct H5 as [H5 H6]; [rewrite Hfl; apply Nat.mul_lt_mono_pos_l; [destruct keyed; cbn; lia|done]|].
  assert (a_buf a < length (a_mem a))%nat as Hbuf.
  { assert (stride keyed * j < length (flat keyed kvs))%nat; [rewrite Hfl; apply Nat.mul_lt_mono_pos_l; [destruct keyed; cbn; lia|done]|]. lia. }
  unfold acc_next. rewrite Hk. replace (if keyed then 2 else 1) with (Z.of_nat (stride keyed)) by (destruct keyed; done).
  destruct (a_index a - Z.of_nat (stride keyed) =? 0) eqn:E.
  - rewrite (buf_read_ok _ _ 0 _ H1 ltac:(lia) (H4 _ Hbuf)). cbn [obind]. eexists. split; [done|]. split; [|done]. split; cbn; try done.
    intros Hp. change (acc_buf_size - 1) with 24. unfold next_link.
    destruct (a_buf a =? length (a_mem a) - 1)%nat eqn:E1; destruct keyed; cbn [stride] in *; lia.
  - eexists. split; [done|]. split; [|done]. split; cbn; try done. intros Hp. destruct keyed; cbn [stride] in *; [|lia].
    assert (a_index a <> 1); [|lia]. intros Hone. rewrite Hone in H5. lia.
Qed.

Definition indexed (kvs : list (key * value)) : Prop := forall i k v, kvs !! i = Some (k, v) -> k = KInt (Z.of_nat i).

Lemma acc_for_ok {R} keyed kt kvs (step : R -> key -> value -> outcome R) : (keyed = false -> indexed kvs) -> forall n j a r, iterating a (flat keyed kvs) (stride keyed * j) ->
  a_keyed a = keyed -> a_kt a = kt -> (j + n = length kvs)%nat -> acc_for n a (Z.of_nat j) step r = fold_out step r (drop j kvs).
Proof.
  intros Hix n. induction n as [|n IH]; intros j a r Hi Hk Ht Hn.
  - rewrite drop_ge by lia. done.
  - destruct (lookup_lt_is_Some_2 kvs j) as [[k v] Hkv]; [lia|]. rewrite (drop_S _ _ _ Hkv). cbn [acc_for fold_out].
    destruct (flat_lookup keyed _ _ _ _ Hkv) as [F1 F2].
    assert (stride keyed * j < length (flat keyed kvs))%nat as Hlt by (by eapply lookup_lt_Some).
    destruct (i_pos _ _ _ Hi Hlt) as [P1 P2].
    unfold acc_elt. rewrite <- (Z.sub_0_r (a_index a)). change 0 with (Z.of_nat 0) at 1. rewrite (iter_read _ _ _ (WVal v) 0 Hi) by (try rewrite Nat.add_0_r; try done; lia).
    cbn [obind]. assert ((if a_keyed a then acc_key a else Val (KInt (Z.of_nat j))) = Val k) as ->.
    { rewrite Hk. destruct keyed.
      - unfold acc_key. specialize (F2 eq_refl). change 1 with (Z.of_nat 1). rewrite (iter_read _ _ _ (WKey k) 1 Hi); [done| |cbn in P1 |- *; lia|done].
        by eapply lookup_lt_Some.
      - by rewrite (Hix eq_refl _ _ _ Hkv). }
    cbn [obind]. destruct (step r k v) as [r'| | |]; cbn [obind]; try done.
    destruct (iter_next keyed kt a kvs j Hi Hk Ht) as (a' & -> & Hi' & Hk' & Ht'); [lia|]. cbn [obind].
    replace (Z.of_nat j + 1) with (Z.of_nat (S j)) by lia. apply IH; try done. lia.
Qed.
