(** Proofs about subsequence-position. *)
From stdpp Require Import list_numbers.
From Verif Require Import Base CollModel CollSpec CollProofs CollIterProofs EqModel EqSpec EqProofs SubModel SubSpec.
From Coq Require Import ZArith ZifyBool ZifyNat.
Local Open Scope outcome_scope.
Local Open Scope Z_scope.

Lemma exactly_unique k k' P : exactly k P -> exactly k' P -> k = k'.
Proof.
  intros (l & N & L & H) (l' & N' & L' & H'). rewrite <- L, <- L'. apply Permutation_length.
  apply NoDup_Permutation; [done..|]. intros x. by rewrite H, H'.
Qed.

Lemma exactly_ext k P Q : (forall j, P j <-> Q j) -> exactly k P -> exactly k Q.
Proof. intros E (l & N & L & H). exists l. split; [done|]. split; [done|]. intros j. by rewrite H. Qed.

Section occ.
  Context (test : value -> value -> bool) (big pat : coll).
  Let occ := occurs test big pat.
  Definition before (i k : nat) : Prop := exactly k (fun j => (j < i)%nat /\ occurs test big pat j).

  Lemma before_0 : before 0 0.
  Proof. exists []. split; [constructor|]. split; [done|]. intros j. rewrite elem_of_nil. split; [done|lia]. Qed.

  Lemma before_no i k : before i k -> ~ occ i -> before (S i) k.
  Proof.
    intros H Hn. eapply exactly_ext, H. intros j. split; intros [H1 H2]; (split; [|done]); [lia|].
    destruct (decide (j = i)) as [->|]; [done|lia].
  Qed.

  Lemma before_yes i k : before i k -> occ i -> before (S i) (S k).
  Proof.
    intros (l & N & L & H) Hn. exists (i :: l). split.
    { constructor; [|done]. rewrite H. lia. }
    split; [cbn; lia|]. intros j. rewrite elem_of_cons, H. split.
    - intros [->|[? ?]]; (split; [lia|done]).
    - intros [H1 H2]. destruct (decide (j = i)); [by left|]. right. split; [lia|done].
  Qed.

  Lemma before_skip i k i' : before i k -> (i <= i')%nat -> (forall j, (i <= j < i')%nat -> ~ occ j) -> before i' k.
  Proof.
    intros H Hi Hn. eapply exactly_ext, H. intros j. split; intros [H1 H2]; (split; [|done]); [lia|].
    destruct (decide (j < i)%nat); [done|]. exfalso. apply (Hn j); [lia|done].
  Qed.

  Lemma before_mono i k i' k' : before i k -> before i' k' -> (i <= i')%nat -> (k <= k')%nat.
  Proof.
    intros (l & N & L & H) (l' & N' & L' & H') Hi. rewrite <- L, <- L'. apply submseteq_length.
    apply NoDup_submseteq; [done|]. intros x Hx. apply H'. apply H in Hx as [? ?]. split; [lia|done].
  Qed.

  Lemma position_found count i k : before i k -> occ i -> count = Z.of_nat k + 1 -> is_position test big pat count (Some (Z.of_nat i)).
  Proof. intros H Ho Hc. exists i. split; [done|]. split; [done|]. exists k. split; [lia|done]. Qed.

  Lemma position_none count i k : before i k -> (forall j, (i <= j)%nat -> ~ occ j) -> Z.of_nat k < count -> is_position test big pat count None.
  Proof.
    intros H Ho Hc. exists k. split; [done|]. eapply exactly_ext, H. intros j. split; [by intros [_ ?]|].
    intros Hj. split; [|done]. destruct (decide (j < i)%nat); [done|]. exfalso. apply (Ho j); [lia|done].
  Qed.
End occ.

Lemma occ_pos test big pat i : is_sequence big = true -> sv pat 0 <> None ->
  occurs test big pat i <-> forall j y, sv pat j = Some y -> exists x, sv big (i + j) = Some x /\ test x y = true.
Proof.
  intros Hs Hp. split.
  - intros [_ H] j y Hy. by apply H.
  - intros H. split; [|exact H]. intros j Hj. destruct (sv pat 0) as [y|] eqn:E; [|done].
    destruct (H 0%nat y E) as (x & Hx & _). rewrite Nat.add_0_r in Hx.
    assert (Hb : below i (slen big)) by (apply sv_below; [done|by eexists]).
    assert (Hb' : below j (slen big)). { destruct (slen big); cbn in *; [lia|done]. }
    apply sv_below in Hb'; [|done]. unfold sv in Hb'. intros E'. rewrite E' in Hb'. by destruct Hb'.
Qed.

(** ** The search over two iteration protocols *)

(** [T] is where the search ends at the latest. *)
Definition limit_at (test : value -> value -> bool) (big pat : coll) (count : Z) (T : nat) : Prop :=
  slen big = Some T \/ nth_occurrence test big pat count T.

Lemma sub_search_ok test big pat count n T :
  is_sequence big = true -> is_sequence pat = true -> wf_keys big -> wf_keys pat ->
  slen pat = Some n -> (0 < n)%nat -> limit_at test big pat count T -> 1 <= count ->
  forall m i j k c fuel,
    ((T - i) * (n + 1) + (n - j) <= m)%nat -> (m < fuel)%nat -> (i <= T)%nat -> (j <= n)%nat -> upto (i + j) (slen big) ->
    before test big pat i k -> c + Z.of_nat k = count -> 1 <= c ->
    (forall j' y, (j' < j)%nat -> sv pat j' = Some y -> exists x, sv big (i + j') = Some x /\ test x y = true) ->
    exists r, sub_search fuel test big (fip_of big) pat (fip_of pat) (Z.of_nat i) (pos_state big i) (pos_state big (i + j)) (pos_state pat j) c = Val r /\
      is_position test big pat count r.
Proof.
  intros Hsb Hsp Hwb Hwp Hn Hn0 HT Hcount.
  assert (Hp0 : sv pat 0 <> None).
  { assert (Hb : below 0 (slen pat)) by (rewrite Hn; cbn; lia). apply sv_below in Hb; [|done]. intros E. rewrite E in Hb. by destruct Hb. }
  induction m as [m IH] using lt_wf_ind. intros i j k c fuel Hm Hf Hi Hj Hu Hb Hc Hc1 Hmatch.
  destruct fuel as [|fuel]; [lia|]. cbn [sub_search].
  assert (Huj : upto j (slen pat)) by (rewrite Hn; cbn; lia).
  destruct (at_pos pat j Hsp Hwp Huj) as [(F1 & N1 & L1)|(y & F1 & E1 & V1 & X1 & U1)]; rewrite F1; cbn [obind].
  - (* all of the pattern matched *)
    assert (Ho : occurs test big pat i).
    { apply occ_pos; [done..|]. intros j' y Hy. apply Hmatch; [|done].
      destruct (decide (j' < j)%nat); [done|]. rewrite N1 in Hy by lia. done. }
    destruct (Z.eqb_spec c 1) as [->|Hne].
    + eexists. split; [done|]. eapply position_found; [done..|lia].
    + assert (HiT : (i < T)%nat).
      { destruct (decide (i = T)) as [->|]; [|lia]. exfalso. destruct HT as [HT|[_ (k' & Hk' & He)]].
        - destruct (sv pat 0) as [y|] eqn:E; [|done]. destruct (proj2 Ho 0%nat y E) as (x & Hx & _).
          rewrite Nat.add_0_r in Hx. pose proof (sv_end big T T Hsb HT (le_n _)) as E0. unfold sv in E0. congruence.
        - pose proof (exactly_unique _ _ _ Hb He). lia. }
      assert (Hub : below i (slen big)).
      { destruct (sv pat 0) as [y|] eqn:E; [|done]. destruct (proj2 Ho 0%nat y E) as (x & Hx & _). rewrite Nat.add_0_r in Hx.
        apply sv_below; [done|]. by exists x. }
      rewrite pos_next by done. cbn [obind].
      replace (Z.of_nat i + 1) with (Z.of_nat (S i)) by lia. rewrite fip_init.
      pose proof (IH ((T - S i) * (n + 1) + (n - 0))%nat ltac:(nia) (S i) 0%nat (S k)) as IH1. rewrite !Nat.add_0_r in IH1.
      apply IH1; [lia|nia|lia|lia| | |lia|lia|].
      * destruct (slen big); cbn in *; [lia|done].
      * by apply before_yes.
      * intros j' y Hj'. lia.
  - assert (Hjn : (j < n)%nat). { rewrite Hn in U1. cbn in U1. lia. }
    destruct (at_pos big (i + j) Hsb Hwb Hu) as [(F2 & N2 & L2)|(x & F2 & E2 & V2 & X2 & U2)]; rewrite F2; cbn [obind].
    + eexists. split; [done|]. eapply position_none; [done| |lia].
      intros i' Hi' Ho. destruct (proj2 Ho j y V1) as (x & Hx & _). pose proof (N2 (i' + j)%nat ltac:(lia)) as E0. unfold sv in E0. congruence.
    + rewrite E2, E1. cbn [obind]. destruct (test x y) eqn:Et.
      * rewrite X2, X1. cbn [obind]. replace (S (i + j)) with (i + S j)%nat in * by lia.
        apply (IH ((T - i) * (n + 1) + (n - S j))%nat) with (k := k); [nia|lia|nia|lia|lia|done|done|done|done|].
        intros j' y' Hj' Hy'. destruct (decide (j' = j)) as [->|]; [|apply Hmatch; [lia|done]].
        exists x. split; [done|]. congruence.
      * assert (Ho : ~ occurs test big pat i).
        { intros [_ Ho]. destruct (Ho j y V1) as (x' & Hx' & Ht). unfold sv in V2. congruence. }
        assert (HiT : (i < T)%nat).
        { destruct HT as [HT|[HT _]].
          - rewrite HT in U2. cbn in U2. lia.
          - destruct (decide (i = T)) as [->|]; [done|lia]. }
        assert (Hub : below i (slen big)). { destruct (slen big); cbn in *; [lia|done]. }
        rewrite pos_next by done. cbn [obind].
        replace (Z.of_nat i + 1) with (Z.of_nat (S i)) by lia. rewrite fip_init.
        pose proof (IH ((T - S i) * (n + 1) + (n - 0))%nat ltac:(nia) (S i) 0%nat k) as IH1. rewrite !Nat.add_0_r in IH1.
        apply IH1; [lia|nia|lia|lia| | |done|done|].
        -- destruct (slen big); cbn in *; [lia|done].
        -- by apply before_no.
        -- intros j' y' Hj'. lia.
Qed.

Lemma search_from_start test big pat count n T :
  is_sequence big = true -> is_sequence pat = true -> wf_keys big -> wf_keys pat ->
  slen pat = Some n -> (0 < n)%nat -> limit_at test big pat count T -> 1 <= count ->
  forall fuel, (T * (n + 1) + n < fuel)%nat ->
  exists r, sub_search fuel test big (fip_of big) pat (fip_of pat) 0 (f_init (fip_of big)) (f_init (fip_of big)) (f_init (fip_of pat)) count = Val r /\
    is_position test big pat count r.
Proof.
  intros. rewrite !fip_init.
  change (pos_state big 0) with (pos_state big (0 + 0)) at 2.
  eapply (sub_search_ok test big pat count n T) with (m := (T * (n + 1) + n)%nat) (k := 0%nat) (i := 0%nat) (j := 0%nat);
    try done; try lia.
  - cbn. destruct (slen big); cbn; [lia|done].
  - apply before_0.
Qed.

(** The search over two vectors takes the same steps. *)
Lemma vec_search_eq test b p k1 k2 : forall fuel i j c r, (i + j <= length b)%nat -> (j <= length p)%nat -> (0 < length p)%nat ->
  sub_search fuel test (CVec k1 b) (fip_of (CVec k1 b)) (CVec k2 p) (fip_of (CVec k2 p)) (Z.of_nat i)
    (pos_state (CVec k1 b) i) (pos_state (CVec k1 b) (i + j)) (pos_state (CVec k2 p) j) c = Val r ->
  vec_search fuel test b p (Z.of_nat i) (Z.of_nat (i + j)) (Z.of_nat j) c = Val r.
Proof.
  induction fuel as [|fuel IH]; intros i j c r Hij Hj Hp; [done|]. cbn [vec_search sub_search].
  destruct (at_pos (CVec k2 p) j eq_refl I) as [(F1 & N1 & L1)|(y & F1 & E1 & V1 & X1 & U1)]; [cbn; lia|..]; rewrite F1; cbn [obind].
  - injection L1 as L1. destruct (Z.leb_spec (Z.of_nat (length p)) (Z.of_nat j)); [|lia].
    destruct (c =? 1); [done|]. destruct (decide (i < length b)%nat) as [Hi|Hi]; [|lia].
    rewrite (pos_next (CVec k1 b)) by done. cbn [obind]. rewrite fip_init.
    specialize (IH (S i) 0%nat (c - 1) r). rewrite !Nat.add_0_r in IH. intros HH.
    replace (Z.of_nat i + 1) with (Z.of_nat (S i)) in * by lia. apply IH; [lia|lia|lia|done].
  - rewrite sv_vec in V1. pose proof (lookup_lt_Some _ _ _ V1).
    destruct (Z.leb_spec (Z.of_nat (length p)) (Z.of_nat j)); [lia|].
    destruct (at_pos (CVec k1 b) (i + j) eq_refl I) as [(F2 & N2 & L2)|(x & F2 & E2 & V2 & X2 & U2)]; [cbn; lia|..]; rewrite F2; cbn [obind].
    + injection L2 as L2. destruct (Z.eqb_spec (Z.of_nat (i + j)) (Z.of_nat (length b))); [done|lia].
    + rewrite sv_vec in V2. pose proof (lookup_lt_Some _ _ _ V2).
      destruct (Z.eqb_spec (Z.of_nat (i + j)) (Z.of_nat (length b))); [lia|].
      rewrite E2, E1. cbn [obind]. rewrite (zread_val b (Z.of_nat (i + j)) x), (zread_val p (Z.of_nat j) y) by (try lia; by rewrite Nat2Z.id).
      cbn [obind]. destruct (test x y).
      * rewrite X2, X1. cbn [obind]. specialize (IH i (S j) c r). replace (S (i + j)) with (i + S j)%nat in * by lia. intros HH.
        replace (Z.of_nat (i + j) + 1) with (Z.of_nat (i + S j)) by lia. replace (Z.of_nat j + 1) with (Z.of_nat (S j)) by lia.
        apply IH; [lia|lia|lia|done].
      * rewrite (pos_next (CVec k1 b)) by (cbn; lia). cbn [obind]. rewrite fip_init.
        specialize (IH (S i) 0%nat c r). rewrite !Nat.add_0_r in IH. intros HH.
        replace (Z.of_nat i + 1) with (Z.of_nat (S i)) in * by lia. apply IH; [lia|lia|lia|done].
Qed.

Lemma vec_search_ok test b p k1 k2 count fuel :
  (0 < length p)%nat -> 1 <= count -> (length b * (length p + 1) + length p < fuel)%nat ->
  exists r, vec_search fuel test b p 0 0 0 count = Val r /\ is_position test (CVec k1 b) (CVec k2 p) count r.
Proof.
  intros Hp Hc Hf.
  destruct (search_from_start test (CVec k1 b) (CVec k2 p) count (length p) (length b) eq_refl eq_refl I I eq_refl Hp (or_introl eq_refl) Hc fuel Hf) as (r & Hr & Hpos).
  exists r. split; [|done]. rewrite !fip_init in Hr.
  apply (vec_search_eq test b p k1 k2 fuel 0 0 count r); [lia|lia|lia|exact Hr].
Qed.

(** ** Patterns of one and two elements *)

Lemma occ_vec test k1 k2 b p i : (0 < length p)%nat ->
  occurs test (CVec k1 b) (CVec k2 p) i <-> forall j y, p !! j = Some y -> exists x, b !! (i + j)%nat = Some x /\ test x y = true.
Proof.
  intros Hp. rewrite occ_pos; [|done|].
  - setoid_rewrite sv_vec. done.
  - rewrite sv_vec. by destruct p; [cbn in Hp; lia|].
Qed.

Lemma find_one_ok test k1 k2 b ch count : forall n i k c,
  (i + n = length b)%nat -> before test (CVec k1 b) (CVec k2 [ch]) i k -> c + Z.of_nat k = count -> 1 <= c ->
  exists r, find_one n test b ch (Z.of_nat i) c = Val r /\
    is_position test (CVec k1 b) (CVec k2 [ch]) count (if r <? Z.of_nat (length b) then Some r else None).
Proof.
  assert (Ho : forall i, occurs test (CVec k1 b) (CVec k2 [ch]) i <-> exists x, b !! i = Some x /\ test x ch = true).
  { intros i. rewrite occ_vec by (cbn; lia). split.
    - intros H. specialize (H 0%nat ch eq_refl). by rewrite Nat.add_0_r in H.
    - intros H [|j] y; [|done]. intros [= <-]. by rewrite Nat.add_0_r. }
  induction n as [|n IH]; intros i k c Hi Hb Hc H1; cbn [find_one].
  - eexists. split; [done|]. destruct (Z.ltb_spec (Z.of_nat i) (Z.of_nat (length b))); [lia|].
    eapply position_none; [done| |lia]. intros j Hj. rewrite Ho. intros (x & Hx & _). apply lookup_lt_Some in Hx. lia.
  - destruct (lookup_lt_is_Some_2 b i) as [x Hx]; [lia|]. rewrite (zread_val b (Z.of_nat i) x) by (try lia; by rewrite Nat2Z.id).
    cbn [obind]. replace (Z.of_nat i + 1) with (Z.of_nat (S i)) by lia. destruct (test x ch) eqn:Et.
    + assert (Hoi : occurs test (CVec k1 b) (CVec k2 [ch]) i) by (apply Ho; by eexists).
      destruct (Z.leb_spec (c - 1) 0).
      * eexists. split; [done|]. destruct (Z.ltb_spec (Z.of_nat i) (Z.of_nat (length b))); [|lia].
        eapply position_found; [done|done|lia].
      * apply (IH (S i) (S k)); [lia|by apply before_yes|lia|lia].
    + apply (IH (S i) k); [lia| |lia|lia]. apply before_no; [done|]. rewrite Ho. intros (x' & Hx' & ?). congruence.
Qed.

Lemma find_two_ok test k1 k2 b ch1 ch2 count : forall n i k c,
  ((i + n + 1 = length b)%nat \/ (n = 0%nat /\ i = 0%nat /\ length b = 0%nat)) -> before test (CVec k1 b) (CVec k2 [ch1; ch2]) i k -> c + Z.of_nat k = count -> 1 <= c ->
  exists r, find_two n test b ch1 ch2 (Z.of_nat i) c = Val r /\
    is_position test (CVec k1 b) (CVec k2 [ch1; ch2]) count (if r <? Z.of_nat (length b) - 1 then Some r else None).
Proof.
  assert (Ho : forall i, occurs test (CVec k1 b) (CVec k2 [ch1; ch2]) i <->
    exists x y, b !! i = Some x /\ test x ch1 = true /\ b !! S i = Some y /\ test y ch2 = true).
  { intros i. rewrite occ_vec by (cbn; lia). split.
    - intros H. destruct (H 0%nat ch1 eq_refl) as (x & Hx & Tx). destruct (H 1%nat ch2 eq_refl) as (y & Hy & Ty).
      rewrite Nat.add_0_r in Hx. rewrite Nat.add_1_r in Hy. by exists x, y.
    - intros (x & y & Hx & Tx & Hy & Ty) [|[|j]] z; [..|done]; intros [= <-]; [rewrite Nat.add_0_r|rewrite Nat.add_1_r]; by eexists. }
  induction n as [|n IH]; intros i k c Hi Hb Hc H1; cbn [find_two].
  - eexists. split; [done|]. destruct (Z.ltb_spec (Z.of_nat i) (Z.of_nat (length b) - 1)); [lia|].
    eapply position_none; [done| |lia]. intros j Hj. rewrite Ho. intros (x & y & _ & _ & Hy & _). apply lookup_lt_Some in Hy. lia.
  - destruct (lookup_lt_is_Some_2 b i) as [x Hx]; [lia|]. rewrite (zread_val b (Z.of_nat i) x) by (try lia; by rewrite Nat2Z.id).
    destruct (lookup_lt_is_Some_2 b (S i)) as [y Hy]; [lia|].
    cbn [obind]. replace (Z.of_nat i + 1) with (Z.of_nat (S i)) by lia. destruct (test x ch1) eqn:Et.
    + rewrite (zread_val b (Z.of_nat (S i)) y) by (try lia; by rewrite Nat2Z.id). cbn [obind]. destruct (test y ch2) eqn:Ey.
      * assert (Hoi : occurs test (CVec k1 b) (CVec k2 [ch1; ch2]) i) by (apply Ho; by exists x, y).
        destruct (Z.leb_spec (c - 1) 0).
        -- eexists. split; [done|]. destruct (Z.ltb_spec (Z.of_nat i) (Z.of_nat (length b) - 1)); [|lia].
           eapply position_found; [done|done|lia].
        -- apply (IH (S i) (S k)); [lia|by apply before_yes|lia|lia].
      * apply (IH (S i) k); [lia| |lia|lia]. apply before_no; [done|]. rewrite Ho. intros (x' & y' & ? & ? & ? & ?). congruence.
    + apply (IH (S i) k); [lia| |lia|lia]. apply before_no; [done|]. rewrite Ho. intros (x' & y' & ? & ? & ? & ?). congruence.
Qed.

(** ** The skip table *)

Definition byte (v : value) : Prop := match v with VChr a => 0 <= a < 256 | _ => False end.

(** No character [a] in the pattern at the last [d] - 1 places before the last one. *)
Definition skip_ok (p : list value) (upper : nat) (skip : list Z) : Prop :=
  length skip = Z.to_nat 256 /\
  forall a, 0 <= a < 256 -> exists d, skip !! Z.to_nat a = Some d /\ 1 <= d <= Z.of_nat (length p) /\
    forall i, Z.of_nat (length p) - 1 - d < Z.of_nat i < Z.of_nat upper -> p !! i <> Some (VChr a).

Lemma fill_skip_ok p : Forall byte p -> forall n i skip, (i + n = length p - 1)%nat -> (0 < length p)%nat -> skip_ok p i skip ->
  exists skip', fill_skip n p (Z.of_nat (length p) - 1) (Z.of_nat i) skip = Val skip' /\ skip_ok p (length p - 1) skip'.
Proof.
  intros Hp. induction n as [|n IH]; intros i skip Hi Hl Hs; cbn [fill_skip].
  - exists skip. split; [done|]. by replace (length p - 1)%nat with i by lia.
  - destruct (lookup_lt_is_Some_2 p i) as [x Hx]; [lia|]. rewrite (zread_val p (Z.of_nat i) x) by (try lia; by rewrite Nat2Z.id).
    cbn [obind]. pose proof (Forall_lookup_1 _ _ _ _ Hp Hx) as Hb. destruct x as [|a| | |]; try done. cbn in Hb. cbn [chr_code obind].
    destruct Hs as [Hsl Hs]. destruct (Hs a Hb) as (d0 & Hd0 & _).
    erewrite zwrite_val by (try lia; apply lookup_lt_Some in Hd0; lia). cbn [obind].
    replace (Z.of_nat i + 1) with (Z.of_nat (S i)) by lia. apply IH; [lia|done|]. split; [by rewrite insert_length|].
    intros a' Ha'. destruct (decide (a' = a)) as [->|Hne].
    + eexists. split; [apply list_lookup_insert; apply lookup_lt_Some in Hd0; lia|]. split; [lia|]. intros j Hj. lia.
    + destruct (Hs a' Ha') as (d & Hd & Hr & Hno). exists d. split.
      { rewrite list_lookup_insert_ne; [done|lia]. }
      split; [done|]. intros j Hj. destruct (decide (j = i)) as [->|]; [|apply Hno; lia]. rewrite Hx. congruence.
Qed.

Lemma skip_start p : (0 < length p)%nat -> skip_ok p 0 (replicate (Z.to_nat 256) (Z.of_nat (length p))).
Proof.
  intros Hp. split; [apply replicate_length|]. intros a Ha. eexists. split; [apply lookup_replicate_2; lia|]. split; [lia|].
  intros i Hi. lia.
Qed.

Lemma chr_eq_byte x y : byte x -> byte y -> chr_eq x y = true <-> x = y.
Proof. destruct x, y; cbn; try done. intros _ _. rewrite Z.eqb_eq. split; congruence. Qed.

(** The comparison from the end decides whether the pattern is there. *)
Lemma bm_match_ok b p s : Forall byte b -> Forall byte p -> (s + length p <= length b)%nat -> forall n, (n <= length p)%nat ->
  exists m, bm_match n b p (Z.of_nat (s + n) - 1) (Z.of_nat n - 1) = Val m /\
    (m = true <-> forall j, (j < n)%nat -> b !! (s + j)%nat = p !! j).
Proof.
  intros Hb Hp Hs. induction n as [|n IH]; intros Hn; cbn [bm_match].
  - exists true. split; [done|]. split; [intros _ j Hj; lia|done].
  - destruct (lookup_lt_is_Some_2 b (s + n)) as [x Hx]; [lia|]. destruct (lookup_lt_is_Some_2 p n) as [y Hy]; [lia|].
    replace (Z.of_nat (s + S n) - 1) with (Z.of_nat (s + n)) by lia. replace (Z.of_nat (S n) - 1) with (Z.of_nat n) by lia.
    rewrite (zread_val b _ x), (zread_val p _ y) by (try lia; by rewrite Nat2Z.id). cbn [obind].
    pose proof (chr_eq_byte x y (Forall_lookup_1 _ _ _ _ Hb Hx) (Forall_lookup_1 _ _ _ _ Hp Hy)) as He.
    destruct (chr_eq x y) eqn:Ee.
    + destruct IH as (m & Hm & Hiff); [lia|]. exists m. split; [done|]. rewrite Hiff. split.
      * intros H j Hj. destruct (decide (j = n)) as [->|]; [|apply H; lia]. rewrite Hx, Hy. f_equal. by apply He.
      * intros H j Hj. apply H. lia.
    + exists false. split; [done|]. split; [done|]. intros H. specialize (H n ltac:(lia)). rewrite Hx, Hy in H. injection H as H.
      apply He in H. congruence.
Qed.

Lemma occ_bytes test k1 k2 b p i : (0 < length p)%nat -> Forall byte b -> Forall byte p ->
  (forall x y, byte x -> byte y -> test x y = chr_eq x y) ->
  occurs test (CVec k1 b) (CVec k2 p) i <-> (i + length p <= length b)%nat /\ forall j, (j < length p)%nat -> b !! (i + j)%nat = p !! j.
Proof.
  intros Hl Hb Hp Ht. rewrite occ_vec by done. split.
  - intros H. split.
    + destruct (lookup_lt_is_Some_2 p (length p - 1)) as [y Hy]; [lia|]. destruct (H _ _ Hy) as (x & Hx & _). apply lookup_lt_Some in Hx. lia.
    + intros j Hj. destruct (lookup_lt_is_Some_2 p j) as [y Hy]; [lia|]. destruct (H _ _ Hy) as (x & Hx & Hxy).
      pose proof (Forall_lookup_1 _ _ _ _ Hb Hx). pose proof (Forall_lookup_1 _ _ _ _ Hp Hy).
      rewrite Ht in Hxy by done. apply chr_eq_byte in Hxy; [|done..]. congruence.
  - intros [Hi H] j y Hy. pose proof (lookup_lt_Some _ _ _ Hy). exists y. rewrite H by done. split; [done|].
    pose proof (Forall_lookup_1 _ _ _ _ Hp Hy). rewrite Ht by done. by apply chr_eq_byte.
Qed.

Lemma bm_skip_ok test k1 k2 b p skip last_char count : (0 < length p)%nat -> Forall byte b -> Forall byte p ->
  (forall x y, byte x -> byte y -> test x y = chr_eq x y) ->
  skip_ok p (length p - 1) skip -> p !! (length p - 1)%nat = Some last_char ->
  forall m s k c fuel, (length b <= s + m)%nat -> (m < fuel)%nat -> before test (CVec k1 b) (CVec k2 p) s k -> c + Z.of_nat k = count -> 1 <= c ->
  exists r, bm_skip fuel b p last_char skip (Z.of_nat (s + length p - 1)) c = Val r /\ is_position test (CVec k1 b) (CVec k2 p) count r.
Proof.
  intros Hl Hb Hp Ht [Hsl Hskip] Hlast. pose proof (occ_bytes test k1 k2 b p) as Ho.
  induction m as [m IH] using lt_wf_ind. intros s k c fuel Hm Hf Hbef Hc H1.
  destruct fuel as [|fuel]; [lia|]. cbn [bm_skip].
  destruct (Z.leb_spec (Z.of_nat (length b)) (Z.of_nat (s + length p - 1))).
  - eexists. split; [done|]. eapply position_none; [done| |lia]. intros j Hj. rewrite Ho by done. intros [? _]. lia.
  - destruct (lookup_lt_is_Some_2 b (s + length p - 1)) as [x Hx]; [lia|].
    rewrite (zread_val b _ x) by (try lia; by rewrite Nat2Z.id). cbn [obind].
    pose proof (Forall_lookup_1 _ _ _ _ Hb Hx) as Hbx. pose proof (Forall_lookup_1 _ _ _ _ Hp Hlast) as Hbl.
    pose proof (chr_eq_byte x last_char Hbx Hbl) as He. destruct (chr_eq x last_char) eqn:Ee.
    + destruct (bm_match_ok b p s Hb Hp ltac:(lia) (length p) (le_n _)) as (mt & Hmt & Hiff).
      replace (Z.of_nat (s + length p) - 1) with (Z.of_nat (s + length p - 1)) in Hmt by lia. rewrite Hmt. cbn [obind].
      replace (Z.of_nat (s + length p - 1) - (Z.of_nat (length p) - 1) + Z.of_nat (length p)) with (Z.of_nat (S s + length p - 1)) by lia.
      replace (Z.of_nat (s + length p - 1) - (Z.of_nat (length p) - 1)) with (Z.of_nat s) by lia.
      destruct mt.
      * assert (Hos : occurs test (CVec k1 b) (CVec k2 p) s). { apply Ho; [done..|]. split; [lia|by apply Hiff]. }
        destruct (Z.eqb_spec c 1) as [->|Hne].
        -- eexists. split; [done|]. eapply position_found; [done|done|lia].
        -- apply (IH (m - 1)%nat) with (k := S k); [lia|lia|lia|by apply before_yes|lia|lia].
      * apply (IH (m - 1)%nat) with (k := k); [lia|lia|lia| |lia|lia]. apply before_no; [done|].
        rewrite Ho by done. intros [_ H']. apply Hiff in H'. done.
    + destruct x as [|a| | |]; try done. cbn [chr_code obind]. destruct (Hskip a Hbx) as (d & Hd & Hdr & Hno).
      rewrite (zread_val skip a d) by (cbn in Hbx; try lia; done). cbn [obind].
      replace (Z.of_nat (s + length p - 1) + d) with (Z.of_nat (s + Z.to_nat d + length p - 1)) by lia.
      apply (IH (m - Z.to_nat d)%nat) with (k := k); [lia|lia|lia| |lia|lia].
      eapply before_skip; [done|lia|]. intros j Hj. rewrite Ho by done. intros [Hle Hj2].
      destruct (decide (j = s)) as [->|Hne].
      * specialize (Hj2 (length p - 1)%nat ltac:(lia)). replace (s + (length p - 1))%nat with (s + length p - 1)%nat in Hj2 by lia.
        rewrite Hx, Hlast in Hj2. injection Hj2 as <-. assert (false = true) by (apply He; done). done.
      * specialize (Hj2 (s + length p - 1 - j)%nat). destruct (decide (j < s + length p)%nat).
        -- rewrite (Nat.add_comm j), Nat.sub_add in Hj2 by lia. rewrite Hx in Hj2.
           apply (Hno (s + length p - 1 - j)%nat); [lia|]. symmetry. apply Hj2. lia.
        -- lia.
Qed.

Lemma boyer_moore_ok test k1 k2 b p count fuel : (0 < length p)%nat -> Forall byte b -> Forall byte p ->
  (forall x y, byte x -> byte y -> test x y = chr_eq x y) -> 1 <= count -> (length b < fuel)%nat ->
  exists r, sub_boyer_moore fuel b p count = Val r /\ is_position test (CVec k1 b) (CVec k2 p) count r.
Proof.
  intros Hl Hb Hp Ht Hc Hf. unfold sub_boyer_moore.
  destruct (lookup_lt_is_Some_2 p (length p - 1)) as [y Hy]; [lia|].
  rewrite (zread_val p _ y) by (try lia; replace (Z.to_nat (Z.of_nat (length p) - 1)) with (length p - 1)%nat by lia; done). cbn [obind].
  destruct (fill_skip_ok p Hp (Z.to_nat (Z.of_nat (length p) - 1)) 0 _ ltac:(lia) Hl (skip_start p Hl)) as (skip & Hs & Hok).
  change (Z.of_nat 0) with 0 in Hs. rewrite Hs. cbn [obind].
  replace (Z.of_nat (length p) - 1) with (Z.of_nat (0 + length p - 1)) by lia.
  eapply (bm_skip_ok test k1 k2 b p skip y count) with (m := length b) (k := 0%nat); try done; try lia. apply before_0.
Qed.

(** ** The empty pattern *)

Lemma occ_empty test big pat n i : is_sequence big = true -> slen big = Some n -> is_sequence pat = true -> slen pat = Some 0%nat ->
  occurs test big pat i <-> (i <= n)%nat.
Proof.
  intros Hs Hn Hsp Hp. split.
  - intros [H _]. destruct (decide (i <= n)%nat); [done|]. exfalso. apply (H n); [lia|]. apply (sv_end big n n Hs Hn). lia.
  - intros Hi. split.
    + intros j Hj. assert (Hb : below j (slen big)) by (rewrite Hn; cbn; lia). apply sv_below in Hb; [|done]. intros E. unfold sv in Hb. rewrite E in Hb. by destruct Hb.
    + intros j y Hy. pose proof (sv_end pat 0 j Hsp Hp ltac:(lia)) as E. unfold sv in E. congruence.
Qed.

Lemma empty_position test big pat n count : is_sequence big = true -> slen big = Some n -> is_sequence pat = true -> slen pat = Some 0%nat ->
  1 <= count <= Z.of_nat n + 1 -> is_position test big pat count (Some (count - 1)).
Proof.
  intros Hs Hn Hsp Hp Hc. exists (Z.to_nat (count - 1)). split; [lia|]. split; [apply (occ_empty test big pat n); [done..|lia]|].
  exists (Z.to_nat (count - 1)). split; [lia|]. exists (seq 0 (Z.to_nat (count - 1))). split; [apply NoDup_seq|]. split; [apply seq_length|].
  intros j. rewrite elem_of_seq. setoid_rewrite (occ_empty test big pat n); [|done..]. lia.
Qed.

(** ** All methods *)

Lemma coll_empty_slen c : coll_empty c = true <-> slen c = Some 0%nat.
Proof. destruct c; cbn; rewrite ?Nat.eqb_eq; split; congruence. Qed.

Lemma short_ok test k1 k2 b p count otherwise :
  1 <= count -> (p = [] -> count <= Z.of_nat (length b) + 1) ->
  ((2 < length p)%nat -> exists r, otherwise = Val r /\ is_position test (CVec k1 b) (CVec k2 p) count r) ->
  exists r, sub_short test b p count otherwise = Val r /\ is_position test (CVec k1 b) (CVec k2 p) count r.
Proof.
  intros Hc He Ho. destruct p as [|ch1 [|ch2 [|ch3 p]]]; cbn [sub_short].
  - eexists. split; [done|]. apply (empty_position _ _ _ (length b)); try done. specialize (He eq_refl). lia.
  - rewrite Nat2Z.id. destruct (find_one_ok test k1 k2 b ch1 count (length b) 0 0 count) as (r & Hr & Hp); [lia|apply before_0|lia|done|].
    change (Z.of_nat 0) with 0 in Hr. rewrite Hr. by eexists.
  - destruct (find_two_ok test k1 k2 b ch1 ch2 count (Z.to_nat (Z.of_nat (length b) - 1)) 0 0 count) as (r & Hr & Hp); [lia|apply before_0|lia|done|].
    change (Z.of_nat 0) with 0 in Hr. rewrite Hr. by eexists.
  - apply Ho. cbn. lia.
Qed.

Lemma is_position_unique test big pat count r r' :
  is_position test big pat count r -> is_position test big pat count r' -> r' = r.
Proof.
  intros Hp Hp'. destruct r as [z|], r' as [z'|]; cbn in *.
  - destruct Hp as (i & -> & Ho & k & Hk & He), Hp' as (i' & -> & Ho' & k' & Hk' & He'). do 2 f_equal.
      assert (k = k') as <- by lia. destruct (Nat.lt_trichotomy i i') as [Hlt|[->|Hlt]]; [|done|]; exfalso.
    + pose proof (before_mono _ _ _ _ _ _ _ (before_yes _ _ _ _ _ He Ho) He' Hlt). lia.
    + pose proof (before_mono _ _ _ _ _ _ _ (before_yes _ _ _ _ _ He' Ho') He Hlt). lia.
  - exfalso. destruct Hp as (i & -> & Ho & k & Hk & He), Hp' as (k' & Hk' & He').
      destruct (before_yes _ _ _ _ _ He Ho) as (l & Nl & Ll & Hl). destruct He' as (l' & Nl' & Ll' & Hl').
      assert (l ⊆+ l') as Hsub%submseteq_length. { apply NoDup_submseteq; [done|]. intros x Hx. apply Hl'. by apply Hl in Hx as [_ ?]. } lia.
  - exfalso. destruct Hp' as (i & -> & Ho & k & Hk & He), Hp as (k' & Hk' & He').
      destruct (before_yes _ _ _ _ _ He Ho) as (l & Nl & Ll & Hl). destruct He' as (l' & Nl' & Ll' & Hl').
      assert (l ⊆+ l') as Hsub%submseteq_length. { apply NoDup_submseteq; [done|]. intros x Hx. apply Hl'. by apply Hl in Hx as [_ ?]. } lia.
  - done.
Qed.

Lemma sequences_ok test big pat count :
  is_sequence big = true -> is_sequence pat = true -> wf_keys big -> wf_keys pat -> finite_coll pat -> 1 <= count ->
  (slen pat = Some 0%nat -> exists n, slen big = Some n /\ count <= Z.of_nat n + 1) ->
  (finite_coll big \/ exists i, nth_occurrence test big pat count i) ->
  exists F r, (forall fuel, (F <= fuel)%nat -> sub_sequences fuel test big pat count = Val r) /\ is_position test big pat count r.
Proof.
  intros Hsb Hsp Hwb Hwp Hfp Hc He Hlim. unfold sub_sequences. destruct (coll_empty pat) eqn:Ee.
  - apply coll_empty_slen in Ee. destruct (He Ee) as (n & Hn & Hcn). exists 0%nat, (Some (count - 1)). split.
    + intros fuel _. assert (Hsz : coll_size big = Val n) by (destruct big; cbn in *; congruence). rewrite Hsz. cbn [obind].
      destruct (Z.ltb_spec (Z.of_nat n) count); do 2 f_equal; lia.
    + by apply (empty_position _ _ _ n).
  - assert (exists n, slen pat = Some n /\ (0 < n)%nat) as (n & Hn & Hn0).
    { destruct (slen pat) as [n|] eqn:En; [|by destruct pat]. exists n. split; [done|]. destruct n; [|lia].
      apply coll_empty_slen in En. congruence. }
    assert (exists T, limit_at test big pat count T) as (T & HT).
    { destruct Hlim as [Hf|[i Hi]]; [|by exists i; right]. destruct (slen big) as [T|] eqn:ET; [by exists T; left|by destruct big]. }
    pose proof (search_from_start test big pat count n T Hsb Hsp Hwb Hwp Hn Hn0 HT Hc) as Hs.
    destruct (Hs (S (T * (n + 1) + n)) ltac:(lia)) as (r & Hr & Hp). exists (S (T * (n + 1) + n)), r. split; [|done].
    intros fuel Hf. destruct (Hs fuel ltac:(lia)) as (r' & Hr' & Hp'). rewrite Hr'. f_equal.
    by eapply is_position_unique.
Qed.

Lemma byte_bytes l : bytes_ok (CVec VkString l) -> Forall byte l.
Proof. done. Qed.

Lemma position_ok is_id test big pat count :
  is_sequence big = true -> is_sequence pat = true -> wf_keys big -> wf_keys pat -> bytes_ok big -> bytes_ok pat ->
  finite_coll pat -> 1 <= count ->
  (is_id = true -> forall a b, test (VChr a) (VChr b) = (a =? b)) ->
  (slen pat = Some 0%nat -> exists n, slen big = Some n /\ count <= Z.of_nat n + 1) ->
  (finite_coll big \/ exists i, nth_occurrence test big pat count i) ->
  exists F r, (forall fuel, (F <= fuel)%nat -> subsequence_position fuel is_id test big pat count = Val r) /\ is_position test big pat count r.
Proof.
  intros Hsb Hsp Hwb Hwp Hbb Hbp Hfp Hc Hid He Hlim.
  pose proof (sequences_ok test big pat count Hsb Hsp Hwb Hwp Hfp Hc He Hlim) as Hgen.
  assert (Hvec : forall k1 k2 b p (o : nat -> outcome (option Z)) F, big = CVec k1 b -> pat = CVec k2 p ->
    ((2 < length p)%nat -> forall fuel, (F < fuel)%nat -> exists r, o fuel = Val r /\ is_position test big pat count r) ->
    exists F r, (forall fuel, (F <= fuel)%nat -> sub_short test b p count (o fuel) = Val r) /\ is_position test big pat count r).
  { intros k1 k2 b p o F -> -> Ho.
    assert (Hs : forall fuel, (F < fuel)%nat -> exists r, sub_short test b p count (o fuel) = Val r /\ is_position test (CVec k1 b) (CVec k2 p) count r).
    { intros fuel Hf. apply short_ok; [done| |].
      - intros ->. destruct (He eq_refl) as (n & [= <-] & ?). done.
      - intros Hl. by apply Ho. }
    destruct (Hs (S F) ltac:(lia)) as (r & Hr & Hp). exists (S F), r. split; [|done]. intros fuel Hf.
    destruct (Hs fuel ltac:(lia)) as (r' & Hr' & Hp'). rewrite Hr'. f_equal. by eapply is_position_unique. }
  destruct big as [k1 b|d1 b|b|f1 b1 n1|f1 b1|]; destruct pat as [k2 p|d2 p|p|f2 b2 n2|f2 b2|]; cbn [subsequence_position]; try exact Hgen; try done;
    [|destruct k1; exact Hgen..].
  assert (Hv : forall k1 k2, CVec k1 b = CVec k1 b -> (2 < length p)%nat -> forall fuel, (length b * (length p + 1) + length p < fuel)%nat ->
      exists r, vec_search fuel test b p 0 0 0 count = Val r /\ is_position test (CVec k1 b) (CVec k2 p) count r).
  { intros k k' _ Hl fuel Hf. apply vec_search_ok; [lia|done|done]. }
  destruct k1, k2; try (unfold sub_vectors; eapply (Hvec _ _ b p (fun fuel => vec_search fuel test b p 0 0 0 count)); [done|done|apply Hv; done]).
  unfold sub_strings. destruct is_id.
  - eapply (Hvec _ _ b p (fun fuel => sub_boyer_moore fuel b p count)); [done|done|]. intros Hl fuel Hf.
    apply boyer_moore_ok; [lia|exact Hbb|exact Hbp| |done|exact Hf].
    intros [] []; cbn; try done. intros _ _. by apply Hid.
  - eapply (Hvec _ _ b p (fun fuel => vec_search fuel test b p 0 0 0 count)); [done|done|apply Hv; done].
Qed.
