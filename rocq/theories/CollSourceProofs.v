(** Every source that multiple-collection returns is iterated over as it should be. *)
From stdpp Require Import list_numbers.
From Verif Require Import Base CollModel CollSpec CollProofs CollAgree CollIterProofs CollAlignProofs.
From Coq Require Import ZArith ZifyBool ZifyNat.
Local Open Scope outcome_scope.
Local Open Scope Z_scope.

Lemma minimum_loop_ok cs : forall i index m n, Forall (fun c => is_sequence c = false) cs -> (index < n)%nat -> (i + length cs <= n)%nat ->
  exists j, minimum_loop cs i index m = Val j /\ (j < n)%nat.
Proof.
  induction cs as [|c cs IH]; intros i index m n Ht Hi Hn; [by eexists|].
  inversion_clear Ht. destruct c; try done. cbn [minimum_loop coll_size obind]. cbn [length] in Hn. destruct (length t <? m)%nat; apply IH; try done; lia.
Qed.

Lemma minimum_collection_ok cs : Forall (fun c => is_sequence c = false) cs -> cs <> [] ->
  exists i kt t, minimum_collection cs = Val i /\ cs !! i = Some (CTab kt t).
Proof.
  intros Ht Hne. destruct cs as [|c cs]; [done|]. inversion_clear Ht. destruct c as [| | | | |kt t]; try done.
  destruct (minimum_loop_ok cs 1 0 (length t) (S (length cs))) as (j & Hj & Hlt); [done|lia..|].
  destruct (lookup_lt_is_Some_2 (CTab kt t :: cs) j) as [c Hc]; [cbn; lia|].
  assert (is_sequence c = false) as Hc'. { eapply (Forall_lookup_1 (fun c => is_sequence c = false)); [|exact Hc]. by constructor. }
  destruct c; try done. exists j. eexists _, _. split; [|exact Hc]. cbn. exact Hj.
Qed.

Lemma pos_start cs : map f_init (map fip_of cs) = map (fun c => pos_state c 0) cs.
Proof. rewrite map_map. apply map_ext. intros. apply fip_init. Qed.

Lemma omap_seq_visits cs N : existsb is_sequence cs = true ->
  (forall k vs, aligned cs k = Some vs -> exists i, k = KInt (Z.of_nat i) /\ (i < N)%nat) ->
  visits cs (omap (nat_entry cs) (seq 0 N)).
Proof.
  intros Hs Hk.
  assert (Hord : forall m s i j k1 k2 v1 v2, (i < j)%nat -> omap (nat_entry cs) (seq s m) !! i = Some (k1, v1) ->
    omap (nat_entry cs) (seq s m) !! j = Some (k2, v2) -> exists z1 z2, k1 = KInt z1 /\ k2 = KInt z2 /\ Z.of_nat s <= z1 /\ z1 < z2).
  { induction m as [|m IH]; intros s i j k1 k2 v1 v2 Hij H1 H2; [done|]. cbn in H1, H2. destruct (nat_entry cs s) as [[k v]|] eqn:E.
    - assert (k = KInt (Z.of_nat s)) as ->. { unfold nat_entry in E. destruct (aligned cs _); [|done]. by injection E. }
      destruct j as [|j]; [lia|]. cbn in H2. destruct i as [|i].
      + injection H1 as <- <-. apply elem_of_list_lookup_2, elem_of_list_omap in H2 as (x & Hx & E2).
        apply elem_of_seq in Hx. unfold nat_entry in E2. destruct (aligned cs (KInt (Z.of_nat x))); [|done]. injection E2 as <- <-.
        eexists _, _. split; [done|]. split; [done|]. lia.
      + destruct (IH (S s) i j k1 k2 v1 v2) as (z1 & z2 & ? & ? & ? & ?); [lia|done..|]. exists z1, z2. repeat split; try done; lia.
    - destruct (IH (S s) i j k1 k2 v1 v2) as (z1 & z2 & ? & ? & ? & ?); [lia|done..|]. exists z1, z2. repeat split; try done; lia. }
  split.
  - apply NoDup_alt. intros i j k H1 H2. apply list_lookup_fmap_Some in H1 as ([k1 v1] & H1 & ->). apply list_lookup_fmap_Some in H2 as ([k2 v2] & H2 & E).
    cbn in E. subst k2. destruct (decide (i = j)) as [|Hn]; [done|]. exfalso. destruct (decide (i < j)%nat) as [Hlt|Hlt].
    + destruct (Hord _ _ _ _ _ _ _ _ Hlt H1 H2) as (z1 & z2 & -> & [= ->] & ? & ?). lia.
    + destruct (Hord N 0%nat j i k1 k1 v2 v1 ltac:(lia) H2 H1) as (z1 & z2 & -> & [= ->] & ? & ?). lia.
  - intros k vs. rewrite elem_of_list_omap. split.
    + intros (x & _ & E). unfold nat_entry in E. destruct (aligned cs _) eqn:E'; [|done]. by injection E as <- <-.
    + intros H. destruct (Hk _ _ H) as (i & -> & Hi). exists i. split; [apply elem_of_seq; lia|]. unfold nat_entry. by rewrite H.
  - intros _ i j k1 k2 v1 v2 Hij H1 H2. destruct (Hord _ _ _ _ _ _ _ _ Hij H1 H2) as (z1 & z2 & ? & ? & ? & ?). by exists z1, z2.
Qed.

Definition call_args (out : list (key * list value)) : list (key * value) := map (fun e => (e.1, argument e.2)) out.

Lemma call_args_vec cs out : (1 < length cs)%nat -> visits cs out -> vec_values out = call_args out.
Proof.
  intros Hl Hv. unfold vec_values, call_args. assert (Forall (fun e => aligned cs e.1 = Some e.2) out) as Ha.
  { apply Forall_forall. intros [k vs] Hin. by apply Hv. }
  clear Hv. induction Ha as [|[k vs] out Hk _ IH]; [done|]. cbn. rewrite IH. do 2 f_equal.
  cbn in Hk. unfold aligned in Hk. apply mapM_length in Hk. destruct vs as [|? [|? ?]]; cbn in *; try lia; done.
Qed.

Lemma call_args_one out : out = call_args (entry_values out).
Proof. unfold call_args, entry_values. rewrite map_map. cbn. induction out as [|[k v] out IH]; [done|]. cbn. by rewrite <- IH. Qed.

Lemma aligned_none_of cs c k : c ∈ cs -> value_at c k = None -> aligned cs k = None.
Proof.
  intros Hc Hv. unfold aligned. destruct (mapM _ cs) eqn:E; [|done]. apply mapM_Some in E. exfalso.
  apply elem_of_list_lookup in Hc as [i Hi]. destruct (Forall2_lookup_l _ _ _ _ _ E Hi) as (y & _ & Hy). cbn in Hy. congruence.
Qed.

Lemma aligned_some_all cs k : (forall c, c ∈ cs -> value_at c k <> None) -> aligned cs k <> None.
Proof.
  intros H. unfold aligned. intros E. apply eq_None_not_Some in E. apply E. apply mapM_is_Some_2. apply Forall_forall. intros c Hc.
  apply not_eq_None_Some. by apply H.
Qed.

Lemma seq_key c k v : is_sequence c = true -> value_at c k = Some v -> exists i : nat, k = KInt (Z.of_nat i).
Proof. intros Hs E. destruct c, k; cbn in E; try done; destruct (decide _); try done; exists (Z.to_nat z); f_equal; lia. Qed.

Lemma agree_all_refl D cs : Forall2 (agree D) cs cs.
Proof. induction cs; constructor; [apply agree_refl|done]. Qed.

Lemma split_mixed_subset acs : forall i sas smap eas emap, split_mixed i acs = (sas, smap, eas, emap) -> sas ⊆ acs.*1 /\ eas ⊆ acs.*1.
Proof.
  induction acs as [|[a c] acs IH]; intros i sas smap eas emap H; cbn [split_mixed] in H.
  - injection H as <- <- <- <-. done.
  - destruct (split_mixed (S i) acs) as [[[sas' smap'] eas'] emap'] eqn:E. destruct (IH _ _ _ _ _ E) as [H1 H2]. rewrite fmap_cons. cbn [fst].
    assert (forall l : list nat, l ⊆ acs.*1 -> l ⊆ a :: acs.*1 /\ a :: l ⊆ a :: acs.*1) as Hw.
    { intros l Hl. split; intros x Hx; [right; auto|]. apply elem_of_cons in Hx as [->|Hx]; [left|right; auto]. }
    destruct (is_sequence c); injection H as <- <- <- <-; split; by apply Hw.
Qed.

Theorem source_yields h a more cs src :
  Forall2 (fun a c => h !! a = Some c) (a :: more) cs -> Forall wf_coll cs -> bounded cs ->
  multiple_collection h a more = Val src ->
  exists B f st out, (forall fuel, (B <= fuel)%nat -> src_start fuel h src = Val (f, st)) /\
    yields B h (a :: more) src f [] st (call_args out) /\ visits cs out.
Proof.
  intros Hh Hwf Hb Hm. destruct more as [|a2 more].
  - injection Hm as <-. inversion Hh as [|? c ? ? Hc Hn]; subst. inversion Hn; subst. inversion Hwf as [|?? Hwc _]; subst.
    destruct (one_yields h a c) as (out & H1 & H2 & H3 & _); [done..| |].
    { destruct Hb as [Hb|[Hb|Hb]].
      - inversion_clear Hb as [|?? Hb' ?]. by destruct c.
      - apply Exists_cons in Hb as [[_ Hb]|Hb]; [done|by inversion Hb].
      - destruct c; done. }
    exists 0%nat, (F1 (fip_of c)), (St1 (pos_state c 0)), (entry_values out). split; [|split; [|done]].
    + intros fuel _. cbn. rewrite (at_val _ _ _ Hc). cbn. by rewrite fip_init.
    + by rewrite <- call_args_one.
  - cbn [multiple_collection] in Hm. destruct cs as [|c cs]; [by inversion Hh|]. pose proof Hh as Hall.
    inversion Hh as [|? ? ? ? Hc Hr]; subst. rewrite (at_val _ _ _ Hc) in Hm. cbn [obind] in Hm. rewrite (all_val _ _ _ Hr) in Hm. cbn [obind] in Hm.
    assert (Hl1 : (1 < length (c :: cs))%nat). { apply Forall2_length in Hr. cbn in *. lia. }
    destruct (negb (forallb _ cs)); [done|].
    destruct (forallb (fun c' => Bool.eqb (is_sequence c') (is_sequence c)) cs) eqn:Eu; cbn [negb] in Hm.
    + assert (Hu : Forall (fun c' => is_sequence c' = is_sequence c) (c :: cs)).
      { constructor; [done|]. rewrite forallb_True in Eu || idtac. apply Forall_forall. intros d Hd. rewrite forallb_forall in Eu.
        apply Bool.eqb_prop, Eu. by apply elem_of_list_In. }
      destruct (is_sequence c) eqn:Ec; injection Hm as <-.
      * destruct (multi_yields h (a :: a2 :: more) (c :: cs)) as (out & H1 & H2 & H3); [done..| |].
        { destruct Hb as [Hb|[Hb|Hb]].
          - inversion_clear Hb. congruence.
          - apply Exists_exists in Hb as (d & Hd & _ & Hf). apply Exists_exists. by exists d.
          - exfalso. destruct (filter _ (c :: cs)) as [|d l] eqn:E; [done|]. assert (d ∈ d :: l) as Hd by (left).
            rewrite <- E in Hd. apply elem_of_list_filter in Hd as [Hd Hin]. rewrite Forall_forall in Hu. rewrite Hu in Hd by done. done. }
        eexists 0%nat, _, _, out. split; [intros fuel _; exact H1|]. split; [|done]. by erewrite <- call_args_vec.
      * destruct (minimum_collection_ok (c :: cs)) as (index & kt & t & Hmin & Hidx); [done..|].
        destruct (exp_yields h (a :: a2 :: more) (c :: cs) index kt t Hall Hwf Hu Hidx (length t) 0 (replicate (length (c :: cs)) None) []) as (st & out & H1 & H2 & H3 & H4 & H5);
          [lia|lia|by rewrite replicate_length|intros ? _; apply not_elem_of_nil|].
        assert (Hv : visits (c :: cs) out).
        { split; [done| |].
          - intros k vs. rewrite H4, drop_0. split; [tauto|]. intros Hk. split; [|done].
            destruct (value_at (CTab kt t) k) as [v|] eqn:Ev.
            + apply value_at_tab in Ev; [|by apply (Forall_lookup_1 _ _ _ _ Hwf Hidx)]. apply elem_of_list_fmap. by exists (k, v).
            + rewrite (aligned_none_of (c :: cs) (CTab kt t)) in Hk; [done|by eapply elem_of_list_lookup_2|done].
          - intros Hex. exfalso. apply existsb_exists in Hex as (d & Hd & Hds). apply elem_of_list_In in Hd. rewrite Forall_forall in Hu. rewrite Hu in Hds by done. done. }
        exists (S (length t)), (FExp (fip_of (CTab kt t)) index), st, out. split; [|split; [|done]].
        -- intros fuel Hf. unfold src_start. rewrite (all_val _ _ _ Hall). cbn [obind]. rewrite Hmin. cbn [obind]. rewrite Hidx.
           specialize (H1 (c :: cs) fuel (agree_all_refl _ _) Hf). cbn [fip_of f_init]. destruct (skip_exp _ _ _ _ _ _) as [[s els]| | |]; cbn in H1 |- *; congruence.
        -- by erewrite <- call_args_vec.
    + destruct (split_mixed 0 (combine (a :: a2 :: more) (c :: cs))) as [[[sas smap] eas] emap] eqn:Esp.
      injection Hm as <-. set (acs := combine (a :: a2 :: more) (c :: cs)) in *.
      assert (Hacs2 : acs.*2 = c :: cs). { subst acs. apply Forall2_length in Hall. by rewrite <- (snd_zip (a :: a2 :: more) (c :: cs)) at 2 by lia. }
      assert (Hlacs : length acs = length (c :: cs)). { rewrite <- Hacs2. by rewrite fmap_length. }
      assert (Hah : Forall (fun p => h !! p.1 = Some p.2) acs).
      { subst acs. clear -Hall. induction Hall; cbn; constructor; done. }
      destruct (split_mixed_heap h acs _ _ _ _ _ Esp Hah) as [Hs1 He1]. destruct (split_mixed_maps _ _ _ _ _ _ Esp) as (_ & _ & Hls & Hle & Hsum).
      rewrite Hacs2 in Hs1, He1. set (scs := filter (fun c => is_sequence c = true) (c :: cs)) in *. set (ecs := filter (fun c => is_sequence c = false) (c :: cs)) in *.
      pose proof (all_val _ _ _ Hs1) as Hsv. pose proof (all_val _ _ _ He1) as Hev.
      assert (Hss : Forall (fun c => is_sequence c = true) scs). { apply Forall_forall. by intros d [Hd _]%elem_of_list_filter. }
      assert (Hee : Forall (fun c => is_sequence c = false) ecs). { apply Forall_forall. by intros d [Hd _]%elem_of_list_filter. }
      assert (Hmem : forall d, d ∈ scs \/ d ∈ ecs <-> d ∈ c :: cs).
      { intros d. unfold scs, ecs. rewrite !elem_of_list_filter. destruct (is_sequence d); split; intuition congruence. }
      assert (Hne : scs <> [] /\ ecs <> []).
      { assert (exists d, d ∈ cs /\ is_sequence d <> is_sequence c) as (d & Hd & Hdc).
        { clear -Eu. induction cs as [|e cs IH]; [done|]. cbn in Eu. destruct (Bool.eqb (is_sequence e) (is_sequence c)) eqn:E.
          - destruct (IH Eu) as (d & Hd & ?). exists d. split; [by right|done].
          - exists e. split; [left|]. by apply Bool.eqb_false_iff in E. }
        assert (forall x, x ∈ c :: cs -> is_sequence x = true -> x ∈ scs) as Hx1 by (intros x ? ?; by apply elem_of_list_filter).
        assert (forall x, x ∈ c :: cs -> is_sequence x = false -> x ∈ ecs) as Hx2 by (intros x ? ?; by apply elem_of_list_filter).
        assert (c ∈ c :: cs) by left. assert (d ∈ c :: cs) by (by right).
        destruct (is_sequence c) eqn:E1, (is_sequence d) eqn:E2; try done;
          (split; intros E; [eapply (elem_of_nil (A:=coll)); rewrite <- E|eapply (elem_of_nil (A:=coll)); rewrite <- E]; eauto). }
      destruct Hne as [Hsne Hene].
      destruct (minimum_collection_ok ecs Hee Hene) as (index & kt & t & Hmin & Hidx).
      set (bound := max_int_key t (-1)) in *.
      assert (Hwfs : Forall wf_coll scs). { apply Forall_forall. intros d Hd. rewrite Forall_forall in Hwf. apply Hwf, Hmem. by left. }
      assert (Hwft : NoDup t.*1). { rewrite Forall_forall in Hwf. apply (Hwf (CTab kt t)), Hmem. right. by eapply elem_of_list_lookup_2. }
      assert (Hsplit : forall k, match aligned (c :: cs) k with
        | Some us => exists vs ws, aligned scs k = Some vs /\ aligned ecs k = Some ws /\
            forall els, length els = length (c :: cs) -> store_at smap vs (store_at emap ws els) = map Some us
        | None => aligned scs k = None \/ aligned ecs k = None end).
      { intros k. pose proof (split_mixed_store k acs 0 sas smap eas emap scs ecs Esp) as H. rewrite Hacs2 in H. specialize (H eq_refl eq_refl).
        destruct (aligned (c :: cs) k) as [us|]; [|done]. destruct H as (vs & ws & H1 & H2 & H3). exists vs, ws. split; [done|]. split; [done|].
        intros els Hel. rewrite H3 by lia. cbn [take]. rewrite drop_ge by lia. by rewrite app_nil_r. }
      assert (Hbound : forall z, bound < z -> aligned ecs (KInt z) = None).
      { intros z Hz. apply (aligned_none_of _ (CTab kt t)); [by eapply elem_of_list_lookup_2|]. destruct (value_at _ _) as [v|] eqn:Ev; [|done].
        apply value_at_tab in Ev; [|done]. apply (max_int_key_ge t (-1)) in Ev. fold bound in Ev. lia. }
      assert (HNex : exists N, (forall i, (i < N)%nat -> all_below i scs) /\
         (~ all_below N scs \/ (bound < Z.of_nat N /\ (N = 0%nat \/ aligned (c :: cs) (KInt (Z.of_nat (N - 1))) <> None))) /\
         (forall i, (N <= i)%nat -> aligned (c :: cs) (KInt (Z.of_nat i)) = None)).
      { destruct (decide (Exists finite_coll scs)) as [Hf|Hf].
        - destruct (min_len scs Hf) as [N HN]. exists N. split; [intros; by apply HN|]. split; [left; rewrite HN; lia|].
          intros i Hi. destruct (aligned (c :: cs) _) as [us|] eqn:E; [|done]. specialize (Hsplit (KInt (Z.of_nat i))). rewrite E in Hsplit.
          destruct Hsplit as (vs & ws & H1 & _). assert (is_Some (aligned scs (KInt (Z.of_nat i)))) as Hi' by (by eexists).
          apply (below_aligned scs i Hss), HN in Hi'. lia.
        - assert (Hinf : forall i, all_below i scs).
          { intros i. apply Forall_forall. intros d Hd. destruct (decide (finite_coll d)) as [Hfd|Hfd]; [|by destruct d].
            exfalso. apply Hf, Exists_exists. by exists d. }
          exists (Z.to_nat (bound + 1)). split; [done|]. split.
          + right. split; [lia|]. destruct Hb as [Hb|[Hb|Hb]].
            * exfalso. apply Hsne. unfold scs. apply elem_of_nil_inv. intros d Hd. apply elem_of_list_filter in Hd as [Hd1 Hd2].
              rewrite Forall_forall in Hb. rewrite Hb in Hd1 by done. done.
            * exfalso. apply Hf. apply Exists_exists in Hb as (d & Hd & Hd1 & Hd2). apply Exists_exists. exists d. split; [|done]. by apply elem_of_list_filter.
            * fold ecs in Hb. destruct ecs as [|e [|e' ecs']] eqn:Eecs; try done. destruct index as [|index]; [|done].
              injection Hidx as ->. destruct (max_int_key_in t (-1)) as [Hin|[v Hin]]; fold bound in Hin; [left; lia|].
              destruct (decide (bound < 0)); [left; lia|]. right.
              replace (Z.of_nat (Z.to_nat (bound + 1) - 1)) with bound by lia. apply aligned_some_all. intros d [Hd|Hd]%Hmem.
              -- assert (below (Z.to_nat bound) (slen d)) as Hbd. { specialize (Hinf (Z.to_nat bound)). unfold all_below in Hinf. rewrite Forall_forall in Hinf. by apply Hinf. }
                 apply entry_below in Hbd as [[k' v'] Hbd]. rewrite Forall_forall in Hss. apply entry_seq in Hbd as [-> Hbd]; [|by apply Hss].
                 rewrite Z2Nat.id in Hbd by lia. by rewrite Hbd.
              -- apply elem_of_list_singleton in Hd as ->. apply (value_at_tab kt) in Hin; [|done]. by rewrite Hin.
          + intros i Hi. destruct (aligned (c :: cs) _) as [us|] eqn:E; [|done]. specialize (Hsplit (KInt (Z.of_nat i))). rewrite E in Hsplit.
            destruct Hsplit as (vs & ws & _ & H1 & _). rewrite Hbound in H1 by lia. done. }
      destruct HNex as (N & HN1 & HN2 & HN3).
      assert (Hle' : length emap = length ecs). { rewrite Hle. by apply Forall2_length in He1. }
      assert (Hlen' : (length scs + length ecs)%nat = length (c :: cs)).
      { rewrite <- Hle'. rewrite <- Hlacs, <- Hsum, Hls. apply Forall2_length in Hs1. lia. }
      assert (Hsub : sas ⊆ a :: a2 :: more /\ eas ⊆ a :: a2 :: more).
      { apply split_mixed_subset in Esp as [E1 E2]. assert (acs.*1 = a :: a2 :: more) as Hf1. { subst acs. apply Forall2_length in Hall. by rewrite <- (fst_zip (a :: a2 :: more) (c :: cs)) at 2 by lia. }
        by rewrite Hf1 in E1, E2. }
      destruct Hsub as [Hsub1 Hsub2].
      destruct (mix_yields h (a :: a2 :: more) sas smap eas emap (c :: cs) scs ecs bound N Hs1 He1 Hsub1 Hsub2 Hwfs Hss Hee Hle' Hsplit Hbound HN1 HN2 HN3 N 0 0 (replicate (length scs + length ecs) None) [])
        as (st & H1 & H2); [lia..|rewrite replicate_length; lia|by left|intros ? _; apply not_elem_of_nil|].
      assert (Hv : visits (c :: cs) (omap (nat_entry (c :: cs)) (seq 0 N))).
      { apply omap_seq_visits.
        - destruct scs as [|d scs'] eqn:Escs; [done|]. apply existsb_exists. exists d. inversion_clear Hss. split; [|done]. apply elem_of_list_In, Hmem. left. left.
        - intros k vs Hk. assert (exists i : nat, k = KInt (Z.of_nat i)) as [i ->].
          { specialize (Hsplit k). rewrite Hk in Hsplit. destruct Hsplit as (vs' & _ & Hv' & _). destruct scs as [|d scs']; [done|]. rewrite aligned_cons in Hv'.
            destruct (value_at d k) eqn:Ev; [|done]. inversion_clear Hss. by eapply seq_key. }
          exists i. split; [done|]. destruct (decide (i < N)%nat); [done|]. rewrite HN3 in Hk by lia. done. }
      exists (S N), (FMix (map fip_of scs) bound), st, (omap (nat_entry (c :: cs)) (seq 0 N)). split; [|split; [|done]].
      * intros fuel Hf. unfold src_start. rewrite Hsv, Hev. cbn [obind]. rewrite Hmin. cbn [obind]. rewrite Hidx. cbn [maximum_sequence_key obind]. fold bound.
        rewrite pos_start. specialize (H1 scs ecs fuel (agree_all_refl _ _) (agree_all_refl _ _) Hf). cbn [Z.of_nat] in H1. destruct (skip_mix _ _ _ _ _ _ _ _ _ _ _) as [[[k ss] els]| | |]; cbn in H1 |- *; congruence.
      * by erewrite <- call_args_vec.
Qed.
