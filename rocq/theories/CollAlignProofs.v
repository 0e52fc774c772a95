(** Iterating over tables, or tables and sequences together. *)
From Verif Require Import Base CollModel CollSpec CollProofs CollAgree CollIterProofs.
From Coq Require Import ZArith ZifyBool ZifyNat.
Local Open Scope outcome_scope.
Local Open Scope Z_scope.

Lemma lookup_key_value kt t k : lookup_key k t = value_at (CTab kt t) k.
Proof.
  cbn. induction t as [|[x v] t IH]; [done|]. cbn. destruct (decide (x = k)) as [E|E].
  - rewrite (bool_decide_true (x = k)) by done. done.
  - rewrite (bool_decide_false (x = k)) by done. rewrite IH.
    destruct (list_find _ t) as [[]|]; done.
Qed.

Lemma element_tab c k : is_sequence c = false -> element_nf c k = Val (value_at c k).
Proof. destruct c; try done. intros _. cbn [element_nf]. f_equal. apply lookup_key_value. Qed.

Lemma elements_vector_some us : elements_vector (map Some us) = VVec us.
Proof. unfold elements_vector. f_equal. rewrite map_map. apply map_id. Qed.

(** ** Several tables *)

Lemma common_exp_ok index k cur cs : forall (pre : list value) els,
  Forall (fun c => is_sequence c = false) cs ->
  length els = (length pre + length cs)%nat -> take (length pre) els = map Some pre ->
  (forall j c, cs !! j = Some c -> (length pre + j)%nat = index -> value_at c k = Some cur) ->
  match aligned cs k with
  | Some vs => common_exp cs (length pre) index k cur els = Val (map Some (pre ++ vs), true)
  | None => exists els', common_exp cs (length pre) index k cur els = Val (els', false) /\ length els' = length els
  end.
Proof.
  induction cs as [|c cs IH]; intros pre els Ht Hl Hp Hi.
  - unfold aligned. cbn in *. rewrite app_nil_r, <- Hp. by rewrite take_ge by lia.
  - inversion_clear Ht as [|?? Hc Hcs]. unfold aligned. cbn in Hl |- *.
    assert (Hstep : forall v, value_at c k = Some v ->
      match mapM (fun c => value_at c k) cs with
      | Some vs => common_exp cs (S (length pre)) index k cur (<[length pre := Some v]> els) = Val (map Some (pre ++ v :: vs), true)
      | None => exists els', common_exp cs (S (length pre)) index k cur (<[length pre := Some v]> els) = Val (els', false) /\ length els' = length els
      end).
    { intros v Hv. specialize (IH (pre ++ [v]) (<[length pre := Some v]> els)).
      rewrite app_length, insert_length in IH. cbn in IH. replace (length pre + 1)%nat with (S (length pre)) in IH by lia.
      unfold aligned in IH.
      destruct (mapM (fun c => value_at c k) cs) as [vs|] eqn:E.
      - rewrite IH; [by rewrite <- app_assoc|done|lia|..].
        + rewrite (take_S_r _ _ (Some v)), take_insert by (try apply list_lookup_insert; lia). by rewrite Hp, map_app.
        + intros j d Hj Hd. apply (Hi (S j) d); [done|lia].
      - destruct IH as (els' & H1 & H2); [done|lia|..].
        + rewrite (take_S_r _ _ (Some v)), take_insert by (try apply list_lookup_insert; lia). by rewrite Hp, map_app.
        + intros j d Hj Hd. apply (Hi (S j) d); [done|lia].
        + by exists els'. }
    destruct (length pre =? index)%nat eqn:E.
    + apply Nat.eqb_eq in E. rewrite (Hi 0%nat c) by (cbn; try lia; done). cbn.
      specialize (Hstep cur (Hi 0%nat c eq_refl ltac:(lia))).
      destruct (mapM _ cs) as [vs|]; cbn; [exact Hstep|done].
    + rewrite element_tab by done. cbn. destruct (value_at c k) as [v|] eqn:Ev; cbn.
      * specialize (Hstep v eq_refl). destruct (mapM _ cs) as [vs|]; cbn; [exact Hstep|done].
      * eexists. split; [done|]. by rewrite insert_length.
Qed.

Lemma common_exp_agree D k index cur cs cs' : Forall2 (agree D) cs cs' -> Forall (fun c => is_sequence c = false) cs -> k ∉ D ->
  forall i els, common_exp cs' i index k cur els = common_exp cs i index k cur els.
Proof.
  intros H Ht Hk. revert Ht. induction H as [|c c' cs cs' Hc _ IH]; intros Ht i els; [done|]. inversion_clear Ht as [|?? Htc Htr]. cbn.
  destruct (i =? index)%nat; [by apply IH|]. rewrite !element_tab by (rewrite ?(agree_seq _ _ _ Hc); done).
  rewrite (agree_value _ _ _ _ Hc Hk). cbn. destruct (value_at c k); [by apply IH|done].
Qed.

Lemma common_mix_agree D k cs cs' : Forall2 (agree D) cs cs' -> Forall (fun c => is_sequence c = false) cs -> KInt k ∉ D ->
  forall emap els, common_mix cs' emap k els = common_mix cs emap k els.
Proof.
  intros H Ht Hk. revert Ht. induction H as [|c c' cs cs' Hc _ IH]; intros Ht [|e emap] els; try done. inversion_clear Ht as [|?? Htc Htr]. cbn.
  rewrite !element_tab by (rewrite ?(agree_seq _ _ _ Hc); done).
  rewrite (agree_value _ _ _ _ Hc Hk). cbn. destruct (value_at c (KInt k)); [by apply IH|done].
Qed.

Lemma exp_yields h as_ cs index kt t :
  Forall2 (fun a c => h !! a = Some c) as_ cs -> Forall wf_coll cs -> Forall (fun c => is_sequence c = false) cs ->
  cs !! index = Some (CTab kt t) ->
  forall m i els pre, (length t - i = m)%nat -> (i <= length t)%nat -> length els = length cs ->
  (forall k, k ∈ (drop i t).*1 -> k ∉ pre.*1) ->
  exists st out, (forall cs' fuel, Forall2 (agree pre.*1) cs cs' -> (m < fuel)%nat ->
      (do ' (s, els) <- skip_exp fuel (fip_of (CTab kt t)) index cs' (STab i) els ; Val (StExp s els)) = Val st) /\
    yields (S (length t)) h as_ (MultiExp as_) (FExp (fip_of (CTab kt t)) index) pre st (vec_values out) /\
    NoDup out.*1 /\ (forall k vs, (k, vs) ∈ out <-> k ∈ (drop i t).*1 /\ aligned cs k = Some vs) /\ (length out <= m)%nat.
Proof.
  intros Ha Hwf Htab Hidx.
  assert (Hnd : NoDup t.*1). { apply (Forall_lookup_1 _ _ _ _ Hwf Hidx). }
  assert (Hsim : forall D h', similar as_ h D h' -> exists cs', all_ h' as_ = Val cs' /\ Forall2 (agree D) cs cs').
  { intros D h' H. by apply (similar_all _ _ _ _ _ _ H ltac:(done) Ha). }
  assert (Hidx' : forall D cs', Forall2 (agree D) cs cs' -> exists t', cs' !! index = Some (CTab kt t') /\ length t' = length t /\
    forall i k v, t !! i = Some (k, v) -> k ∉ D -> t' !! i = Some (k, v)).
  { intros D cs' H. destruct (Forall2_lookup_l _ _ _ _ _ H Hidx) as (c' & H1 & H2). destruct c'; try done. cbn in H2. destruct H2 as (<- & H2 & H3).
    exists t0. split; [done|]. split; [|done]. rewrite <- (fmap_length fst t0), <- (fmap_length fst t). congruence. }
  induction m as [|m IH]; intros i els pre Hm Hi Hel Hpre.
  - exists (StExp (STab i) els), []. split; [|split; [|split; [|split]]].
    + intros cs' [|fuel] Hag Hf; [lia|]. destruct (Hidx' _ _ Hag) as (t' & E' & Hl' & _). cbn [skip_exp]. rewrite E'. cbn.
      rewrite (proj2 (Nat.leb_le _ _)) by lia. done.
    + constructor. intros h' Hs. destruct (Hsim _ _ Hs) as (cs' & Hall & Hag). destruct (Hidx' _ _ Hag) as (t' & E' & Hl' & _).
      cbn. rewrite Hall. cbn. rewrite E'. cbn. f_equal. apply Nat.leb_le. lia.
    + constructor.
    + intros k vs. rewrite drop_ge by lia. cbn. split; [by intros ?%elem_of_nil|]. by intros [?%elem_of_nil _].
    + done.
  - destruct (lookup_lt_is_Some_2 t i) as [[k v] Hkv]; [lia|].
    assert (Hval : value_at (CTab kt t) k = Some v) by (apply value_at_tab; [done|]; by eapply elem_of_list_lookup_2).
    assert (Hdrop : drop i t = (k, v) :: drop (S i) t) by (by apply drop_S).
    assert (Hkp : k ∉ pre.*1) by (apply Hpre; rewrite Hdrop; left).
    assert (Hnot : k ∉ (drop (S i) t).*1).
    { assert (NoDup (drop i t).*1) as Hn'. { rewrite <- (take_drop i t), fmap_app in Hnd. by apply NoDup_app in Hnd as (_ & _ & ?). }
      rewrite Hdrop in Hn'. by apply NoDup_cons in Hn' as [? _]. }
    assert (Hfin : forall t', length t' = length t -> run_fin FTab (CTab kt t') (STab i) 0 = Val false). { intros t' Hl'. cbn. f_equal. apply Nat.leb_gt. lia. }
    pose proof (common_exp_ok index k v cs [] els Htab) as Hc. cbn [length] in Hc.
    specialize (Hc Hel eq_refl). feed specialize Hc.
    { intros j c Hj <-. cbn in Hidx. rewrite Hidx in Hj. by injection Hj as <-. }
    destruct (aligned cs k) as [us|] eqn:Eal.
    + destruct (IH (S i) (map Some us) ((k, VVec us) :: pre)) as (st & out & H1 & H2 & H3 & H4 & H5); [lia..| | |].
      { rewrite map_length. unfold aligned in Eal. apply mapM_length in Eal. done. }
      { intros k' Hk'. cbn. apply not_elem_of_cons. split; [by intros ->|]. apply Hpre. rewrite Hdrop. by right. }
      exists (StExp (STab i) (map Some us)), ((k, us) :: out). split; [|split; [|split; [|split]]].
      * intros cs' [|fuel] Hag Hf; [lia|]. destruct (Hidx' _ _ Hag) as (t' & E' & Hl' & Hv'). cbn [skip_exp]. rewrite E'. cbn [fip_of f_fin f_limit f_key f_elt f_next].
        rewrite Hfin by done. cbn -[common_exp]. rewrite (Hv' _ _ _ Hkv Hkp). cbn -[common_exp]. rewrite (common_exp_agree _ _ _ _ _ _ Hag) by done. rewrite Hc. done.
      * cbn. apply yields_cons with (st' := st).
        -- intros h' Hs. destruct (Hsim _ _ Hs) as (cs' & Hall & Hag). destruct (Hidx' _ _ Hag) as (t' & E' & Hl' & Hv').
           cbn. rewrite Hall. cbn. rewrite E'. split; [by apply Hfin|]. split; [by rewrite elements_vector_some|]. cbn. by rewrite (Hv' _ _ _ Hkv Hkp).
        -- intros h' fuel Hs Hf. destruct (Hsim _ _ Hs) as (cs' & Hall & Hag). destruct (Hidx' _ _ Hag) as (t' & E' & Hl' & Hv').
           cbn [src_next]. rewrite Hall. cbn [obind]. rewrite E'. cbn [fip_of f_next run_next obind].
           apply H1; [done|lia].
        -- exact H2.
      * cbn. apply NoDup_cons. split; [|done]. intros Hin. apply elem_of_list_fmap in Hin as ([k' us'] & E & Hin). cbn in E. subst k'. apply H4 in Hin as [Hin _]. done.
      * intros k' vs'. rewrite Hdrop. cbn. rewrite !elem_of_cons. rewrite H4. split.
        -- intros [[= -> ->]|[Hd Hv]]; auto.
        -- intros [[->|Hd] Hv]; [left; congruence|auto].
      * cbn. lia.
    + destruct Hc as (els' & Hc & Hl').
      destruct (IH (S i) els' pre) as (st & out & H1 & H2 & H3 & H4 & H5); [lia..| |].
      { intros k' Hk'. apply Hpre. rewrite Hdrop. by right. }
      exists st, out. split; [|split; [done|split; [done|split]]].
      * intros cs' [|fuel] Hag Hf; [lia|]. destruct (Hidx' _ _ Hag) as (t' & E' & Hlt' & Hv'). cbn [skip_exp]. rewrite E'. cbn [fip_of f_fin f_limit f_key f_elt f_next].
        rewrite Hfin by done. cbn -[common_exp skip_exp]. rewrite (Hv' _ _ _ Hkv Hkp). cbn -[common_exp skip_exp].
        rewrite (common_exp_agree _ _ _ _ _ _ Hag) by done. rewrite Hc. cbn [obind].
        apply H1; [done|lia].
      * intros k' vs'. rewrite Hdrop. cbn. rewrite elem_of_cons. rewrite H4. split; [tauto|].
        intros [[->|Hd] Hv]; [congruence|auto].
      * lia.
Qed.

(** ** Sequences and tables *)

Lemma store_at_length is_ vs els : length (store_at is_ vs els) = length els.
Proof. revert vs els. induction is_ as [|i is_ IH]; intros [|v vs] els; cbn; try done. by rewrite IH, insert_length. Qed.

Lemma store_at_comm is_ : forall vs els i x, i ∉ is_ ->
  store_at is_ vs (<[i := x]> els) = <[i := x]> (store_at is_ vs els).
Proof.
  induction is_ as [|j is_ IH]; intros [|v vs] els i x Hi; cbn; try done.
  apply not_elem_of_cons in Hi as [Hij Hi]. rewrite list_insert_commute by done. by apply IH.
Qed.

Lemma common_mix_ok k : forall ecs emap els, Forall (fun c => is_sequence c = false) ecs -> length emap = length ecs ->
  match aligned ecs (KInt k) with
  | Some ws => common_mix ecs emap k els = Val (store_at emap ws els, true)
  | None => exists els', common_mix ecs emap k els = Val (els', false) /\ length els' = length els
  end.
Proof.
  induction ecs as [|c ecs IH]; intros [|e emap] els Ht Hl; try done.
  inversion_clear Ht as [|?? Hc Hcs]. unfold aligned. cbn in Hl |- *. rewrite element_tab by done. cbn.
  destruct (value_at c (KInt k)) as [v|] eqn:Ev; cbn.
  - specialize (IH emap (<[e := Some v]> els) Hcs ltac:(lia)). unfold aligned in IH. destruct (mapM _ ecs) as [ws|]; cbn; [exact IH|].
    destruct IH as (els' & H1 & H2). exists els'. split; [done|]. by rewrite H2, insert_length.
  - eexists. split; [done|]. by rewrite insert_length.
Qed.

Lemma split_mixed_maps acs : forall i sas smap eas emap, split_mixed i acs = (sas, smap, eas, emap) ->
  Forall (fun j => (i <= j)%nat) smap /\ Forall (fun j => (i <= j)%nat) emap /\ length smap = length sas /\ length emap = length eas /\
  (length smap + length emap = length acs)%nat.
Proof.
  induction acs as [|[a c] acs IH]; intros i sas smap eas emap H; cbn in H.
  - injection H as <- <- <- <-. split; [constructor|]. split; [constructor|]. done.
  - destruct (split_mixed (S i) acs) as [[[sas' smap'] eas'] emap'] eqn:E. destruct (IH _ _ _ _ _ E) as (H1 & H2 & H3 & H4 & H5).
    assert (forall l, Forall (fun j => (S i <= j)%nat) l -> Forall (fun j => (i <= j)%nat) l) as Hw
      by (intros l Hl; eapply Forall_impl; [exact Hl|]; cbn; lia).
    destruct (is_sequence c); injection H as <- <- <- <-; cbn;
      (split; [try constructor; auto|]); (split; [try constructor; auto|]); lia.
Qed.

Lemma aligned_cons c cs k :
  aligned (c :: cs) k = match value_at c k with Some v => match aligned cs k with Some vs => Some (v :: vs) | None => None end | None => None end.
Proof. unfold aligned. cbn. destruct (value_at c k); cbn; [|done]. by destruct (mapM _ cs). Qed.

(** The values of the sequences and of the tables, put at their positions, are the values of all. *)
Lemma split_mixed_store k acs : forall i sas smap eas emap scs ecs,
  split_mixed i acs = (sas, smap, eas, emap) ->
  scs = filter (fun c => is_sequence c = true) acs.*2 -> ecs = filter (fun c => is_sequence c = false) acs.*2 ->
  match aligned acs.*2 k with
  | Some us => exists vs ws, aligned scs k = Some vs /\ aligned ecs k = Some ws /\
      forall els, (i + length acs <= length els)%nat -> store_at smap vs (store_at emap ws els) = take i els ++ map Some us ++ drop (i + length acs) els
  | None => aligned scs k = None \/ aligned ecs k = None
  end.
Proof.
  induction acs as [|[a c] acs IH]; intros i sas smap eas emap scs ecs H Hs He; cbn in H.
  - injection H as <- <- <- <-. subst. cbn. exists [], []. split; [done|]. split; [done|]. intros els Hl. cbn.
    by rewrite Nat.add_0_r, take_drop.
  - destruct (split_mixed (S i) acs) as [[[sas' smap'] eas'] emap'] eqn:E.
    destruct (split_mixed_maps _ _ _ _ _ _ E) as (M1 & M2 & _).
    assert (Hi1 : i ∉ smap'). { intros Hin. rewrite Forall_forall in M1. apply M1 in Hin. lia. }
    assert (Hi2 : i ∉ emap'). { intros Hin. rewrite Forall_forall in M2. apply M2 in Hin. lia. }
    specialize (IH _ _ _ _ _ _ _ E eq_refl eq_refl).
    assert (Hfin : forall vs ws us v,
      (forall els, (S i + length acs <= length els)%nat -> store_at smap' vs (store_at emap' ws els) = take (S i) els ++ map Some us ++ drop (S i + length acs) els) ->
      forall els : list (option value), (i + S (length acs) <= length els)%nat ->
      <[i := Some v]> (store_at smap' vs (store_at emap' ws els)) = take i els ++ Some v :: map Some us ++ drop (i + S (length acs)) els).
    { intros vs ws us v Hv els Hl. rewrite Hv by lia. destruct (lookup_lt_is_Some_2 els i) as [x Hx]; [lia|].
      rewrite (take_S_r _ _ x) by done. rewrite <- app_assoc. cbn. rewrite insert_app_r_alt by (rewrite take_length; lia).
      rewrite take_length, Nat.min_l by lia. rewrite Nat.sub_diag. cbn. by replace (i + S (length acs))%nat with (S (i + length acs)) by lia. }
    rewrite fmap_cons in *. cbn [snd] in *. rewrite aligned_cons. destruct (is_sequence c) eqn:Ec; injection H as <- <- <- <-.
    + rewrite filter_cons_True in Hs by done. rewrite filter_cons_False in He by congruence. subst scs ecs. rewrite aligned_cons.
      destruct (value_at c k) as [v|] eqn:Ev; [|auto].
      destruct (aligned acs.*2 k) as [us|].
      * destruct IH as (vs & ws & Hvs & Hws & Hst). rewrite Hvs. exists (v :: vs), ws. split; [done|]. split; [done|].
        intros els Hl. cbn [store_at]. rewrite store_at_comm by done. by apply Hfin.
      * destruct IH as [->| ->]; auto.
    + rewrite filter_cons_False in Hs by congruence. rewrite filter_cons_True in He by done. subst scs ecs. rewrite aligned_cons.
      destruct (value_at c k) as [v|] eqn:Ev; [|auto].
      destruct (aligned acs.*2 k) as [us|].
      * destruct IH as (vs & ws & Hvs & Hws & Hst). rewrite Hws. exists vs, (v :: ws). split; [done|]. split; [done|].
        intros els Hl. cbn [store_at]. rewrite store_at_comm by done. rewrite store_at_comm by done. by apply Hfin.
      * destruct IH as [->| ->]; auto.
Qed.

Lemma split_mixed_heap (h : heap) acs : forall i sas smap eas emap, split_mixed i acs = (sas, smap, eas, emap) ->
  Forall (fun p => h !! p.1 = Some p.2) acs ->
  Forall2 (fun a c => h !! a = Some c) sas (filter (fun c => is_sequence c = true) acs.*2) /\
  Forall2 (fun a c => h !! a = Some c) eas (filter (fun c => is_sequence c = false) acs.*2).
Proof.
  induction acs as [|[a c] acs IH]; intros i sas smap eas emap H Hh; cbn [split_mixed] in H.
  - injection H as <- <- <- <-. split; constructor.
  - destruct (split_mixed (S i) acs) as [[[sas' smap'] eas'] emap'] eqn:E. inversion_clear Hh as [|?? Hc Hr].
    destruct (IH _ _ _ _ _ E Hr) as [H1 H2]. rewrite fmap_cons. cbn [snd]. destruct (is_sequence c) eqn:Ec; injection H as <- <- <- <-.
    + rewrite filter_cons_True by done. rewrite filter_cons_False by congruence. split; [by constructor|done].
    + rewrite filter_cons_False by congruence. rewrite filter_cons_True by done. split; [done|by constructor].
Qed.

Lemma max_int_key_ge t : forall m, m <= max_int_key t m /\ forall z v, (KInt z, v) ∈ t -> z <= max_int_key t m.
Proof.
  induction t as [|[[z|n|a n] v] t IH]; intros m; cbn.
  - split; [lia|]. by intros z v ?%elem_of_nil.
  - destruct (IH (Z.max z m)) as [H1 H2]. split; [lia|]. intros z' v' [[= -> ->]|H]%elem_of_cons; [lia|eauto].
  - destruct (IH m) as [H1 H2]. split; [lia|]. intros z' v' [[=]|H]%elem_of_cons; eauto.
  - destruct (IH m) as [H1 H2]. split; [lia|]. intros z' v' [[=]|H]%elem_of_cons; eauto.
Qed.

Lemma max_int_key_in t : forall m, max_int_key t m = m \/ exists v, (KInt (max_int_key t m), v) ∈ t.
Proof.
  induction t as [|[[z|n|a n] v] t IH]; intros m; cbn; [by left|..].
  - destruct (IH (Z.max z m)) as [H|[v' H]]; [|right; exists v'; by apply elem_of_cons; right].
    destruct (Z.max_spec z m) as [[? E]|[? E]]; rewrite E in H |- *; [by left|]. right. exists v. rewrite H. by apply elem_of_cons; left.
  - destruct (IH m) as [H|[v' H]]; [by left|]. right; exists v'; by apply elem_of_cons; right.
  - destruct (IH m) as [H|[v' H]]; [by left|]. right; exists v'; by apply elem_of_cons; right.
Qed.

Definition nat_entry (cs : list coll) (i : nat) : option (key * list value) :=
  match aligned cs (KInt (Z.of_nat i)) with Some vs => Some (KInt (Z.of_nat i), vs) | None => None end.

Lemma mix_yields h as_ sas smap eas emap cs scs ecs bound N :
  Forall2 (fun a c => h !! a = Some c) sas scs -> Forall2 (fun a c => h !! a = Some c) eas ecs -> sas ⊆ as_ -> eas ⊆ as_ ->
  Forall wf_coll scs -> Forall (fun c => is_sequence c = true) scs -> Forall (fun c => is_sequence c = false) ecs ->
  length emap = length ecs ->
  (forall k, match aligned cs k with
    | Some us => exists vs ws, aligned scs k = Some vs /\ aligned ecs k = Some ws /\
        forall els, length els = length cs -> store_at smap vs (store_at emap ws els) = map Some us
    | None => aligned scs k = None \/ aligned ecs k = None end) ->
  (forall z, bound < z -> aligned ecs (KInt z) = None) ->
  (forall i, (i < N)%nat -> all_below i scs) ->
  ~ all_below N scs \/ (bound < Z.of_nat N /\ (N = 0%nat \/ aligned cs (KInt (Z.of_nat (N - 1))) <> None)) ->
  (forall i, (N <= i)%nat -> aligned cs (KInt (Z.of_nat i)) = None) ->
  forall m i head els pre, (N - i = m)%nat -> (i <= N)%nat -> head <= Z.of_nat i -> length els = length cs ->
  (head = Z.of_nat i \/ (0 < i)%nat /\ aligned cs (KInt (Z.of_nat (i - 1))) = None) ->
  (forall z, Z.of_nat i <= z -> KInt z ∉ pre.*1) ->
  exists st, (forall scs' ecs' fuel, Forall2 (agree pre.*1) scs scs' -> Forall2 (agree pre.*1) ecs ecs' -> (m < fuel)%nat ->
      (do ' (k, ss, els) <- skip_mix fuel (map fip_of scs) bound scs' smap ecs' emap head (Z.of_nat i) (map (fun c => pos_state c i) scs) els ; Val (StMix k ss els)) = Val st) /\
    yields (S N) h as_ (MultiMix sas smap eas emap) (FMix (map fip_of scs) bound) pre st (vec_values (omap (nat_entry cs) (seq i m))).
Proof.
  intros Hsa Hea Hsub1 Hsub2 Hwf Hs He Hlen Hsplit Hbound Hbelow Hstop Hafter.
  assert (Hsim : forall D h', similar as_ h D h' -> exists scs' ecs', all_ h' sas = Val scs' /\ all_ h' eas = Val ecs' /\ Forall2 (agree D) scs scs' /\ Forall2 (agree D) ecs ecs').
  { intros D h' H. destruct (similar_all _ _ _ _ _ _ H Hsub1 Hsa) as (scs' & ? & ?). destruct (similar_all _ _ _ _ _ _ H Hsub2 Hea) as (ecs' & ? & ?). by exists scs', ecs'. }
  assert (Hup : forall i, (i <= N)%nat -> all_upto i scs).
  { intros [|i] Hi; [|apply all_below_upto, Hbelow; lia]. apply Forall_forall. intros c _. destruct (slen c); cbn; [lia|done]. }
  assert (Hmf : forall D scs' i, Forall2 (agree D) scs scs' -> (i <= N)%nat ->
    any_finished (map fip_of scs) scs' (map (fun c => pos_state c i) scs) = Val (bool_decide (~ all_below i scs))).
  { intros D scs' i Hag Hi. rewrite <- (agree_map_fip _ _ _ Hag), <- (agree_map_pos _ _ _ _ Hag). rewrite multi_fin.
    - f_equal. apply bool_decide_ext. by rewrite (agree_below _ _ _ _ Hag).
    - eapply agree_forall_wf_keys; [done|]. by apply forall_wf_keys.
    - eapply agree_upto; [done|]. auto. }
  assert (Hmn : forall D scs' i, Forall2 (agree D) scs scs' -> all_below i scs ->
    next_states (map fip_of scs) scs' (map (fun c => pos_state c i) scs) = Val (map (fun c => pos_state c (S i)) scs)).
  { intros D scs' i Hag Hi. rewrite <- (agree_map_fip _ _ _ Hag), <- !(agree_map_pos _ _ _ _ Hag). apply multi_next. by rewrite (agree_below _ _ _ _ Hag). }
  assert (Hme : forall D scs' i vs, Forall2 (agree D) scs scs' -> KInt (Z.of_nat i) ∉ D -> aligned scs (KInt (Z.of_nat i)) = Some vs ->
    elements_at (map fip_of scs) scs' (map (fun c => pos_state c i) scs) = Val vs).
  { intros D scs' i vs Hag Hi Hvs. rewrite <- (agree_map_fip _ _ _ Hag), <- !(agree_map_pos _ _ _ _ Hag). apply multi_elt.
    - by eapply agree_all_seq.
    - by rewrite (agree_aligned _ _ _ _ Hag). }
  assert (Hnone : forall z, bound < z -> aligned cs (KInt z) = None).
  { intros z Hz. specialize (Hsplit (KInt z)). destruct (aligned cs (KInt z)) as [us|]; [|done].
    destruct Hsplit as (vs & ws & _ & Hws & _). rewrite Hbound in Hws by done. done. }
  assert (Hempty : forall m i, bound < Z.of_nat i -> omap (nat_entry cs) (seq i m) = []).
  { induction m as [|m IHm]; intros i Hi; [done|]. cbn. unfold nat_entry at 1. rewrite Hnone by done. apply IHm. lia. }
  assert (Hdone : forall m i head els pre, head <= Z.of_nat i -> (i <= N)%nat -> (bound < head \/ ~ all_below i scs /\ m = 0%nat) ->
    exists st, (forall scs' ecs' fuel, Forall2 (agree pre.*1) scs scs' -> Forall2 (agree pre.*1) ecs ecs' -> (0 < fuel)%nat ->
      (do ' (k, ss, els) <- skip_mix fuel (map fip_of scs) bound scs' smap ecs' emap head (Z.of_nat i) (map (fun c => pos_state c i) scs) els ; Val (StMix k ss els)) = Val st) /\
    yields (S N) h as_ (MultiMix sas smap eas emap) (FMix (map fip_of scs) bound) pre st (vec_values (omap (nat_entry cs) (seq i m)))).
  { intros m i head els pre Hh Hi Hd. exists (StMix (Z.of_nat i) (map (fun c => pos_state c i) scs) els). split.
    - intros scs' ecs' [|fuel] Hag1 Hag2 Hf; [lia|]. cbn [skip_mix]. unfold finished_mix. destruct (bound <? head) eqn:Eb; [done|].
      rewrite (Hmf _ _ _ Hag1) by auto. destruct Hd as [Hd|[Hd _]]; [lia|]. rewrite bool_decide_true by done. done.
    - assert (omap (nat_entry cs) (seq i m) = []) as ->. { destruct Hd as [Hd|[_ ->]]; [|done]. apply Hempty. lia. }
      constructor. intros h' Hsm. destruct (Hsim _ _ Hsm) as (scs' & ecs' & Hsv & _ & Hag1 & _). cbn. rewrite Hsv. cbn. unfold finished_mix. destruct (bound <? Z.of_nat i) eqn:Eb; [done|].
      rewrite (Hmf _ _ _ Hag1) by auto. destruct Hd as [Hd|[Hd _]]; [lia|]. by rewrite bool_decide_true. }
  induction m as [|m IH]; intros i head els pre Hm Hi Hh Hel Hhead Hpre.
  - assert (i = N) as -> by lia. destruct (Hdone 0%nat N head els pre) as (st & H1 & H2); [done|lia| |exists st; split; [intros; apply H1; try done; lia|done]].
    destruct Hstop as [Hstop|[Hb HN]]; [by right|]. destruct Hhead as [->|[H0 Hprev]]; [by left|]. by destruct HN as [->|HN]; [lia|].
  - destruct (decide (bound < head)) as [Hbh|Hbh].
    { destruct (Hdone (S m) i head els pre) as (st & H1 & H2); [done|lia|by left|]. exists st; split; [intros; apply H1; try done; lia|done]. }
    assert (Hb : all_below i scs) by (apply Hbelow; lia).
    assert (Hfm : forall D scs' x, Forall2 (agree D) scs scs' -> x = head \/ (x = Z.of_nat i /\ Z.of_nat i <= bound) -> finished_mix (map fip_of scs) scs' bound x (map (fun c => pos_state c i) scs) = Val false).
    { intros D scs' x Hag Hx. unfold finished_mix. destruct (bound <? x) eqn:Eb; [lia|]. rewrite (Hmf _ _ _ Hag) by lia. by rewrite bool_decide_false by tauto. }
    assert (Hki : KInt (Z.of_nat i) ∉ pre.*1) by (apply Hpre; lia).
    pose proof (common_mix_ok (Z.of_nat i) ecs emap els He Hlen) as Hc.
    pose proof (proj1 (below_aligned scs i Hs) Hb) as [vs Hvs].
    pose proof (Hsplit (KInt (Z.of_nat i))) as Hsp.
    cbn [seq omap list_omap]. unfold nat_entry at 1. destruct (aligned cs (KInt (Z.of_nat i))) as [us|] eqn:Eal.
    + destruct Hsp as (vs' & ws & Hvs' & Hws & Hst). rewrite Hvs in Hvs'. injection Hvs' as <-. rewrite Hws in Hc.
      assert (Hib : Z.of_nat i <= bound). { destruct (decide (bound < Z.of_nat i)) as [Hlt|]; [|lia]. by rewrite (Hnone _ Hlt) in Eal. }
      destruct (IH (S i) (Z.of_nat (S i)) (map Some us) ((KInt (Z.of_nat i), VVec us) :: pre)) as (st & H1 & H2); [lia..| |by left| |].
      { rewrite <- (Hst els) by done. by rewrite !store_at_length. }
      { intros z Hz. cbn. apply not_elem_of_cons. split; [intros [= ->]; lia|]. apply Hpre. lia. }
      exists (StMix (Z.of_nat i) (map (fun c => pos_state c i) scs) (map Some us)). split.
      * intros scs' ecs' [|fuel] Hag1 Hag2 Hf; [lia|]. cbn [skip_mix]. rewrite (Hfm _ _ _ Hag1) by auto. cbn [obind].
        rewrite (common_mix_agree _ _ _ _ Hag2) by done. rewrite Hc. cbn [obind].
        rewrite (Hme _ _ _ _ Hag1 Hki Hvs). cbn [obind]. by rewrite Hst.
      * cbn. apply yields_cons with (st' := st).
        -- intros h' Hsm. destruct (Hsim _ _ Hsm) as (scs' & ecs' & Hsv & _ & Hag1 & _). split; [|split; [|done]].
           ++ cbn. rewrite Hsv. cbn [obind]. apply (Hfm _ _ _ Hag1). auto.
           ++ cbn [src_elt]. by rewrite elements_vector_some.
        -- intros h' fuel Hsm Hf. destruct (Hsim _ _ Hsm) as (scs' & ecs' & Hsv & Hev & Hag1 & Hag2). cbn [src_next]. rewrite Hsv, Hev. cbn [obind].
           rewrite (Hmn _ _ _ Hag1) by done. cbn [obind].
           replace (Z.of_nat i + 1) with (Z.of_nat (S i)) by lia. apply H1; [done|done|lia].
        -- exact H2.
    + destruct Hsp as [Hsp|Hsp]; [congruence|]. rewrite Hsp in Hc. destruct Hc as (els' & Hc & Hl').
      destruct (IH (S i) head els' pre) as (st & H1 & H2); [lia|lia|lia|lia| | |].
      { right. split; [lia|]. by replace (S i - 1)%nat with i by lia. }
      { intros z Hz. apply Hpre. lia. }
      exists st. split; [|done]. intros scs' ecs' [|fuel] Hag1 Hag2 Hf; [lia|]. cbn [skip_mix]. rewrite (Hfm _ _ _ Hag1) by auto. cbn [obind].
      rewrite (common_mix_agree _ _ _ _ Hag2) by done. rewrite Hc. cbn [obind].
      rewrite (Hmn _ _ _ Hag1) by done. cbn [obind]. replace (Z.of_nat i + 1) with (Z.of_nat (S i)) by lia. apply H1; [done|done|lia].
Qed.
