(** Walking an existing engine, calls, and histories of a generic function. *)
From stdpp Require Import list_numbers.
From Verif Require Import Base ClassModel ClassSpec ClassProofs TypeModel TypeSpec TypeProofs
  DispModel DispSpec DispProofs DispSortProofs DispTermProofs DispUniformProofs DispClassProofs
  DispEngineProofs DispRunProofs DispBuildProofs DispCallProofs.
From Coq Require Import ZifyBool ZifyNat.
Local Open Scope outcome_scope.
Local Open Scope nat_scope.

Section gf.
Context (W : world) (HW : wf_world W) (g : gfun) (PG : plain_gf W g).
Local Notation n := (g_nreq g).
Local Notation MS := (g_methods g).
Local Notation rem := (rem W g).
Local Notation uniform := (uniform W g).
Local Notation okr := (okr W g).
Local Notation Inv := (Inv W g).
Local Notation term := (term W g).
Local Notation good_ds := (good_ds W g).
Local Notation finishes := (finishes W g).
Local Notation region := (list obj -> Prop).

Lemma walk_ok a e : forall (R : region) ds, okr R -> R a -> Inv R (ds_argnums ds) e -> good_ds a ds ->
  (exists e', run_engine W a e = Val (Miss, e')) ->
  exists e' ds', walk W g a e ds = Val (e', ds') /\ finishes R (ds_argnums ds) a ds e' ds'.
Proof.
  assert (Hchild : forall e, (forall (R : region) ds, okr R -> R a -> Inv R (ds_argnums ds) e -> good_ds a ds ->
     (exists e', run_engine W a e = Val (Miss, e')) ->
     exists e' ds', walk W g a e ds = Val (e', ds') /\ finishes R (ds_argnums ds) a ds e' ds') ->
     forall (R : region) i ds ds1, okr R -> R a -> Inv R (i :: ds_argnums ds) e -> good_ds a ds1 ->
       ds_argnums ds1 = add_argnum i (ds_argnums ds) -> ds_warnings ds1 = ds_warnings ds ->
       (exists e', run_engine W a e = Val (Miss, e')) ->
       exists e' ds', walk W g a e ds1 = Val (e', ds') /\ finishes R (i :: ds_argnums ds) a ds e' ds').
  { intros e0 IH R i ds ds1 Hok Ha HI G E1 E2 Hm.
    assert (HS : forall j, j ∈ ds_argnums ds1 <-> j ∈ i :: ds_argnums ds) by (intros j; by rewrite E1, add_argnum_in, elem_of_cons).
    destruct (IH R ds1) as (e' & ds' & -> & Hfin); try done.
    { eapply Inv_ext; [|exact HI]. intros j. by rewrite HS. }
    eexists _, _. split; [reflexivity|]. by eapply finishes_ext. }
  induction e as [| |t|i f IH|i f IH|i t e1 IH1 e2 IH2|i t e1 IH|i vo keys index f IH d IHd];
    intros R ds Hok Ha HI G Hm; pose proof (Hok a Ha) as Hw.
  - cbn [walk]. apply (compute_more_ok W HW g PG); try done. lia.
  - destruct Hm as [e' Hm]. done.
  - destruct Hm as [e' Hm]. done.
  - destruct HI as (Hi & HU & Hf). cbn [walk]. rewrite (arg_at_ok W g a i Hw Hi). cbn [obind].
    set (c := class_of W (ag a i)) in *.
    assert (Hm' : exists e', run_engine W a (f c) = Val (Miss, e')).
    { destruct Hm as [e' Hm]. cbn [run_engine] in Hm. rewrite (arg_at_ok W g a i Hw Hi) in Hm. cbn [obind] in Hm. fold c in Hm.
      destruct (run_engine W a (f c)) as [[r e1]| | |]; try done. injection Hm as -> _. by eexists. }
    destruct (prune_ok W HW g PG a i ds Hw Hi G) as (ms1 & aa & Hpr & P1 & P2 & P3 & P4 & P5). fold c in Hpr, P2, P3, P4. rewrite Hpr. cbn [obind].
    set (R' := fun a' => R a' /\ class_of W (ag a' i) = c).
    assert (Hok' : okr R') by (by apply okr_and).
    assert (HU' : uniform R' (ds_argnums ds)) by (eapply uniform_mono; [|exact HU]; by intros a' [? _]).
    assert (Hsub : exists e' ds', (if aa || negb (is_absent (f c)) then
            do ds2 <- consider W i (ag a i) (DS ms1 (ds_argnums ds) (ds_first ds) (ds_inapplicable ds) (ds_warnings ds)) ;
            walk W g a (f c) ds2
          else compute_subdiscriminator (S n) W g a i (ag a i) c
            (DS ms1 (ds_argnums ds) (ds_first ds) (ds_inapplicable ds) (ds_warnings ds))) = Val (e', ds') /\
          finishes R' (i :: ds_argnums ds) a ds e' ds').
    { destruct (aa || negb (is_absent (f c))) eqn:E.
      - destruct (consider_ok W HW g PG a i ds ms1 Hw Hi G) as (ds2 & -> & G2 & F1 & F2); [intros m Hm1; by eapply rem_MS, P1|done|].
        cbn [obind]. eapply (Hchild (f c) (IH c)); try done.
        destruct (Hf c) as [Ef|Hc]; [|done]. rewrite Ef in E |- *. cbn in E. rewrite orb_false_r in E. cbn.
        apply (uniform_flat W HW g PG) with (c := c); try done; [by intros a' [_ ?]|].
        intros a' m [Ha' _] Hm1. destruct (HU a a' Ha Ha') as [Er _]. rewrite <- Er in Hm1.
        destruct (P2 m Hm1) as [H1|H1]; [left; by apply P4|by right].
      - apply (sub_ok W HW g PG); try done; [apply (compute_more_ok W HW g PG)|by intros a' [_ ?]|lia]. }
    destruct Hsub as (e' & ds' & -> & Hfin). cbn [obind]. eexists _, _. split; [reflexivity|].
    eapply finishes_wrap; [exact Hfin|done|..].
    + cbn [DispRunProofs.Inv]. split; [done|]. split; [done|]. intros c'. destruct (decide (c' = c)) as [->|Hne].
      * right. rewrite fupdate_eq. apply Hfin.
      * rewrite fupdate_ne by done. apply Hf.
    + intros r e1 Hr. cbn [run_engine]. rewrite (arg_at_ok W g a i) by auto. cbn [obind]. fold c. rewrite fupdate_eq, Hr. cbn. eauto.
  - destruct HI as (Hi & Hd & Hf). cbn [walk]. rewrite (arg_at_ok W g a i Hw Hi). cbn [obind].
    destruct (consider_plain W HW g PG a i ds Hw Hi G) as (ds1 & -> & G1 & F1 & F2). cbn [obind].
    destruct (Hd a Ha) as [d E]. rewrite E.
    assert (Hm' : exists e', run_engine W a (f d) = Val (Miss, e')).
    { destruct Hm as [e' Hm]. cbn [run_engine] in Hm. rewrite (arg_at_ok W g a i Hw Hi) in Hm. cbn [obind] in Hm. rewrite E in Hm.
      destruct (run_engine W a (f d)) as [[r e1]| | |]; try done. injection Hm as -> _. by eexists. }
    destruct (Hchild (f d) (IH d) (fun a' => R a' /\ ag a' i = OClass d) i ds ds1) as (e' & ds' & -> & Hfin); try done; [by apply okr_and|].
    cbn [obind]. eexists _, _. split; [reflexivity|]. eapply finishes_wrap; [exact Hfin|done|..].
    + cbn [DispRunProofs.Inv]. split; [done|]. split; [done|]. intros d'. destruct (decide (d' = d)) as [->|Hne].
      * rewrite fupdate_eq. apply Hfin.
      * rewrite fupdate_ne by done. apply Hf.
    + intros r e1 Hr. cbn [run_engine]. rewrite (arg_at_ok W g a i) by auto. cbn [obind]. rewrite E, fupdate_eq, Hr. cbn. eauto.
  - destruct HI as (Hi & Ht & H1 & H2). cbn [walk]. rewrite (arg_at_ok W g a i Hw Hi). cbn [obind].
    destruct (consider_plain W HW g PG a i ds Hw Hi G) as (ds1 & -> & G1 & F1 & F2). cbn [obind].
    assert (Hinst : instance W (ag a i) t = Val (instb W (ag a i) t)) by (apply (instance_b W HW); [by apply (ag_wf W g)|done]).
    rewrite Hinst. cbn [obind]. destruct Hm as [e' Hm]. cbn [run_engine] in Hm.
    rewrite (arg_at_ok W g a i Hw Hi) in Hm. cbn [obind] in Hm. rewrite Hinst in Hm. cbn [obind] in Hm.
    destruct (instb W (ag a i) t) eqn:Eb.
    + assert (Hm' : exists e', run_engine W a e1 = Val (Miss, e')).
      { destruct (run_engine W a e1) as [[r e3]| | |]; try done. injection Hm as -> _. by eexists. }
      destruct (Hchild e1 IH1 (fun a' => R a' /\ instb W (ag a' i) t = true) i ds ds1) as (e3 & ds' & -> & Hfin); try done; [by apply okr_and|].
      cbn [obind]. eexists _, _. split; [reflexivity|]. eapply finishes_wrap; [exact Hfin|done|..].
      * cbn [DispRunProofs.Inv]. split; [done|]. split; [done|]. split; [apply Hfin|done].
      * intros r e4 Hr. cbn [run_engine]. rewrite (arg_at_ok W g a i) by auto. cbn [obind]. rewrite Hinst. cbn [obind]. rewrite Hr. cbn. eauto.
    + assert (Hm' : exists e', run_engine W a e2 = Val (Miss, e')).
      { destruct (run_engine W a e2) as [[r e3]| | |]; try done. injection Hm as -> _. by eexists. }
      destruct (Hchild e2 IH2 (fun a' => R a' /\ instb W (ag a' i) t = false) i ds ds1) as (e3 & ds' & -> & Hfin); try done; [by apply okr_and|].
      cbn [obind]. eexists _, _. split; [reflexivity|]. eapply finishes_wrap; [exact Hfin|done|..].
      * cbn [DispRunProofs.Inv]. split; [done|]. split; [done|]. split; [done|apply Hfin].
      * intros r e4 Hr. cbn [run_engine]. rewrite (arg_at_ok W g a i) by auto. cbn [obind]. rewrite Hinst. cbn [obind]. rewrite Hr. cbn. eauto.
  - destruct HI as (Hi & Ht & H1 & H2). cbn [walk]. rewrite (arg_at_ok W g a i Hw Hi). cbn [obind].
    destruct (consider_plain W HW g PG a i ds Hw Hi G) as (ds1 & -> & G1 & F1 & F2). cbn [obind].
    assert (Hinst : instance W (ag a i) t = Val (instb W (ag a i) t)) by (apply (instance_b W HW); [by apply (ag_wf W g)|done]).
    rewrite Hinst. cbn [obind]. destruct Hm as [e' Hm]. cbn [run_engine] in Hm.
    rewrite (arg_at_ok W g a i Hw Hi) in Hm. cbn [obind] in Hm. rewrite Hinst in Hm. cbn [obind] in Hm.
    destruct (instb W (ag a i) t) eqn:Eb; [|done].
    assert (Hm' : exists e', run_engine W a e1 = Val (Miss, e')).
    { destruct (run_engine W a e1) as [[r e3]| | |]; try done. injection Hm as -> _. by eexists. }
    destruct (Hchild e1 IH (fun a' => R a' /\ instb W (ag a' i) t = true) i ds ds1) as (e3 & ds' & -> & Hfin); try done; [by apply okr_and|].
    cbn [obind]. eexists _, _. split; [reflexivity|]. eapply finishes_wrap; [exact Hfin|done|..].
    + cbn [DispRunProofs.Inv]. split; [done|]. split; [done|]. split; [apply Hfin|done].
    + intros r e4 Hr. cbn [run_engine]. rewrite (arg_at_ok W g a i) by auto. cbn [obind]. rewrite Hinst. cbn [obind]. rewrite Hr. cbn. eauto.
  - destruct HI as (Hi & Hx & Hk & H1 & H2). cbn [walk]. rewrite (arg_at_ok W g a i Hw Hi). cbn [obind].
    destruct (consider_plain W HW g PG a i ds Hw Hi G) as (ds1 & -> & G1 & F1 & F2). cbn [obind].
    destruct Hm as [e' Hm]. cbn [run_engine] in Hm. rewrite (arg_at_ok W g a i Hw Hi) in Hm. cbn [obind] in Hm.
    destruct (singleton_lookup_ok W vo keys index (ag a i) Hx) as ([j|] & El & Hr); rewrite El in Hm |- *; cbn [obind] in Hm |- *.
    + destruct Hr as (k & Hkj & Hh).
      assert (Hkin : k ∈ keys) by (by eapply elem_of_list_lookup_2).
      assert (Hm' : exists e', run_engine W a (f j) = Val (Miss, e')).
      { destruct (run_engine W a (f j)) as [[r e3]| | |]; try done. injection Hm as -> _. by eexists. }
      destruct (Hchild (f j) (IH j) (fun a' => R a' /\ key_hit W vo k (ag a' i) = true) i ds ds1) as (e3 & ds' & -> & Hfin);
        try done; [by apply okr_and|by apply H1|]. cbn [obind].
      assert (Hxk : same_object W (ag a i) k) by (by apply (Hk k Hkin)).
      destruct (setter_position_ok W (ag a i) keys 0) as (j' & k' & -> & Hj' & Hs'); [intros k' Hk'; by apply Hk|eauto|].
      assert (Hk'in : k' ∈ keys) by (by eapply elem_of_list_lookup_2).
      cbn [obind]. eexists _, _. split; [reflexivity|]. eapply finishes_wrap; [exact Hfin|done|..].
      * cbn [DispRunProofs.Inv]. split; [done|]. split; [by eapply lookup_lt_Some|]. split; [done|]. split; [|done].
        intros j2 k2 Hj2. destruct (decide (j2 = 0 + j')) as [->|Hne].
        -- rewrite fupdate_eq. cbn in Hj2. assert (k2 = k') as -> by congruence.
           eapply Inv_mono; [|apply Hfin]. cbn. intros a' [Ha' Hh']. split; [done|]. apply (Hk k Hkin); [done|].
           apply (Hk k' Hk'in) in Hh'; [|done]. eapply same_object_trans; [exact Hh'|].
           eapply same_object_trans; [apply same_object_sym; exact Hs'|done].
        -- rewrite fupdate_ne by done. by apply H1.
      * intros r e4 Hr. cbn [run_engine]. rewrite (arg_at_ok W g a i) by auto. cbn [obind].
        rewrite (singleton_lookup_hit W vo keys (0 + j') k') by (try done; by apply (Hk k' Hk'in)). cbn [obind]. rewrite fupdate_eq, Hr. cbn. eauto.
    + assert (Hm' : exists e', run_engine W a d = Val (Miss, e')).
      { destruct (run_engine W a d) as [[r e3]| | |]; try done. injection Hm as -> _. by eexists. }
      destruct (Hchild d IHd (fun a' => R a' /\ forall k, k ∈ keys -> key_hit W vo k (ag a' i) = false) i ds ds1) as (e3 & ds' & -> & Hfin);
        try done; [by apply okr_and|]. cbn [obind].
      eexists _, _. split; [reflexivity|]. eapply finishes_wrap; [exact Hfin|done|..].
      * cbn [DispRunProofs.Inv]. split; [done|]. split; [done|]. split; [done|]. split; [done|apply Hfin].
      * intros r e4 Hr'. cbn [run_engine]. rewrite (arg_at_ok W g a i) by auto. cbn [obind].
        rewrite singleton_lookup_miss by done. cbn [obind]. rewrite Hr'. cbn. eauto.
Qed.

(** ** Calls *)

Definition engine_ok (e : engine) : Prop := Inv (wf_args W g) [] e.
Lemma engine_ok_start : engine_ok EAbsent.
Proof. apply uniform_nil. Qed.

Lemma call_ok fuel a e : wf_args W g a -> engine_ok e ->
  exists t ws0 ws e', call (S (S fuel)) W g e a = Val (Called ws t, e') /\ engine_ok e' /\
    term a = Val (t, ws0) /\ (ws = [] \/ ws = rev ws0) /\ (e = EAbsent -> ws = rev ws0) /\
    (exists t' e'', run_engine W a e' = Val (t', e'') /\ (t <> None -> t' <> Miss)).
Proof.
  intros Ha He. assert (Hok : okr (wf_args W g)) by (by intros ?).
  destruct (run_engine_ok W HW g a e _ [] Hok Ha He) as (r & e1 & Hr & He1 & Hl & Habs & e1' & Hr1).
  cbn [call]. rewrite Hr. cbn [obind]. destruct r as [t| |].
  - destruct Hl as [ws0 Ht]. exists (Some t), ws0, [], e1. split; [done|]. split; [done|]. split; [done|]. split; [by left|].
    split; [intros ->; done|]. eexists _, _. split; [exact Hr1|done].
  - exists None, [], [], e1. split; [done|]. split; [done|]. split; [by apply term_nil|]. split; [by left|]. split; [done|].
    eexists _, _. split; [exact Hr1|done].
  - destruct (walk_ok a e1 (wf_args W g) (DS MS [] (g_first g) false []) Hok Ha He1) as (e2 & ds & -> & He2 & t & ws & Ht & Hw & Hn & Hs).
    { constructor; cbn; try done.
      - unfold DispEngineProofs.rem. symmetry. by apply filter_true.
      - constructor.
      - intros i Hi. by apply elem_of_nil in Hi.
      - apply PG. }
    { by eexists. }
    cbn in Hw. rewrite app_nil_r in Hw. cbn [obind]. destruct t as [t|].
    + destruct (Hs t eq_refl) as [-> [e3 Hr3]]. rewrite Hr3. cbn [obind].
      destruct (run_engine_ok W HW g a e2 _ [] Hok Ha He2) as (r & e3' & Hr3' & He3 & _ & _ & e4 & Hr4).
      rewrite Hr3 in Hr3'. injection Hr3' as <- <-.
      exists (Some t), ws, (rev (ds_warnings ds) ++ []), e3. split; [done|]. split; [done|]. split; [done|].
      rewrite app_nil_r, Hw. split; [by right|]. split; [done|]. eexists _, _. split; [exact Hr4|done].
    + rewrite (Hn eq_refl). exists None, ws, (rev (ds_warnings ds)), e2. split; [done|]. split; [done|]. split; [done|].
      rewrite Hw. split; [by right|]. split; [done|].
      destruct (run_engine_ok W HW g a e2 _ [] Hok Ha He2) as (r & e3 & Hr3 & _). eexists _, _. split; [exact Hr3|done].
Qed.
End gf.

(** ** Histories *)
Section history.
Context (W : world) (HW : wf_world W) (n : nat) (ALL : list meth) (PM : plain_methods W n ALL).

Lemma plain_gf_sub g : g_nreq g = n -> (forall m, m ∈ g_methods g -> m ∈ ALL) -> NoDup (g_methods g) ->
  (forall i, i ∈ g_first g -> i < n) -> plain_gf W g.
Proof.
  intros Hn Hsub Hnd Hf. destruct PM as [[M1 M2] _ M4].
  assert (HS : forall i t, specializers_at (g_methods g) i t -> specializers_at ALL i t).
  { intros i t (m & Hm & Ht). exists m. auto. }
  constructor; rewrite ?Hn; try done.
  - split; [apply Forall_forall; intros m Hm; rewrite Forall_forall in M1; auto|].
    intros i. destruct (M2 i) as [H|H]; [left|right]; eauto.
  - intros i. destruct (M4 i) as (P1 & P2 & P3 & P4). split; [eauto|]. split; [|split].
    + intros t t' k u H1 H2. by apply P2; apply HS.
    + intros t t' mn mx mn' mx' H1 H2. by apply P3; apply HS.
    + intros t t' c k ident v H1 H2. by apply P4; apply HS.
Qed.

Lemma all_length m : m ∈ ALL -> length (m_specs m) = n.
Proof. destruct PM as [[M1 _] _ _]. rewrite Forall_forall in M1. intros Hm. apply (M1 m Hm). Qed.
Lemma all_comparable m1 m2 i t1 t2 : m1 ∈ ALL -> m2 ∈ ALL -> m_specs m1 !! i = Some t1 -> m_specs m2 !! i = Some t2 ->
  comparable W t1 t2.
Proof.
  intros H1 H2 E1 E2. destruct PM as [[M1 M2] _ _]. rewrite Forall_forall in M1.
  assert (Hs : forall m t, m ∈ ALL -> m_specs m !! i = Some t -> wf_specializer W t).
  { intros m t Hm Ht. destruct (M1 m Hm) as [_ Hf]. by eapply Forall_lookup_1. }
  split; [eauto|]. split; [eauto|]. destruct (M2 i) as [H|H]; [left|right]; (split; apply H; [by exists m1|by exists m2]).
Qed.

Lemma same_type_sym t1 t2 : same_type W t1 t2 -> same_type W t2 t1.
Proof. intros [->|(a & b & -> & -> & H)]; [by left|]. right. exists b, a. split; [done|]. split; [done|]. by apply same_object_sym. Qed.
Lemma same_type_trans t1 t2 t3 : same_type W t1 t2 -> same_type W t2 t3 -> same_type W t1 t3.
Proof.
  intros [->|(a & b & -> & -> & H)] H2; [done|]. destruct H2 as [<-|(a' & b' & [= <-] & -> & H')]; right; [by exists a, b|].
  exists a, b'. split; [done|]. split; [done|]. by eapply same_object_trans.
Qed.
Lemma same_specs_sym m1 m2 : same_specs W m1 m2 -> same_specs W m2 m1.
Proof. unfold same_specs. intros H. apply Forall2_flip. eapply Forall2_impl; [exact H|]. apply same_type_sym. Qed.
Lemma same_specs_trans m1 m2 m3 : same_specs W m1 m2 -> same_specs W m2 m3 -> same_specs W m1 m3.
Proof.
  unfold same_specs. revert m1 m2 m3. intros [? s1 ? ?] [? s2 ? ?] [? s3 ? ?]; cbn. intros H. revert s3.
  induction H as [|x y l k H1 H2 IH]; intros s3 H3; inversion H3; subst; constructor; [by eapply same_type_trans|auto].
Qed.

Lemma same_specializer_plain t0 t : comparable W t0 t -> nonunion t0 -> nonunion t ->
  exists b, same_specializer W t0 t = Val b /\ (b = true <-> same_type W t0 t).
Proof.
  intros Hc N0 N. destruct (same_specializer_ok W HW t0 t Hc) as (b & E & Hb). exists b. split; [done|]. split.
  - intros ->. destruct (Hb eq_refl) as (S1 & S2 & S3). destruct Hc as (W0 & W1 & _).
    destruct t0 as [c|o|a1 b1|mn mx|c]; try (by left); try done.
    + destruct S3 as [o' ->]. right. exists o, o'. split; [done|]. split; [done|]. cbn in S1. apply (simple_id_equal W) in S1; [done|apply W0].
    + destruct t as [c|o|a1 b1|mn' mx'|c]; try done. left. cbn in S1, S2.
      destruct S1 as [A1 A2], S2 as [B1 B2]. f_equal.
      * destruct mn as [m|], mn' as [m'|]; [|by destruct (B1 m eq_refl) as (? & ? & ?)|by destruct (A1 m' eq_refl) as (? & ? & ?)|done].
        destruct (A1 m' eq_refl) as (? & [= <-] & ?), (B1 m eq_refl) as (? & [= <-] & ?). f_equal; lia.
      * destruct mx as [m|], mx' as [m'|]; [|by destruct (B2 m eq_refl) as (? & ? & ?)|by destruct (A2 m' eq_refl) as (? & ? & ?)|done].
        destruct (A2 m' eq_refl) as (? & [= <-] & ?), (B2 m eq_refl) as (? & [= <-] & ?). f_equal; lia.
  - intros Hs. assert (same_specializer W t0 t = Val true) as E'; [|congruence]. destruct Hc as ((_ & W0 & _) & _).
    destruct Hs as [<-|(o1 & o2 & -> & -> & H)].
    + destruct t0 as [c|o|a1 b1|mn mx|c]; cbn; rewrite ?bool_decide_eq_true_2 by done; try done.
      * f_equal. apply (simple_id_equal W); [done|]. destruct (same_object_refl W o) as [?|(c & i & ->)]; [done|]. cbn in W0. tauto.
      * by rewrite Nat.eqb_refl.
    + cbn. f_equal. by apply (simple_id_equal W).
Qed.

Definition equivalent (m1 m2 : meth) : Prop :=
  forall args, Forall (wf_obj W) args -> applicable W m1 args <-> applicable W m2 args.

Lemma same_specializers_ok s1 s2 : Forall2 (comparable W) s1 s2 ->
  exists b, same_specializers W s1 s2 = Val b /\
    (b = true -> forall args, Forall (wf_obj W) args -> Forall2 (Inst W) args s1 <-> Forall2 (Inst W) args s2) /\
    (Forall nonunion s1 -> Forall nonunion s2 -> b = true <-> Forall2 (same_type W) s1 s2).
Proof.
  induction 1 as [|t1 t2 s1 s2 Hc Hs IH].
  - exists true. split; [done|]. split; [done|]. intros _ _. by split; [constructor|].
  - destruct IH as (b & Eb & B1 & B2). cbn [same_specializers].
    destruct (same_specializer_ok W HW t1 t2 Hc) as (b1 & E1 & H1). rewrite E1. unfold oand. cbn [obind].
    assert (HT : nonunion t1 -> nonunion t2 -> b1 = true <-> same_type W t1 t2).
    { intros N1 N2. destruct (same_specializer_plain t1 t2 Hc N1 N2) as (b' & E' & H'). congruence. }
    destruct b1.
    + rewrite Eb. exists b. split; [done|]. split.
      * intros -> args Ha. destruct (H1 eq_refl) as (S1 & S2 & _). destruct Hc as ((? & ? & ?) & (? & ? & ?) & _).
        split; intros HF; inversion HF; subst; inversion Ha; subst; constructor.
        -- by eapply (Sub_sound W t1 t2).
        -- by apply B1.
        -- by eapply (Sub_sound W t2 t1).
        -- by apply B1.
      * intros N1 N2. inversion N1; inversion N2; subst. rewrite Forall2_cons, B2 by done. specialize (HT ltac:(done) ltac:(done)). tauto.
    + exists false. split; [done|]. split; [done|]. intros N1 N2. inversion N1; inversion N2; subst. rewrite Forall2_cons.
      specialize (HT ltac:(done) ltac:(done)). split; [done|]. intros [H _]. by apply HT in H.
Qed.

Lemma methods_comparable m1 m2 : m1 ∈ ALL -> m2 ∈ ALL -> Forall2 (comparable W) (m_specs m1) (m_specs m2).
Proof.
  intros H1 H2. apply Forall2_same_length_lookup_2; [by rewrite !all_length|]. intros i t1 t2. by apply all_comparable.
Qed.

Lemma replace_ok ms m : (forall m', m' ∈ ms -> m' ∈ ALL) -> m ∈ ALL ->
  exists r, replace_method W ms m = Val r /\
    match r with
    | None => forall defs, (forall x, x ∈ m :: ms -> x ∈ defs) -> no_union_specializer defs ->
        forall m', m' ∈ ms -> ~ same_specs W m' m
    | Some ms' => exists l1 m' l2, ms = l1 ++ m' :: l2 /\ ms' = l1 ++ m :: l2 /\ equivalent m' m /\
        (forall defs, (forall x, x ∈ m :: ms -> x ∈ defs) -> no_union_specializer defs -> same_specs W m' m)
    end.
Proof.
  intros Hsub Hm. assert (HN : forall defs m', no_union_specializer defs -> m' ∈ defs -> Forall nonunion (m_specs m')).
  { intros defs m' H Hm'. apply Forall_forall. intros t Ht. specialize (H m' t Hm' Ht). by destruct t. }
  induction ms as [|m' ms IH]; cbn [replace_method].
  - exists None. split; [done|]. intros defs _ _ m' H. by apply elem_of_nil in H.
  - assert (Hm' : m' ∈ ALL) by (apply Hsub, elem_of_cons; auto).
    destruct (same_specializers_ok (m_specs m') (m_specs m)) as (b & -> & B1 & B2); [by apply methods_comparable|].
    cbn [obind]. destruct b.
    + eexists. split; [reflexivity|]. exists [], m', ms. split; [done|]. split; [done|]. split; [exact (B1 eq_refl)|].
      intros defs Hd H. apply B2; [apply (HN defs); [done|apply Hd; rewrite !elem_of_cons; auto]..|done].
    + destruct IH as (r & -> & Hr); [intros; apply Hsub, elem_of_cons; auto|]. cbn [obind]. eexists. split; [reflexivity|].
      destruct r as [ms'|]; cbn.
      * destruct Hr as (l1 & m1 & l2 & -> & -> & H1 & H2). exists (m' :: l1), m1, l2. split; [done|]. split; [done|]. split; [done|].
        intros defs Hd. apply H2. intros x Hx. apply Hd. rewrite elem_of_cons in Hx. rewrite !elem_of_cons. tauto.
      * intros defs Hd H m1 Hm1. apply elem_of_cons in Hm1 as [->|Hm1].
        -- intros HS. apply B2 in HS; [done|apply (HN defs); [done|apply Hd; rewrite !elem_of_cons; auto]..].
        -- apply (Hr defs); [|done..]. intros x Hx. apply Hd. rewrite elem_of_cons in Hx. rewrite !elem_of_cons. tauto.
Qed.

Lemma later_app defs d m m' : later defs m m' -> later (defs ++ d) m m'.
Proof. intros (d1 & d2 & -> & H). exists d1, (d2 ++ d). rewrite <- app_assoc. split; [done|]. apply elem_of_app; auto. Qed.
Lemma later_new defs m m' : m ∈ defs -> later (defs ++ [m']) m m'.
Proof.
  intros H. apply elem_of_list_split in H as (d1 & d2 & ->). exists d1, (d2 ++ [m']). rewrite <- app_assoc. split; [done|].
  apply elem_of_app. right. apply elem_of_list_singleton. done.
Qed.
Lemma later_snoc defs x m m' : NoDup (defs ++ [x]) -> m <> x -> later (defs ++ [x]) m m' -> m' = x \/ later defs m m'.
Proof.
  intros Hnd Hne (d1 & d2 & E & H). destruct (decide (m' = x)) as [->|Hx]; [by left|]. right.
  destruct (decide (d2 = [])) as [->|H2].
  - by apply elem_of_nil in H.
  - destruct (exists_last H2) as (d2' & y & ->). rewrite app_comm_cons, app_assoc in E. apply app_inj_tail in E as [-> ->].
    exists d1, d2'. split; [done|]. apply elem_of_app in H as [H|H]; [done|]. by apply elem_of_list_singleton in H.
Qed.
Lemma later_total defs a b : a ∈ defs -> b ∈ defs -> a <> b -> later defs a b \/ later defs b a.
Proof.
  intros Ha Hb Hne. apply elem_of_list_split in Ha as (d1 & d2 & ->).
  apply elem_of_app in Hb as [Hb|Hb].
  - right. apply elem_of_list_split in Hb as (e1 & e2 & ->). exists e1, (e2 ++ a :: d2). rewrite <- app_assoc. split; [done|].
    apply elem_of_app. right. apply elem_of_cons. auto.
  - apply elem_of_cons in Hb as [->|Hb]; [done|]. left. by exists d1, d2.
Qed.

Lemma in_force_nil : in_force W [] [].
Proof.
  constructor.
  - done.
  - constructor.
  - intros m H. by apply elem_of_nil in H.
  - intros _ m m' H. by apply elem_of_nil in H.
Qed.

Lemma in_force_add defs ms m r : (forall x, x ∈ defs ++ [m] -> x ∈ ALL) -> NoDup (defs ++ [m]) -> in_force W defs ms ->
  replace_method W ms m = Val r ->
  in_force W (defs ++ [m]) (match r with Some ms' => ms' | None => m :: ms end).
Proof.
  intros Hsub Hnd [F1 F2 F3 F4] Hr.
  assert (Hsub' : forall x, x ∈ defs -> x ∈ ALL) by (intros x Hx; apply Hsub, elem_of_app; auto).
  assert (HmA : m ∈ ALL) by (apply Hsub, elem_of_app; right; by apply elem_of_list_singleton).
  assert (Hmd : m ∉ defs). { intros Hm. apply NoDup_app in Hnd as (_ & H & _). apply (H m Hm). by apply elem_of_list_singleton. }
  assert (Hms : m ∉ ms) by auto.
  destruct (replace_ok ms m) as (r' & E & H); [by auto..|]. rewrite Hr in E. injection E as <-.
  assert (HU : no_union_specializer (defs ++ [m]) -> no_union_specializer defs).
  { intros Hu x t Hx. apply Hu. apply elem_of_app; auto. }
  assert (Hd : forall x, x ∈ m :: ms -> x ∈ defs ++ [m]).
  { intros x Hx. apply elem_of_app. apply elem_of_cons in Hx as [->|Hx]; [right; by apply elem_of_list_singleton|left; auto]. }
  assert (Hspec : forall a b, a ∈ ms -> no_union_specializer (defs ++ [m]) -> later (defs ++ [m]) a b -> b <> m -> ~ same_specs W a b).
  { intros a b Ha Hu Hl Hb. apply F4; [by apply HU|done|]. apply later_snoc in Hl as [?|?]; try done. intros ->. by apply Hms. }
  destruct r as [ms'|].
  - destruct H as (l1 & m' & l2 & -> & -> & Heq & Hss). constructor.
    + intros x Hx. apply elem_of_app in Hx as [Hx|Hx].
      * apply elem_of_app. left. apply F1, elem_of_app; auto.
      * apply elem_of_cons in Hx as [->|Hx]; apply elem_of_app; [right; by apply elem_of_list_singleton|].
        left. apply F1, elem_of_app. right. apply elem_of_cons; auto.
    + apply NoDup_app in F2 as (N1 & N2 & N3). apply NoDup_cons in N3 as [N3 N4]. apply NoDup_app. split; [done|]. split.
      * intros x Hx. rewrite elem_of_cons. intros [->|Hx'].
        -- apply Hms, elem_of_app; auto.
        -- apply (N2 x Hx), elem_of_cons; auto.
      * apply NoDup_cons. split; [|done]. intros Hm. apply Hms, elem_of_app. right. apply elem_of_cons; auto.
    + assert (Hm' : m' ∈ defs) by (apply F1, elem_of_app; right; apply elem_of_cons; auto).
      assert (Hin : forall x, x ∈ l1 ++ m' :: l2 -> x <> m' -> x ∈ l1 ++ m :: l2).
      { intros x Hx Hne. apply elem_of_app in Hx as [Hx|Hx]; apply elem_of_app; [by left|].
        apply elem_of_cons in Hx as [->|Hx]; [done|]. right. apply elem_of_cons; auto. }
      intros x Hx. apply elem_of_app in Hx as [Hx|Hx].
      2: { apply elem_of_list_singleton in Hx as ->. left. apply elem_of_app. right. apply elem_of_cons; auto. }
      assert (Hnew : m ∈ l1 ++ m :: l2) by (apply elem_of_app; right; apply elem_of_cons; auto).
      destruct (F3 x Hx) as [Hx'|(x' & Hx' & Hl & He)].
      * destruct (decide (x = m')) as [->|Hne]; [|left; by apply Hin]. right. exists m. split; [done|]. split; [by apply later_new|done].
      * right. destruct (decide (x' = m')) as [->|Hne].
        -- exists m. split; [done|]. split; [by apply later_new|]. intros args Ha. rewrite He by done. by apply Heq.
        -- exists x'. split; [by apply Hin|]. split; [by apply later_app|done].
    + intros Hu a b Ha Hl Hs. destruct (decide (a = m)) as [->|Hne].
      { destruct Hl as (d1 & d2 & E & Hb). destruct (decide (d2 = [])) as [->|H2]; [by apply elem_of_nil in Hb|].
        destruct (exists_last H2) as (d2' & y & ->). rewrite app_comm_cons, app_assoc in E. apply app_inj_tail in E as [-> <-].
        apply Hmd, elem_of_app. right. apply elem_of_cons; auto. }
      assert (Ha' : a ∈ l1 ++ m' :: l2).
      { apply elem_of_app in Ha as [Ha|Ha]; apply elem_of_app; [by left|]. right. apply elem_of_cons in Ha as [->|Ha]; [done|apply elem_of_cons; auto]. }
      destruct (decide (b = m)) as [->|Hb]; [|by apply (Hspec a b Ha' Hu Hl Hb)].
      assert (Ham : a <> m').
      { intros ->. apply NoDup_app in F2 as (_ & N2 & N3). apply NoDup_cons in N3 as [N3 _].
        apply elem_of_app in Ha as [Ha|Ha].
        - apply (N2 m' Ha). apply elem_of_cons; auto.
        - apply elem_of_cons in Ha as [->|Ha]; done. }
      assert (Hm' : m' ∈ l1 ++ m' :: l2) by (apply elem_of_app; right; apply elem_of_cons; auto).
      assert (HS : same_specs W a m').
      { eapply same_specs_trans; [exact Hs|]. apply same_specs_sym. by apply (Hss (defs ++ [m])). }
      destruct (later_total defs a m' (F1 a Ha') (F1 m' Hm') Ham) as [Hla|Hla].
      * by apply (F4 (HU Hu) a m').
      * apply (F4 (HU Hu) m' a); [done..|]. by apply same_specs_sym.
  - constructor.
    + intros x Hx. apply elem_of_cons in Hx as [->|Hx]; apply elem_of_app; [right; by apply elem_of_list_singleton|left; auto].
    + by apply NoDup_cons.
    + intros x Hx. apply elem_of_app in Hx as [Hx|Hx].
      2: { apply elem_of_list_singleton in Hx as ->. left. apply elem_of_cons; auto. }
      destruct (F3 x Hx) as [Hx'|(x' & Hx' & Hl & He)]; [left; apply elem_of_cons; auto|]. right. exists x'.
      split; [apply elem_of_cons; auto|]. split; [by apply later_app|done].
    + intros Hu a b Ha Hl Hs. apply elem_of_cons in Ha as [->|Ha].
      { destruct Hl as (d1 & d2 & E & Hb). destruct (decide (d2 = [])) as [->|H2]; [by apply elem_of_nil in Hb|].
        destruct (exists_last H2) as (d2' & y & ->). rewrite app_comm_cons, app_assoc in E. apply app_inj_tail in E as [-> <-].
        apply Hmd, elem_of_app. right. apply elem_of_cons; auto. }
      destruct (decide (b = m)) as [->|Hb]; [|by apply (Hspec a b Ha Hu Hl Hb)]. by apply (H (defs ++ [m]) Hd Hu a Ha).
Qed.

(** The generic function after a history, whatever the calls. *)
Definition gf_with (g : gfun) (ms : list meth) : gfun := Gf (g_nreq g) ms (g_keys g) (g_first g).

Lemma run_history_app g e evs1 evs2 :
  run_history W g e (evs1 ++ evs2) =
    let '(l1, g1, e1) := run_history W g e evs1 in
    let '(l2, g2, e2) := run_history W g1 e1 evs2 in (l1 ++ l2, g2, e2).
Proof.
  revert g e. induction evs1 as [|[args|m] evs1 IH]; intros g e; cbn [run_history app].
  - by destruct (run_history W g e evs2) as [[? ?] ?].
  - destruct (call call_fuel W g e args) as [[r e']| | |]; rewrite IH;
      match goal with |- context [run_history W ?g ?e evs1] => destruct (run_history W g e evs1) as [[l1 g1] e1] end;
      destruct (run_history W g1 e1 evs2) as [[l2 g2] e2]; done.
  - destruct (add_method W g m); apply IH.
Qed.

(** What the calls of a history answer, with [ms] the methods at the time. *)
Fixpoint final_methods (ms : list meth) (defs : list meth) : list meth :=
  match defs with
  | [] => ms
  | m :: defs => final_methods (match replace_method W ms m with Val (Some ms') => ms' | _ => m :: ms end) defs
  end.

Lemma history_ok g0 evs : forall defs ms e, g_nreq g0 = n -> (forall i, i ∈ g_first g0 -> i < n) ->
  defs ++ added evs = ALL -> in_force W defs ms ->
  (forall args, Call args ∈ evs -> wf_args W g0 args) -> engine_ok W (gf_with g0 ms) e ->
  exists l e', run_history W (gf_with g0 ms) e evs = (l, gf_with g0 (final_methods ms (added evs)), e') /\
    in_force W (defs ++ added evs) (final_methods ms (added evs)) /\
    engine_ok W (gf_with g0 (final_methods ms (added evs))) e' /\
    (forall evs' m, evs = evs' ++ [AddMethod m] -> e' = EAbsent).
Proof.
  induction evs as [|[args|m] evs IH]; intros defs ms e Hn Hf Hall HF Hc He; cbn [run_history added omap list_omap final_methods] in *.
  - rewrite app_nil_r. eexists _, _. split; [done|]. split; [done|]. split; [done|]. by intros [|? ?] ? ?.
  - assert (HP : plain_gf W (gf_with g0 ms)).
    { apply plain_gf_sub; try done; [|apply HF]. intros m Hm. rewrite <- Hall. apply elem_of_app. left. by apply HF. }
    destruct (call_ok W HW (gf_with g0 ms) HP 6 args e) as (t & ws0 & ws & e' & E & He' & _); [|done|].
    { apply Hc. apply elem_of_cons. auto. }
    unfold call_fuel. rewrite E.
    destruct (IH defs ms e') as (l & e'' & -> & HF' & He'' & Hlast); try done.
    { intros a Ha. apply Hc, elem_of_cons. auto. }
    fold (added evs). eexists _, _. split; [reflexivity|]. split; [done|]. split; [done|].
    intros [|ev evs'] m0 Heq; injection Heq as Heq1 Heq2; [done|]. by eapply Hlast.
  - fold (added evs) in *. assert (Hm : m ∈ ALL) by (rewrite <- Hall; apply elem_of_app; right; apply elem_of_cons; auto).
    assert (Hsub : forall x, x ∈ defs ++ [m] -> x ∈ ALL).
    { intros x Hx. rewrite <- Hall. apply elem_of_app in Hx as [Hx|Hx]; apply elem_of_app; [by left|].
      right. apply elem_of_list_singleton in Hx as ->. apply elem_of_cons. auto. }
    assert (Hnd : NoDup (defs ++ [m])).
    { pose proof (pm_nodup _ _ _ PM) as H. rewrite <- Hall in H. change (m :: added evs) with ([m] ++ added evs) in H.
      rewrite app_assoc in H. by apply NoDup_app in H as (H & _). }
    destruct (replace_ok ms m) as (r & E & _); [intros m' Hm'; apply Hsub, elem_of_app; left; by apply HF|done|].
    unfold add_method. cbn [g_methods gf_with g_nreq g_keys g_first]. rewrite E. cbn [obind].
    pose proof (in_force_add defs ms m r Hsub Hnd HF E) as HF'.
    fold (gf_with g0 (match r with Some ms0 => ms0 | None => m :: ms end)).
    replace (match r with Some ms' => ms' | None => m :: ms end) with (match r with Some ms' => ms' | _ => m :: ms end) by done.
    destruct (IH (defs ++ [m]) (match r with Some ms0 => ms0 | None => m :: ms end) EAbsent) as (l & e' & E2 & HF2 & He2 & Hlast); try done.
    { by rewrite <- app_assoc. }
    { intros a Ha. apply Hc, elem_of_cons. auto. }
    { apply engine_ok_start. }
    rewrite <- app_assoc in HF2. rewrite E2. eexists _, _. split; [reflexivity|]. split; [done|]. split; [done|].
    intros [|ev evs'] m' Heq; injection Heq as Heq1 Heq2; [|by eapply Hlast]. subst evs. cbn in E2. congruence.
Qed.
End history.
