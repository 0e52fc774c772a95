(** Building nodes of the dispatch engine. *)
From stdpp Require Import list_numbers.
From Verif Require Import Base ClassModel ClassSpec ClassProofs TypeModel TypeSpec TypeProofs
  DispModel DispSpec DispProofs DispSortProofs DispTermProofs DispUniformProofs DispClassProofs
  DispEngineProofs DispRunProofs.
From Coq Require Import ZifyBool ZifyNat.
Local Open Scope outcome_scope.
Local Open Scope nat_scope.

Section gf.
Context (W : world) (HW : wf_world W) (g : gfun) (PG : plain_gf W g).
Local Notation n := (g_nreq g).
Local Notation MS := (g_methods g).
Local Notation rem := (rem W g).
Local Notation uniform := (uniform W g).
Local Notation okr := (okr W g).
Local Notation Inv := (Inv W g).
Local Notation region := (list obj -> Prop).
Local Notation st := (w_classes W).
Local Notation T := (supers_table st).

(** ** [ponder] *)

Record PInv (i : nat) (c : cid) (seen : list meth) (p : pondered) : Prop := {
  pi_sec : p_secondary p = false -> forall m, m ∈ seen -> flat_on W c (spc m i);
  pi_all : p_all p = true -> forall m, m ∈ seen -> object_like W (spc m i);
  pi_some : p_some p = false -> forall m, m ∈ seen -> ~ object_like W (spc m i);
  pi_none : p_exception p = ExNone -> forall m, m ∈ seen -> object_like W (spc m i);
  pi_one : forall t, p_exception p = ExOne t -> (exists m, m ∈ seen /\ t = spc m i) /\
    forall m, m ∈ seen -> object_like W (spc m i) \/ ~ object_like W (spc m i) /\ elike W t (spc m i) }.

Lemma ponder_loop_ok i c : i < n -> c < length st -> forall ms seen p,
  (forall m, m ∈ ms -> m ∈ MS) -> (forall m, m ∈ seen -> m ∈ MS) -> PInv i c seen p ->
  exists p', ponder_loop W i c ms p = Val p' /\ PInv i c (seen ++ ms) p'.
Proof.
  intros Hi Hc. induction ms as [|m ms IH]; intros seen p Hms Hseen HP; cbn [ponder_loop].
  - exists p. by rewrite app_nil_r.
  - assert (Hm : m ∈ MS) by (apply Hms; by apply elem_of_cons; left).
    rewrite (spec_at_ok W g PG m i Hm Hi). cbn [obind].
    pose proof (spc_wf W g PG m i Hm Hi) as Wt.
    assert (Hsec : exists b, (if p_secondary p then Val true else secondary W (spc m i) c) = Val b /\
      (b = false -> p_secondary p = false /\ flat_on W c (spc m i))).
    { destruct (p_secondary p); [by exists true|]. destruct (secondary_ok W HW c (spc m i) Hc Wt) as (b & -> & Hb).
      exists b. split; [done|]. intros ->. auto. }
    destruct Hsec as (b & -> & Hb). cbn [obind].
    assert (Hsub : tells (subtype W (TClass object_class) (spc m i)) (object_like W (spc m i))).
    { apply (subtype_ok W HW); [apply object_wf; done|apply Wt|]. unfold unmixed2.
      destruct (pg_methods W g PG) as [_ Hu]. destruct (Hu i) as [H|H]; [left|right]; (split; [done|]); apply H; by apply (spc_at W g PG). }
    destruct Hsub as (o & -> & Ho). cbn [obind].
    assert (Hin : forall m', m' ∈ seen ++ [m] <-> m' ∈ seen \/ m' = m).
    { intros m'. by rewrite elem_of_app, elem_of_list_singleton. }
    assert (Hnext : forall p', PInv i c (seen ++ [m]) p' ->
      exists p'', ponder_loop W i c ms p' = Val p'' /\ PInv i c (seen ++ m :: ms) p'').
    { intros p' Hp'. replace (seen ++ m :: ms) with ((seen ++ [m]) ++ ms) by (by rewrite <- app_assoc). apply IH; [|..|done].
      - intros m' Hm'. apply Hms. apply elem_of_cons. auto.
      - intros m' [?| ->]%Hin; auto. }
    destruct HP as [P1 P2 P3 P4 P5]. destruct o.
    + assert (Hol : object_like W (spc m i)) by (by apply Ho). apply Hnext. constructor; cbn [p_secondary p_all p_some p_exception].
      * intros ->. destruct (Hb eq_refl) as [E F]. intros m' [?| ->]%Hin; auto.
      * intros E m' [?| ->]%Hin; auto.
      * done.
      * intros E m' [?| ->]%Hin; auto.
      * intros t E. destruct (P5 t E) as [(m0 & Hm0 & ->) H]. split; [exists m0; split; [apply Hin; auto|done]|].
        intros m' [?| ->]%Hin; auto.
    + assert (Hol : ~ object_like W (spc m i)). { intros H. apply Ho in H. done. }
      assert (Hex : exists ex, match p_exception p with
                 | ExNone => Val (ExOne (spc m i))
                 | ExMany => Val ExMany
                 | ExOne t0 => do same <- same_specializer W t0 (spc m i) ; Val (if (same : bool) then ExOne (spc m i) else ExMany)
                 end = Val ex /\ ex <> ExNone /\ (forall t, ex = ExOne t -> t = spc m i /\ forall m', m' ∈ seen ->
                     object_like W (spc m' i) \/ ~ object_like W (spc m' i) /\ elike W t (spc m' i))).
      { destruct (p_exception p) as [|t0|] eqn:E.
        - eexists. split; [reflexivity|]. split; [done|]. intros t [= <-]. split; [done|]. auto.
        - destruct (P5 t0 eq_refl) as [(m0 & Hm0 & ->) H].
          assert (W0 : wf_specializer W (spc m0 i)) by (apply (spc_wf W g PG); auto).
          destruct (same_specializer_ok W HW (spc m0 i) (spc m i)) as (b1 & -> & Hb1).
          { apply (spc_comparable W g PG); auto. }
          cbn [obind]. eexists. split; [reflexivity|]. destruct b1; [|done]. split; [done|]. intros t [= <-]. split; [done|].
          destruct (Hb1 eq_refl) as (S1 & S2 & S3). intros m' Hm'. destruct (H m' Hm') as [?|[? El]]; [by left|]. right. split; [done|].
          eapply (elike_step W (spc m0 i)); eauto. apply (spc_wf W g PG); auto.
        - eexists. split; [reflexivity|]. done. }
      destruct Hex as (ex & -> & Hne & Hone). cbn [obind]. apply Hnext. constructor; cbn [p_secondary p_all p_some p_exception].
      * intros ->. destruct (Hb eq_refl) as [E F]. intros m' [?| ->]%Hin; auto.
      * done.
      * intros E m' [?| ->]%Hin; auto.
      * done.
      * intros t E. destruct (Hone t E) as [-> H]. split; [exists m; split; [apply Hin; auto|done]|].
        intros m' [?| ->]%Hin; [auto|]. right. split; [done|]. by apply elike_refl.
Qed.
Lemma ponder_ok i c ms : i < n -> c < length st -> (forall m, m ∈ ms -> m ∈ MS) ->
  exists p, ponder W i c ms = Val p /\ PInv i c ms p.
Proof.
  intros Hi Hc Hms. apply (ponder_loop_ok i c Hi Hc ms []); [done|intros m Hm; by apply elem_of_nil in Hm|].
  constructor; cbn; try done; intros; try (by match goal with H : _ ∈ [] |- _ => apply elem_of_nil in H end).
Qed.

(** ** [prune] and [consider] *)

Lemma prune_loop_ok i c : i < n -> c < length st -> forall ms, (forall m, m ∈ ms -> m ∈ MS) ->
  exists P allall, prune_loop W i c ms = Val (List.filter P ms, allall) /\
    forall m, m ∈ ms -> (P m = false -> none_of W c (spc m i)) /\
      (P m = true -> forall d, TSubclass d ∈ atoms (spc m i) -> c = w_class W) /\
      (allall = true -> P m = true -> flat_on W c (spc m i)).
Proof.
  intros Hi Hc ms Hms.
  exists (fun m => match grounded_has_instances W c (spc m i) with Val (s, _) => s | _ => false end).
  induction ms as [|m ms IH]; cbn [prune_loop].
  - exists true. split; [done|]. intros m Hm. by apply elem_of_nil in Hm.
  - assert (Hm : m ∈ MS) by (apply Hms; by apply elem_of_cons; left).
    rewrite (spec_at_ok W g PG m i Hm Hi). cbn [obind].
    pose proof (spc_wf W g PG m i Hm Hi) as Wt.
    destruct (grounded_ok W HW c (spc m i) Hc (proj1 Wt)) as (some & all & Hg & Hn & Ha & Hcov).
    destruct IH as (aa & -> & IH); [intros m' ?; apply Hms; apply elem_of_cons; auto|].
    rewrite Hg. cbn [obind]. cbn [List.filter]. rewrite Hg.
    exists (if some then all && aa else aa). split; [by destruct some|].
    intros m' [->|Hm']%elem_of_cons.
    + rewrite Hg. split; [done|]. split.
      * intros -> d Hd. rewrite (plain_subclass W (spc m i) d) in Hg; [|by apply (spc_plain W g PG)|done].
        cbn in Hg. destruct (sub_ok W HW c (w_class W) Hc (ww_class W HW)) as (b & Eb & Hb). rewrite Eb in Hg. cbn in Hg.
        injection Hg as -> _. apply (ww_class_leaf W HW). by apply Hb.
      * intros H ->. apply andb_true_iff in H as [-> _].
        eapply (covered_flat W HW c (spc m i) true); [done|done|by apply (spc_plain W g PG)|done|done].
    + destruct (IH m' Hm') as (I1 & I2 & I3). split; [done|]. split; [done|].
      intros H. apply I3. destruct some; [by apply andb_true_iff in H as [_ ?]|done].
Qed.

Lemma filter_instances_ok i x ms : i < n -> wf_obj W x -> (forall m, m ∈ ms -> m ∈ MS) ->
  filter_instances W i x ms = Val (List.filter (fun m => instb W x (spc m i)) ms).
Proof.
  intros Hi Hx. induction ms as [|m ms IH]; intros Hms; cbn [filter_instances List.filter]; [done|].
  assert (Hm : m ∈ MS) by (apply Hms; by apply elem_of_cons; left).
  rewrite (spec_at_ok W g PG m i Hm Hi). cbn [obind].
  rewrite (instance_b W HW) by (try done; apply (spc_wf W g PG m i Hm Hi)). cbn [obind].
  rewrite IH by (intros m' ?; apply Hms; apply elem_of_cons; auto). done.
Qed.

(** ** Sorts of the specializers of several methods *)

Lemma ponder_specializers_ok i c : i < n -> c < length st -> forall ms s, (forall m, m ∈ ms -> m ∈ MS) ->
  exists s', ponder_specializers W i c ms s = Val s' /\ sorts_le c s s' /\
    (forall m u, m ∈ ms -> u ∈ atoms (spc m i) -> sorts_has W c s' u) /\
    sorts_from W c (fun u => exists m, m ∈ ms /\ u ∈ atoms (spc m i)) s s'.
Proof.
  intros Hi Hc. induction ms as [|m ms IH]; intros s Hms; cbn [ponder_specializers].
  - exists s. split; [done|]. split; [apply sorts_le_refl|]. split; [|constructor; auto].
    intros m u Hm. by apply elem_of_nil in Hm.
  - assert (Hm : m ∈ MS) by (apply Hms; by apply elem_of_cons; left).
    rewrite (spec_at_ok W g PG m i Hm Hi). cbn [obind].
    destruct (ponder_specializer_ok W HW c (spc m i) s Hc (proj1 (spc_wf W g PG m i Hm Hi))) as (s1 & -> & L1 & H1 & F1).
    cbn [obind]. destruct (IH s1) as (s2 & -> & L2 & H2 & F2); [intros m' ?; apply Hms; apply elem_of_cons; auto|].
    exists s2. split; [done|]. split; [by eapply sorts_le_trans|]. split.
    + intros m' u [->|Hm']%elem_of_cons Hu; [|by eapply H2]. eapply sorts_has_le; [done|]. by apply H1.
    + eapply sorts_from_trans; (eapply sorts_from_weaken; [|eassumption]); cbn.
      * intros u Hu. exists m. split; [by apply elem_of_cons; left|done].
      * intros u (m' & Hm' & Hu). exists m'. split; [by apply elem_of_cons; right|done].
Qed.

(** ** Keys *)

Lemma id_equal_key x k : simple_obj W k -> id_equal W x k = true <-> same_object W x k.
Proof.
  intros Hk. split.
  - intros H. destruct (same_object_refl W x) as [Hr|(c & id & ->)]; [by eapply id_equal_same|].
    exfalso. unfold id_equal in H. rewrite orb_true_iff, pointer_id_true in H. destruct H as [<-|H]; [by apply Hk|].
    rewrite !andb_true_iff in H. destruct H as [[_ Hv] He]. destruct k; cbn in He, Hv; try done.
    + unfold value_class in Hv. destruct (w_equality W c); done.
  - intros H. assert (Hx : simple_obj W x).
    { destruct x, k; cbn in *; try done; try congruence. destruct H as [<- H], Hk as [Hk1 Hk2]. split; [done|].
      destruct (w_equality W c); [destruct H as [_ ->]; done|destruct H as (? & -> & _); done..]. }
    by apply simple_id_equal.
Qed.
Lemma id_equal_key' k x : simple_obj W k -> id_equal W k x = true <-> same_object W x k.
Proof.
  intros Hk. rewrite simple_id_equal by done. split; apply same_object_sym.
Qed.

Lemma key_hit_ok c k0 k x : wf_obj W k0 -> wf_obj W k -> wf_obj W x -> simple_obj W k0 -> simple_obj W k ->
  class_of W k0 = c -> class_of W k = c -> class_of W x = c ->
  (forall c1 z id v, k0 = ODirect c1 z -> k <> OOther c1 id v) -> (forall c1 z id v, k = ODirect c1 z -> k0 <> OOther c1 id v) ->
  key_hit W (is_value_object W k0) k x = true <-> same_object W x k.
Proof.
  intros W0 Wk Wx S0 Sk C0 Ck Cx N1 N2. unfold key_hit.
  assert (Hv : is_value_object W k0 = match k with OOther c' _ _ => value_class W c' | _ => false end).
  { destruct k0 as [z0|c0 z0|c0|c0 id0 v0], k as [z|c1 z|c1|c1 id v]; cbn in *; subst; try done; try tauto.
    - by edestruct N1.
    - by edestruct N2. }
  rewrite Hv. clear Hv N1 N2. rewrite <- Cx in Ck.
  destruct k as [z|c1 z|c1|c1 id v]; try (rewrite pointer_id_true; destruct x; cbn; split; congruence).
  destruct (value_class W c1) eqn:E; unfold value_class in E.
  - destruct x as [z'|c' z'|c'|c' id' v']; cbn in Ck, Wx, Wk |- *; subst; try tauto.
    + rewrite bool_decide_true by done. cbn. rewrite pointer_id_true. split; done.
    + rewrite bool_decide_true by done. cbn. destruct (w_equality W c'); try done. rewrite value_equal_true.
      split; [intros (m & -> & ->)|intros (_ & m & -> & ->)]; eauto.
  - rewrite pointer_id_true. destruct x as [z'|c' z'|c'|c' id' v']; cbn in Ck, Wx, Wk |- *; subst; try (split; done).
    cbn in Sk. destruct (w_equality W c'); try done; [|tauto]. split; [intros [= -> ->]|intros (_ & -> & ->)]; done.
Qed.

Lemma member_id_ok x l : (forall k, k ∈ l -> simple_obj W k) ->
  member_id W x l = true <-> exists k, k ∈ l /\ same_object W x k.
Proof.
  induction l as [|k l IH]; cbn; intros H.
  - split; [done|]. intros (k & Hk & _). by apply elem_of_nil in Hk.
  - rewrite orb_true_iff, IH, (id_equal_key x k). 3: intros; apply H, elem_of_cons; auto.
    2: apply H, elem_of_cons; auto.
    split.
    + intros [Hs|(k' & Hk' & Hs)]; [exists k|exists k']; (split; [apply elem_of_cons; auto|done]).
    + intros (k' & [->|Hk']%elem_of_cons & Hs); [by left|right; eauto].
Qed.
Lemma setter_position_ok x l : forall p, (forall k, k ∈ l -> simple_obj W k) -> (exists k, k ∈ l /\ same_object W x k) ->
  exists j k, setter_position W l x p = Val (p + j) /\ l !! j = Some k /\ same_object W x k.
Proof.
  induction l as [|k l IH]; cbn; intros p H (k' & Hk' & Hs); [by apply elem_of_nil in Hk'|].
  destruct (id_equal W k x) eqn:E.
  - exists 0, k. rewrite Nat.add_0_r. split; [done|]. split; [done|]. apply id_equal_key'; [|done]. apply H, elem_of_cons; auto.
  - apply elem_of_cons in Hk' as [->|Hk'].
    + apply id_equal_key' in Hs; [congruence|]. apply H, elem_of_cons; auto.
    + destruct (IH (S p)) as (j & k1 & -> & Hj & H1); [intros; apply H, elem_of_cons; auto|eauto|].
      exists (S j), k1. split; [f_equal; lia|]. done.
Qed.

(** ** [default_loop] *)

Lemma subsumed_ok t l : wf_ty W t -> no_subclass t -> (forall t', t' ∈ l -> wf_ty W t' /\ no_subclass t') ->
  exists b, subsumed W t l = Val b /\ (b = true -> exists t', t' ∈ l /\ subtype W t t' = Val true).
Proof.
  intros Ht Nt. induction l as [|t' l IH]; cbn; intros H; [by exists false|].
  destruct (H t') as [Ht' Nt']; [apply elem_of_cons; auto|].
  destruct (subtype_ok W HW t t' Ht Ht') as (b & E & _); [by right|]. rewrite E. unfold oor. cbn. destruct b.
  - exists true. split; [done|]. intros _. exists t'. split; [apply elem_of_cons; auto|done].
  - destruct IH as (b & -> & Hb); [intros; apply H, elem_of_cons; auto|]. exists b. split; [done|]. intros Hbt.
    destruct (Hb Hbt) as (t1 & H1 & E1). exists t1. split; [apply elem_of_cons; auto|done].
Qed.

Lemma subtype_inst t t' x : wf_obj W x -> wf_ty W t -> wf_ty W t' -> no_subclass t -> no_subclass t' ->
  no_subclass_class W t' -> subtype W t t' = Val true -> Inst W x t -> Inst W x t'.
Proof.
  intros Hx Ht Ht' Nt Nt' Nc E. apply (Sub_sound W); [done|done|]. eapply tells_true; [|exact E].
  apply (subtype_ok W HW); [done|done|by right].
Qed.

Definition limint (t : ty) : Prop := wf_ty W t /\ exists mn mx, t = TLimInt mn mx.

Lemma default_loop_ok i x S a : i < n -> x = ag a i -> wf_obj W x -> forall specs tl fl nextd (R : region), okr R ->
  (forall t, t ∈ specs ++ tl ++ fl -> limint t) ->
  (forall t t', t ∈ specs -> t' ∈ specs ++ tl -> subtype W t t' = Val true -> subtype W t' t = Val true) ->
  (forall a' t, R a' -> t ∈ tl -> instb W (ag a' i) t = true) ->
  (forall a' t, R a' -> t ∈ fl -> instb W (ag a' i) t = false) ->
  (forall R' : region, (forall a', R' a' -> R a') ->
     (forall a1 a2 t, R' a1 -> R' a2 -> t ∈ specs -> instb W (ag a1 i) t = instb W (ag a2 i) t) -> uniform R' (i :: S)) ->
  (nextd = EAbsent \/ Inv (fun a' => R a' /\ forall t, t ∈ specs -> instb W (ag a' i) t = instb W x t) (i :: S) nextd) ->
  exists e, default_loop W i x specs tl fl nextd = Val e /\ Inv R (i :: S) e /\
    (R a -> forall r e1, run_engine W a nextd = Val (r, e1) -> exists e2, run_engine W a e = Val (r, e2)).
Proof.
  intros Hi Ex Hx. induction specs as [|t specs IH]; intros tl fl nextd R Hok HL HN HT HF HU HNx; cbn [default_loop].
  - exists nextd. split; [done|]. split; [|eauto]. destruct HNx as [->|H].
    + apply HU; [done|]. intros a1 a2 t _ _ Ht. by apply elem_of_nil in Ht.
    + eapply Inv_mono; [|exact H]. cbn. intros a' Ha'. split; [done|]. intros t Ht. by apply elem_of_nil in Ht.
  - assert (Lt : limint t) by (apply HL; cbn; apply elem_of_cons; auto).
    destruct Lt as [Wt (mn & mx & Et)].
    assert (Nt : no_subclass t) by (by subst t). assert (Nc : no_subclass_class W t) by (by subst t).
    assert (Hwa : forall a', R a' -> wf_obj W (ag a' i)) by (intros a' Ha'; apply (ag_wf W g); auto).
    assert (Hb : (if is_absent nextd then Val (nextd, nextd)
       else do b <- instance W x t ; Val (if (b : bool) then (nextd, EAbsent) else (EAbsent, nextd))) =
       Val (if is_absent nextd then (nextd, nextd) else if instb W x t then (nextd, EAbsent) else (EAbsent, nextd))).
    { destruct (is_absent nextd); [done|]. rewrite (instance_b W HW) by done. done. }
    rewrite Hb. clear Hb. cbn [obind].
    set (thend := if is_absent nextd then nextd else if instb W x t then nextd else EAbsent).
    set (elsed := if is_absent nextd then nextd else if instb W x t then EAbsent else nextd).
    replace (if is_absent nextd then (nextd, nextd) else if instb W x t then (nextd, EAbsent) else (EAbsent, nextd))
      with (thend, elsed) by (subst thend elsed; destruct (is_absent nextd), (instb W x t); done).
    cbn [obind].
    assert (Habs : forall e : engine, is_absent e = true -> e = EAbsent) by (by intros []).
    (* what the branches know *)
    assert (HNt : forall R' : region, (forall a', R' a' -> R a' /\ instb W (ag a' i) t = true) ->
       thend = EAbsent \/ Inv (fun a' => R' a' /\ forall t0, t0 ∈ specs -> instb W (ag a' i) t0 = instb W x t0) (i :: S) thend).
    { intros R' HR'. subst thend. destruct (is_absent nextd) eqn:E; [left; by apply Habs|].
      destruct (instb W x t) eqn:Eb; [|by left]. destruct HNx as [->|H]; [by left|]. right. eapply Inv_mono; [|exact H]. cbn.
      intros a' [Ha' Hs]. destruct (HR' a' Ha') as [Hr Ht]. split; [done|]. intros t0 [->|H0]%elem_of_cons; [congruence|auto]. }
    assert (HNe : forall R' : region, (forall a', R' a' -> R a' /\ instb W (ag a' i) t = false) ->
       elsed = EAbsent \/ Inv (fun a' => R' a' /\ forall t0, t0 ∈ specs -> instb W (ag a' i) t0 = instb W x t0) (i :: S) elsed).
    { intros R' HR'. subst elsed. destruct (is_absent nextd) eqn:E; [left; by apply Habs|].
      destruct (instb W x t) eqn:Eb; [by left|]. destruct HNx as [->|H]; [by left|]. right. eapply Inv_mono; [|exact H]. cbn.
      intros a' [Ha' Hs]. destruct (HR' a' Ha') as [Hr Ht]. split; [done|]. intros t0 [->|H0]%elem_of_cons; [congruence|auto]. }
    assert (HUb : forall b (R0 : region), (forall a', R0 a' -> R a' /\ instb W (ag a' i) t = b) ->
       forall R' : region, (forall a', R' a' -> R0 a') ->
       (forall a1 a2 t0, R' a1 -> R' a2 -> t0 ∈ specs -> instb W (ag a1 i) t0 = instb W (ag a2 i) t0) -> uniform R' (i :: S)).
    { intros b R0 HR0 R' HR' Hag. apply HU; [intros a' Ha'; apply HR0; auto|].
      intros a1 a2 t0 H1 H2 [->|H0]%elem_of_cons; [|by apply Hag].
      destruct (HR0 a1 (HR' a1 H1)) as [_ E1], (HR0 a2 (HR' a2 H2)) as [_ E2]. congruence. }
    assert (HL' : forall t0, t0 ∈ specs ++ tl ++ fl -> limint t0) by (intros; apply HL; cbn; apply elem_of_cons; auto).
    assert (Hsubs : forall l, (forall t0, t0 ∈ l -> t0 ∈ tl ++ fl) ->
       exists b, subsumed W t l = Val b /\ (b = true -> exists t', t' ∈ l /\ subtype W t t' = Val true)).
    { intros l Hl. apply subsumed_ok; [done|done|]. intros t' Ht'. destruct (HL' t') as [H1 (? & ? & ->)]; [|done].
      rewrite elem_of_app. right. auto. }
    assert (HN' : forall t0 t', t0 ∈ specs -> t' ∈ specs ++ tl -> subtype W t0 t' = Val true -> subtype W t' t0 = Val true).
    { intros t0 t' H0 H'. apply HN; [by apply elem_of_cons; right|cbn; by apply elem_of_cons; right]. }
    assert (Hrun : forall b, instb W (ag a i) t = b -> forall r e1, run_engine W a nextd = Val (r, e1) ->
        exists e2, run_engine W a (if b then thend else elsed) = Val (r, e2)).
    { intros b Eb r e1 Hr. subst thend elsed. rewrite <- Ex in Eb. rewrite Eb. destruct (is_absent nextd), b; eauto. }
    destruct (Hsubs tl) as (b1 & -> & Hb1); [intros; apply elem_of_app; auto|]. cbn [obind]. destruct b1.
    { destruct (Hb1 eq_refl) as (t' & Ht' & E1).
      assert (E2 : subtype W t' t = Val true).
      { apply HN; [by apply elem_of_cons; left|cbn; apply elem_of_cons; right; apply elem_of_app; auto|done]. }
      destruct (HL' t') as [W' (mn' & mx' & E')]; [rewrite !elem_of_app; auto|].
      assert (HA : forall a', R a' -> instb W (ag a' i) t = true).
      { intros a' Ha'. rewrite (instb_true W HW) by auto. eapply (subtype_inst t' t); auto; [by subst t'|].
        rewrite <- (instb_true W HW) by auto. by apply HT. }
      destruct (IH tl fl thend R) as (e & -> & HI & Hr); auto.
      { intros R' HR' Hag. apply (HUb true R); auto. }
      exists e. split; [done|]. split; [done|]. intros Ha r e1 He1.
      destruct (Hrun true (HA a Ha) r e1 He1) as [e2 He2]. by eapply Hr. }
    destruct (Hsubs fl) as (b2 & -> & Hb2); [intros; apply elem_of_app; auto|]. cbn [obind]. destruct b2.
    { destruct (Hb2 eq_refl) as (t' & Ht' & E1).
      destruct (HL' t') as [W' (mn' & mx' & E')]; [rewrite !elem_of_app; auto|].
      assert (HA : forall a', R a' -> instb W (ag a' i) t = false).
      { intros a' Ha'. destruct (instb W (ag a' i) t) eqn:E; [|done]. rewrite (instb_true W HW) in E by auto.
        rewrite <- (HF a' t') by auto. symmetry.
        apply (instb_true W HW); auto. eapply (subtype_inst t t'); auto; by subst t'. }
      destruct (IH tl fl elsed R) as (e & -> & HI & Hr); auto.
      { intros R' HR' Hag. apply (HUb false R); auto. }
      exists e. split; [done|]. split; [done|]. intros Ha r e1 He1.
      destruct (Hrun false (HA a Ha) r e1 He1) as [e2 He2]. by eapply Hr. }
    destruct (IH (t :: tl) fl thend (fun a' => R a' /\ instb W (ag a' i) t = true)) as (e1 & -> & HI1 & Hr1).
    { by apply okr_and. }
    { intros t0. rewrite !elem_of_app, elem_of_cons. intros [?|[[->|?]|?]]; apply HL; cbn; rewrite ?elem_of_cons, ?elem_of_app; auto. }
    { intros t0 t'. rewrite elem_of_app, elem_of_cons. intros H0 H'. apply HN; [by apply elem_of_cons; right|].
      cbn. rewrite elem_of_cons, elem_of_app. tauto. }
    { intros a' t0 [Ha' Ht] [->|H0]%elem_of_cons; auto. }
    { intros a' t0 [Ha' Ht]. auto. }
    { apply (HUb true). auto. }
    { apply HNt. auto. }
    cbn [obind].
    destruct (IH tl (t :: fl) elsed (fun a' => R a' /\ instb W (ag a' i) t = false)) as (e2 & -> & HI2 & Hr2).
    { by apply okr_and. }
    { intros t0. rewrite !elem_of_app, elem_of_cons. intros [?|[?|[->|?]]]; apply HL; cbn; rewrite ?elem_of_cons, ?elem_of_app; auto. }
    { done. }
    { intros a' t0 [Ha' Ht]. auto. }
    { intros a' t0 [Ha' Ht] [->|H0]%elem_of_cons; auto. }
    { apply (HUb false). auto. }
    { apply HNe. auto. }
    cbn [obind]. eexists. split; [reflexivity|]. split.
    + cbn [DispRunProofs.Inv]. split; [done|]. split; [done|].
      split; eapply Inv_ext; try eassumption; intros j; rewrite !elem_of_cons; tauto.
    + intros Ha r e' He'. cbn [run_engine]. rewrite (arg_at_ok W g a i) by auto. cbn [obind].
      rewrite (instance_b W HW) by auto. cbn [obind].
      destruct (instb W (ag a i) t) eqn:Eb; destruct (Hrun _ eq_refl r e' He') as [e'' He''].
      * destruct (Hr1 (conj Ha eq_refl) r e'' He'') as [e3 ->]. cbn. eauto.
      * destruct (Hr2 (conj Ha eq_refl) r e'' He'') as [e3 ->]. cbn. eauto.
Qed.

(** ** The subdiscriminator of one class *)

Section build.
Context (R : region) (S : list nat) (i : nat) (c : cid) (a : list obj) (ms1 : list meth) (s : sorts).
Context (Hok : okr R) (Hi : i < n) (Hc : forall a', R a' -> class_of W (ag a' i) = c) (HU : uniform R S) (Ha : R a).
Context (Hms : forall m, m ∈ rem S a -> m ∈ ms1 \/ none_of W c (spc m i)).
Context (Hms1 : forall m, m ∈ ms1 -> m ∈ MS).
Context (Hcls : forall m d, m ∈ ms1 -> TSubclass d ∈ atoms (spc m i) -> c = w_class W).
Context (Hhas : forall m u, m ∈ ms1 -> u ∈ atoms (spc m i) -> sorts_has W c s u).
Context (Hfrom : sorts_from W c (fun u => exists m, m ∈ ms1 /\ u ∈ atoms (spc m i)) (Sorts false [] []) s).

Lemma arg_wf a' : R a' -> wf_obj W (ag a' i).
Proof. intros H. apply (ag_wf W g); auto. Qed.

Lemma uniform_sorts (R' : region) : (forall a', R' a' -> R a') -> so_subclass s = false ->
  (forall a1 a2 o, R' a1 -> R' a2 -> o ∈ so_singletons s -> same_object W (ag a1 i) o -> same_object W (ag a2 i) o) ->
  (forall a1 a2 t, R' a1 -> R' a2 -> t ∈ so_others s -> instb W (ag a1 i) t = instb W (ag a2 i) t) ->
  uniform R' (i :: S).
Proof.
  intros HR Hsub Hsing Hoth. apply (uniform_atoms W HW g PG); [intros a' ?; auto|done|by eapply uniform_mono|].
  intros a1 a2 H1 H2. pose proof (arg_wf a1 (HR a1 H1)) as W1. pose proof (arg_wf a2 (HR a2 H2)) as W2.
  pose proof (Hc a1 (HR a1 H1)) as C1. pose proof (Hc a2 (HR a2 H2)) as C2. split; [congruence|].
  intros m Hm. destruct (HU a a1 Ha (HR a1 H1)) as [E _]. rewrite <- E in Hm.
  destruct (Hms m Hm) as [Hm1|Hn]; [|right; split; by apply Hn]. left.
  assert (HmM : m ∈ MS) by auto. pose proof (spc_wf W g PG m i HmM Hi) as Wm. split.
  - intros u Hu. pose proof (Hhas m u Hm1 Hu) as Hs. pose proof (atoms_wf W _ _ Wm Hu) as Wu.
    pose proof (atoms_nonunion _ _ Hu) as Nu.
    destruct u as [d|o|? ?|mn mx|d]; cbn [sorts_has] in Hs; try done.
    + cbn [Inst]. by rewrite C1, C2.
    + cbn [Inst]. destruct (decide (class_of W o = c)) as [Eo|Eo].
      * specialize (Hs Eo). split; by apply Hsing.
      * split; intros Hx; apply same_object_class in Hx; congruence.
    + destruct (decide (c = w_integer W)) as [Ec|Ec].
      * specialize (Hoth a1 a2 _ H1 H2 (Hs Ec)). rewrite <- !(instb_true W HW) by (try done; apply Wu). by rewrite Hoth.
      * split; intros (z & Hz & _); [rewrite Hz in C1|rewrite Hz in C2]; cbn in *; congruence.
    + congruence.
  - intros d Hd. specialize (Hhas m _ Hm1 Hd). cbn in Hhas. congruence.
Qed.

Lemma single_ok k : k ∈ so_singletons s -> wf_obj W k /\ simple_obj W k /\ class_of W k = c /\
  exists t, specializers_at MS i t /\ TSing k ∈ atoms t.
Proof.
  intros Hk. destruct (sf_singles _ _ _ _ _ Hfrom k Hk) as [H|[Hcl (m & Hm & Ht)]]; [by apply elem_of_nil in H|].
  pose proof (spc_wf W g PG m i (Hms1 m Hm) Hi) as Wm. destruct (atoms_wf W _ _ Wm Ht) as (H1 & H2 & _).
  split; [done|]. split; [done|]. split; [done|]. exists (spc m i). split; [apply (spc_at W g PG); auto|done].
Qed.
Lemma other_ok t : t ∈ so_others s -> limint t /\ exists t', specializers_at MS i t' /\ t ∈ atoms t'.
Proof.
  intros Hk. destruct (sf_others _ _ _ _ _ Hfrom t Hk) as [H|[(m & Hm & Ht) Hl]]; [by apply elem_of_nil in H|].
  pose proof (spc_wf W g PG m i (Hms1 m Hm) Hi) as Wm. split; [split; [apply (atoms_wf W _ _ Wm Ht)|done]|].
  exists (spc m i). split; [apply (spc_at W g PG); auto|done].
Qed.
Lemma single_hit k0 k a' : k0 ∈ so_singletons s -> k ∈ so_singletons s -> R a' ->
  key_hit W (is_value_object W k0) k (ag a' i) = true <-> same_object W (ag a' i) k.
Proof.
  intros H0 Hk Ha'. destruct (single_ok k0 H0) as (W0 & S0 & C0 & t0 & A0 & B0).
  destruct (single_ok k Hk) as (W1 & S1 & C1 & t1 & A1 & B1).
  destruct (pg_plain W g PG i) as (_ & _ & _ & Hp).
  apply (key_hit_ok c); auto using arg_wf.
  - intros c1 z id v -> ->. by eapply (Hp t0 t1).
  - intros c1 z id v -> ->. by eapply (Hp t1 t0).
Qed.
Lemma others_out a' t : so_singletons s <> [] -> R a' -> t ∈ so_others s -> instb W (ag a' i) t = false.
Proof.
  intros Hs Ha' Ht. destruct (other_ok t Ht) as ([Wt (mn & mx & ->)] & t1 & A1 & B1).
  destruct (instb W (ag a' i) (TLimInt mn mx)) eqn:E; [|done]. exfalso.
  apply (instb_true W HW) in E as (z & Ez & _); [|by apply arg_wf|done].
  pose proof (Hc a' Ha') as Cc. rewrite Ez in Cc. cbn in Cc.
  destruct (so_singletons s) as [|k ks] eqn:Ek; [done|].
  destruct (single_ok k) as (W0 & S0 & C0 & t0 & A0 & B0); [rewrite Ek; by apply elem_of_cons; left|].
  assert (exists z, k = OInt z) as [z' ->].
  { destruct k as [z'|c' z'|c'|c' id v]; cbn in C0, W0; [eauto|..]; exfalso; subst; try tauto.
    by apply (ww_different W HW). }
  destruct (pg_plain W g PG i) as (_ & Hp & _). by apply (Hp t0 t1 z' (TLimInt mn mx)).
Qed.

Lemma build_ok : exists Q : region, (forall a', Q a' -> R a') /\ Q a /\ uniform Q (i :: S) /\
  forall nextd, Inv Q (i :: S) nextd -> exists e, build_subdiscriminator W i (ag a i) c s nextd = Val e /\ Inv R (i :: S) e /\
    forall r e1, run_engine W a nextd = Val (r, e1) -> exists e2, run_engine W a e = Val (r, e2).
Proof.
  pose proof (class_of_lt W HW _ (arg_wf a Ha)) as Hlt. rewrite (Hc a Ha) in Hlt.
  assert (HII : forall e (R0 : region), Inv R0 (i :: S) e -> Inv R0 (i :: i :: S) e).
  { intros e R0. apply Inv_ext. intros j. rewrite !elem_of_cons. tauto. }
  assert (Huu : forall R0 : region, uniform R0 (i :: S) -> uniform R0 (i :: i :: S)).
  { intros R0. apply uniform_ext. intros j. rewrite !elem_of_cons. tauto. }
  (* an argument that is a class *)
  assert (Hclass : c = w_class W -> exists Q : region, (forall a', Q a' -> R a') /\ Q a /\ uniform Q (i :: S) /\
    forall nextd, Inv Q (i :: S) nextd -> exists e,
      (match ag a i with
       | OClass d => Val (EBySingletonClass i (fupdate absent_table d nextd))
       | _ => Signal "type-error"
       end) = Val e /\ Inv R (i :: S) e /\
      forall r e1, run_engine W a nextd = Val (r, e1) -> exists e2, run_engine W a e = Val (r, e2)).
  { intros Ec. assert (HC : forall a', R a' -> exists d, ag a' i = OClass d).
    { intros a' Ha'. apply (is_class W HW); [by apply arg_wf|]. rewrite (Hc a' Ha'), Ec. apply inherits_refl.
      rewrite supers_table_length. apply HW. }
    destruct (HC a Ha) as [d Ed]. exists (fun a' => R a' /\ ag a' i = OClass d).
    split; [by intros a' [? _]|]. split; [done|].
    assert (HS : forall d', uniform (fun a' => R a' /\ ag a' i = OClass d') (i :: S)).
    { intros d'. apply uniform_same; [|intros a1 a2 [_ ->] [_ ->]; done]. eapply uniform_mono; [|exact HU]. by intros a' [? _]. }
    split; [done|]. intros nextd Hn. rewrite Ed. eexists. split; [reflexivity|]. split.
    - cbn [DispRunProofs.Inv]. split; [done|]. split; [done|]. intros d'. destruct (decide (d' = d)) as [->|Hne].
      + rewrite fupdate_eq. by apply HII.
      + rewrite fupdate_ne by done. unfold absent_table. cbn. by apply Huu.
    - intros r e1 Hr. cbn [run_engine]. rewrite (arg_at_ok W g a i) by auto. cbn [obind]. rewrite Ed, fupdate_eq, Hr. cbn. eauto. }
  unfold build_subdiscriminator. destruct (so_subclass s) eqn:Es.
  { cbn [obind]. apply Hclass. destruct (sf_subclass _ _ _ _ _ Hfrom Es) as [H|(d & m & Hm & Hd)]; [done|]. by eapply Hcls. }
  pose proof single_ok as SO. pose proof single_hit as SH. pose proof others_out as OO. pose proof (uniform_sorts) as US.
  assert (Hdef : forall R0 : region, (forall a', R0 a' -> R a') -> R0 a ->
     (forall a1 a2 o, R0 a1 -> R0 a2 -> o ∈ so_singletons s -> same_object W (ag a1 i) o -> same_object W (ag a2 i) o) ->
     forall nextd, Inv (fun a' => R0 a' /\ forall t, t ∈ so_others s -> instb W (ag a' i) t = instb W (ag a i) t) (i :: S) nextd ->
     exists e, default_subdiscriminator W i (ag a i) (so_others s) nextd = Val e /\ Inv R0 (i :: S) e /\
       forall r e1, run_engine W a nextd = Val (r, e1) -> exists e2, run_engine W a e = Val (r, e2)).
  { intros R0 HR0 Ha0 Hs0 nextd Hn. unfold default_subdiscriminator.
    destruct (default_loop_ok i (ag a i) S a Hi eq_refl (arg_wf a Ha) (so_others s) [] [] nextd R0) as (e & He & HI & Hr).
    - intros a' ?. auto.
    - intros t. rewrite app_nil_r. intros Ht. by apply other_ok.
    - intros t t' Ht. rewrite app_nil_r. intros Ht' Hsub. destruct (pg_plain W g PG i) as (_ & _ & Hp & _).
      destruct (other_ok t Ht) as ([_ (mn & mx & ->)] & t1 & A1 & B1).
      destruct (other_ok t' Ht') as ([_ (mn' & mx' & ->)] & t1' & A1' & B1'). by eapply (Hp t1 t1').
    - intros a' t _ Ht. by apply elem_of_nil in Ht.
    - intros a' t _ Ht. by apply elem_of_nil in Ht.
    - intros R' HR' Hag. apply US; [auto|done| |done]. intros a1 a2 o H1 H2. apply Hs0; auto.
    - by right.
    - exists e. split; [done|]. split; [done|]. by apply Hr. }
  destruct (so_singletons s) as [|k0 ks] eqn:Ek.
  { cbn [obind]. exists (fun a' => R a' /\ forall t, t ∈ so_others s -> instb W (ag a' i) t = instb W (ag a i) t).
    split; [by intros a' [? _]|]. split; [done|]. split.
    - apply US; [by intros a' [? _]|done|..].
      + intros a1 a2 o _ _ Ho. by apply elem_of_nil in Ho.
      + intros a1 a2 t [_ H1] [_ H2] Ht. by rewrite H1, H2.
    - intros nextd Hn. apply Hdef; [done|done| |done]. intros a1 a2 o _ _ Ho. by apply elem_of_nil in Ho. }
  destruct (sub_ok W HW c (w_class W) Hlt (ww_class W HW)) as (b & -> & Hb). cbn [obind]. destruct b.
  { apply Hclass. apply (ww_class_leaf W HW). by apply Hb. }
  rewrite <- Ek in *. assert (H0 : k0 ∈ so_singletons s) by (rewrite Ek; by apply elem_of_cons; left).
  set (keys := so_singletons s) in *. set (vo := is_value_object W k0) in *.
  assert (Hne : keys <> []) by (rewrite Ek; done).
  assert (Hsimple : forall k, k ∈ keys -> simple_obj W k) by (intros k Hk; apply (SO k Hk)).
  assert (Hkeys : forall k, k ∈ keys -> simple_obj W k /\
     forall a', R a' -> key_hit W vo k (ag a' i) = true <-> same_object W (ag a' i) k).
  { intros k Hk. split; [auto|]. intros a' Ha'. by apply SH. }
  assert (Hoth : forall R' : region, (forall a', R' a' -> R a') -> forall a1 a2 t, R' a1 -> R' a2 -> t ∈ so_others s ->
     instb W (ag a1 i) t = instb W (ag a2 i) t).
  { intros R' HR' a1 a2 t H1 H2 Ht. rewrite !OO; auto. }
  assert (Hhit : forall k, k ∈ keys -> uniform (fun a' => R a' /\ key_hit W vo k (ag a' i) = true) (i :: S)).
  { intros k Hk. apply US; [by intros a' [? _]|done| |apply Hoth; by intros a' [? _]].
    intros a1 a2 o [R1 H1] [R2 H2] Ho Hs. apply SH in H1; [|done..]. apply SH in H2; [|done..].
    eapply same_object_trans; [exact H2|]. eapply same_object_trans; [apply same_object_sym; exact H1|done]. }
  assert (Hmiss : uniform (fun a' => R a' /\ forall k, k ∈ keys -> key_hit W vo k (ag a' i) = false) (i :: S)).
  { apply US; [by intros a' [? _]|done| |apply Hoth; by intros a' [? _]].
    intros a1 a2 o [R1 H1] [R2 H2] Ho Hs. apply (SH k0 o a1) in Hs; [|done..]. fold vo in Hs. rewrite H1 in Hs by done. done. }
  destruct (member_id W (ag a i) keys) eqn:Em.
  - apply member_id_ok in Em; [|done]. destruct (setter_position_ok (ag a i) keys 0 Hsimple Em) as (j & k & -> & Hj & Hs).
    assert (Hk : k ∈ keys) by (by eapply elem_of_list_lookup_2).
    assert (Hkh : key_hit W vo k (ag a i) = true) by (by apply SH).
    exists (fun a' => R a' /\ key_hit W vo k (ag a' i) = true). split; [by intros a' [? _]|]. split; [done|]. split; [by apply Hhit|].
    intros nextd Hn. cbn [obind]. eexists. split; [reflexivity|]. split.
    + cbn [DispRunProofs.Inv]. split; [done|]. split; [by eapply lookup_lt_Some|]. split; [done|]. split; [|by apply Huu].
      intros j' k' Hj'. destruct (decide (j' = 0 + j)) as [->|Hnj].
      * rewrite fupdate_eq. cbn in Hj'. assert (k' = k) as -> by congruence. by apply HII.
      * rewrite fupdate_ne by done. unfold absent_table. cbn. apply Huu, Hhit. by eapply elem_of_list_lookup_2.
    + intros r e1 Hr. cbn [run_engine]. rewrite (arg_at_ok W g a i) by auto. cbn [obind].
      rewrite (singleton_lookup_hit W vo keys (0 + j) k) by done. cbn [obind]. rewrite fupdate_eq, Hr. cbn. eauto.
  - assert (Hno : forall k, k ∈ keys -> key_hit W vo k (ag a i) = false).
    { intros k Hk. destruct (key_hit W vo k (ag a i)) eqn:E; [|done]. apply SH in E; [|done..].
      assert (member_id W (ag a i) keys = true); [|congruence]. apply member_id_ok; eauto. }
    set (R0 := fun a' => R a' /\ forall k, k ∈ keys -> key_hit W vo k (ag a' i) = false) in *.
    exists (fun a' => R0 a' /\ forall t, t ∈ so_others s -> instb W (ag a' i) t = instb W (ag a i) t).
    split; [by intros a' [[? _] _]|]. split; [done|]. split; [eapply uniform_mono; [|exact Hmiss]; by intros a' [? _]|].
    intros nextd Hn. destruct (Hdef R0) with (nextd := nextd) as (e & -> & HI & Hr); [by intros a' [? _]|done| |done|].
    { intros a1 a2 o [R1 H1] [R2 H2] Ho Hs. apply (SH k0 o a1) in Hs; [|done..]. fold vo in Hs. rewrite H1 in Hs by done. done. }
    cbn [obind]. eexists. split; [reflexivity|]. split.
    + cbn [DispRunProofs.Inv]. split; [done|]. split; [rewrite Ek; cbn; lia|]. split; [done|]. split; [|by apply HII].
      intros j' k' Hj'. unfold absent_table. cbn. apply Huu, Hhit. by eapply elem_of_list_lookup_2.
    + intros r e1 Hr1. cbn [run_engine]. rewrite (arg_at_ok W g a i) by auto. cbn [obind].
      rewrite singleton_lookup_miss; [|rewrite Ek; cbn; lia|done]. cbn [obind].
      destruct (Hr r e1 Hr1) as [e2 ->]. cbn. eauto.
Qed.
End build.
End gf.
