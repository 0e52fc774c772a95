(** Extending the dispatch engine, and calling a generic function. *)
From stdpp Require Import list_numbers.
From Verif Require Import Base ClassModel ClassSpec ClassProofs TypeModel TypeSpec TypeProofs
  DispModel DispSpec DispProofs DispSortProofs DispTermProofs DispUniformProofs DispClassProofs
  DispEngineProofs DispRunProofs DispBuildProofs.
From Coq Require Import ZifyBool ZifyNat.
Local Open Scope outcome_scope.
Local Open Scope nat_scope.

(** ** Same comparisons at every position *)

Lemma order_loops_same W : forall s1 s2 a a', length s2 = length s1 -> length a = length s1 -> length a' = length s1 ->
  (forall i x x' t1 t2, a !! i = Some x -> a' !! i = Some x' -> s1 !! i = Some t1 -> s2 !! i = Some t2 -> osame W x x' t1 t2) ->
  (forall state, order_methods_loop W s1 s2 a state = order_methods_loop W s1 s2 a' state) /\
  (forall amb, order_methods_desperately_loop W s1 s2 a amb = order_methods_desperately_loop W s1 s2 a' amb).
Proof.
  induction s1 as [|t1 s1 IH]; intros [|t2 s2] [|x a] [|x' a'] L1 L2 L3 H; try done; cbn in L1, L2, L3.
  destruct (H 0 x x' t1 t2) as [H1 H2]; [done..|].
  destruct (IH s2 a a') as [IH1 IH2]; [lia..|intros i; apply (H (S i))|].
  split.
  - intros state. cbn [order_methods_loop].
    destruct (order_specializers W t1 t2 x) as [[o ?]| | |], (order_specializers W t1 t2 x') as [[o' ?]| | |];
      cbn in H1; try done. injection H1 as <-. cbn [obind]. by rewrite !IH1.
  - intros amb. cbn [order_methods_desperately_loop]. rewrite H2.
    destruct (order_position W t1 t2 x') as [[]| | |]; cbn [obind]; [done|done|apply IH2|apply IH2|done|done|done].
Qed.

Lemma filter_filter {A} (P Q : A -> bool) l : (forall x, x ∈ l -> P x = false -> Q x = false) ->
  List.filter Q (List.filter P l) = List.filter Q l.
Proof.
  induction l as [|x l IH]; intros H; cbn; [done|].
  rewrite <- IH by (intros y Hy; apply H; by apply elem_of_cons; right).
  destruct (P x) eqn:E; cbn; [done|]. rewrite (H x); [done|by apply elem_of_cons; left|done].
Qed.

Lemma filter_true {A} (P : A -> bool) l : (forall x, x ∈ l -> P x = true) -> List.filter P l = l.
Proof.
  induction l as [|x l IH]; intros H; cbn; [done|]. rewrite (H x), IH; [done| |by apply elem_of_cons; left].
  intros y Hy. apply H. by apply elem_of_cons; right.
Qed.

Section gf.
Context (W : world) (HW : wf_world W) (g : gfun) (PG : plain_gf W g).
Local Notation n := (g_nreq g).
Local Notation MS := (g_methods g).
Local Notation rem := (rem W g).
Local Notation uniform := (uniform W g).
Local Notation okr := (okr W g).
Local Notation Inv := (Inv W g).
Local Notation term := (term W g).
Local Notation region := (list obj -> Prop).
Local Notation st := (w_classes W).

Lemma term_same R S a a' : okr R -> uniform R S -> (forall i, i ∈ S <-> i < n) -> R a -> R a' -> term a = term a'.
Proof.
  intros Hok U HS Ha Ha'. destruct (U a a' Ha Ha') as [E O].
  assert (HS' : forall i, i ∈ S <-> i ∈ seq 0 n) by (intros i; rewrite HS, elem_of_seq; lia).
  rewrite !(rem_ext W g S (seq 0 n) _ HS') in E. unfold DispRunProofs.term. rewrite <- E.
  apply compute_terminal_ext. intros m1 m2 M1 M2. rewrite <- (rem_ext W g S (seq 0 n) _ HS') in M1, M2.
  pose proof (rem_MS W g _ _ _ M1) as G1. pose proof (rem_MS W g _ _ _ M2) as G2.
  destruct (pg_methods W g PG) as [Hw _]. rewrite Forall_forall in Hw.
  destruct (Hw m1 G1) as [L1 _], (Hw m2 G2) as [L2 _]. destruct (Hok a Ha) as [La _], (Hok a' Ha') as [La' _].
  destruct (order_loops_same W (m_specs m1) (m_specs m2) a a') as [H1 H2]; [lia..| |split; [apply H1|apply H2]].
  intros i x x' t1 t2 Hx Hx' Ht1 Ht2.
  assert (Hi : i < n) by (apply lookup_lt_Some in Hx; lia).
  rewrite (ag_lookup W g a i) in Hx by auto. rewrite (ag_lookup W g a' i) in Hx' by auto.
  rewrite (spc_lookup W g PG m1 i) in Ht1 by auto. rewrite (spc_lookup W g PG m2 i) in Ht2 by auto.
  injection Hx as <-. injection Hx' as <-. injection Ht1 as <-. injection Ht2 as <-.
  apply O; [by apply HS|done|done].
Qed.

(** The methods left at the end are those that apply. *)
Lemma rem_all_applicable a m : wf_args W g a -> m ∈ rem (seq 0 n) a <-> m ∈ MS /\ applicable W m a.
Proof.
  intros Ha. rewrite rem_in.
  enough (m ∈ MS -> (forall i, i ∈ seq 0 n -> instb W (ag a i) (spc m i) = true) <-> applicable W m a) by tauto. intros Hm.
  destruct (pg_methods W g PG) as [Hw _]. rewrite Forall_forall in Hw. destruct (Hw m Hm) as [Lm Sm].
  unfold applicable. rewrite Forall2_lookup_iff by (rewrite Lm; apply Ha). split.
  - intros H i x t Hx Ht. assert (Hi : i < n) by (apply lookup_lt_Some in Ht; lia).
    rewrite (ag_lookup W g a i) in Hx by auto. rewrite (spc_lookup W g PG m i) in Ht by auto.
    injection Hx as <-. injection Ht as <-. apply (instb_true W HW); [by apply (ag_wf W g)|apply (spc_wf W g PG); auto|].
    apply H. apply elem_of_seq. lia.
  - intros H i Hi%elem_of_seq. apply (instb_true W HW); [apply (ag_wf W g); [done|lia]|apply (spc_wf W g PG); [done|lia]|].
    apply (H i); [apply (ag_lookup W g); [done|lia]|apply (spc_lookup W g PG); [done|lia]].
Qed.
Lemma rem_nodup S a : NoDup (rem S a).
Proof. unfold DispEngineProofs.rem. apply NoDup_ListNoDup, List.NoDup_filter, NoDup_ListNoDup, PG. Qed.

Lemma term_ok a : wf_args W g a -> exists t ws, term a = Val (t, ws) /\
  runs W a (rem (seq 0 n) a) (call_keywords g (rem (seq 0 n) a)) t ws /\ (t = None <-> rem (seq 0 n) a = []).
Proof.
  intros Ha. apply (compute_terminal_ok W HW); [|apply rem_nodup].
  intros m1 m2 M1 M2. apply (rem_all_applicable a) in M1 as [M1 A1], M2 as [M2 A2]; [|done..].
  apply (ready_of W n MS); try done; [apply PG|apply Ha|apply Ha].
Qed.
Lemma term_nil a : wf_args W g a -> rem (seq 0 n) a = [] -> term a = Val (None, []).
Proof. intros Ha E. unfold DispRunProofs.term. rewrite E. done. Qed.

(** Positions that make no difference can be forgotten. *)
Lemma uniform_drop (R : region) S S' : (forall a, R a -> rem S a = rem S' a) -> (forall i, i ∈ S' -> i ∈ S) -> uniform R S -> uniform R S'.
Proof.
  intros HR HS U a a' Ha Ha'. destruct (U a a' Ha Ha') as [E O]. rewrite <- !HR by done. split; [done|]. intros i m1 m2 Hi. apply O. auto.
Qed.
Lemma Inv_drop e : forall (R : region) S S', (forall a, R a -> rem S a = rem S' a) -> (forall i, i ∈ S' -> i ∈ S) -> Inv R S e -> Inv R S' e.
Proof.
  assert (Hc : forall (R R' : region) S S' i, (forall a, R a -> rem S a = rem S' a) -> (forall a, R' a -> R a) ->
    forall a, R' a -> rem (i :: S) a = rem (i :: S') a).
  { intros R R' S S' i H HR a Ha. rewrite <- !rem_cons, H by auto. done. }
  assert (Hs : forall S S' i, (forall j : nat, j ∈ S' -> j ∈ S) -> forall j : nat, j ∈ i :: S' -> j ∈ i :: S).
  { intros S S' i H j. rewrite !elem_of_cons. intros [?|?]; auto. }
  induction e as [| |t|i f IH|i f IH|i t e1 IH1 e2 IH2|i t e1 IH|i vo keys index f IH d IHd]; cbn [DispRunProofs.Inv]; intros R S S' HR HS.
  - by apply uniform_drop.
  - done.
  - done.
  - intros (Hi & Hu & H). split; [done|]. split; [by eapply uniform_drop|]. intros c. destruct (H c) as [?|Hi']; [by left|].
    right. eapply IH; [|by apply Hs|exact Hi']. eapply Hc; [exact HR|]. by intros a [? _].
  - intros (Hi & Hd & H). split; [done|]. split; [auto|]. intros d. eapply IH; [|by apply Hs|apply H]. eapply Hc; [exact HR|]. by intros a [? _].
  - intros (Hi & Ht & H1 & H2). split; [done|]. split; [done|].
    split; [eapply IH1; [|by apply Hs|exact H1]|eapply IH2; [|by apply Hs|exact H2]]; (eapply Hc; [exact HR|]; by intros a [? _]).
  - intros (Hi & Ht & H1 & H2). split; [done|]. split; [done|]. split; [|done].
    eapply IH; [|by apply Hs|exact H1]; (eapply Hc; [exact HR|]; by intros a [? _]).
  - intros (Hi & Hx & Hk & H1 & H2). split; [done|]. split; [done|]. split; [done|]. split.
    + intros j k Hj. eapply IH; [|by apply Hs|by apply (H1 j k)]. eapply Hc; [exact HR|]; by intros a [? _].
    + eapply IHd; [|by apply Hs|exact H2]. eapply Hc; [exact HR|]; by intros a [? _].
Qed.

(** ** States of discrimination *)

(** [ms]: the methods left, before the instances at position [i] have been selected. *)
Record good_ds (a : list obj) (ds : dstate) : Prop := {
  gd_methods : ds_methods ds = rem (ds_argnums ds) a;
  gd_asc : ascending (ds_argnums ds);
  gd_lt : forall i, i ∈ ds_argnums ds -> i < n;
  gd_first : forall i, i ∈ ds_first ds -> i < n;
  gd_in : ds_inapplicable ds = false }.

Lemma consider_ok a i ds ms1 : wf_args W g a -> i < n -> good_ds a ds ->
  (forall m, m ∈ ms1 -> m ∈ MS) ->
  List.filter (fun m => instb W (ag a i) (spc m i)) ms1 = rem (i :: ds_argnums ds) a ->
  exists ds1, consider W i (ag a i) (DS ms1 (ds_argnums ds) (ds_first ds) (ds_inapplicable ds) (ds_warnings ds)) = Val ds1 /\
    good_ds a ds1 /\ ds_argnums ds1 = add_argnum i (ds_argnums ds) /\ ds_warnings ds1 = ds_warnings ds.
Proof.
  intros Ha Hi [G1 G2 G3 G4 G5] Hms Hf. unfold consider. cbn.
  rewrite (filter_instances_ok W HW g PG i (ag a i) ms1 Hi (ag_wf W g a i Ha Hi) Hms). cbn [obind].
  eexists. split; [reflexivity|]. split; [|done]. constructor; cbn; auto.
  - rewrite Hf. apply rem_ext. intros j. by rewrite add_argnum_in, elem_of_cons.
  - by apply add_argnum_ascending.
  - intros j [->|Hj]%add_argnum_in; auto.
Qed.
Lemma ds_eta ds : ds = DS (ds_methods ds) (ds_argnums ds) (ds_first ds) (ds_inapplicable ds) (ds_warnings ds).
Proof. by destruct ds. Qed.
Lemma consider_plain a i ds : wf_args W g a -> i < n -> good_ds a ds ->
  exists ds1, consider W i (ag a i) ds = Val ds1 /\
    good_ds a ds1 /\ ds_argnums ds1 = add_argnum i (ds_argnums ds) /\ ds_warnings ds1 = ds_warnings ds.
Proof.
  intros Ha Hi G. replace (consider W i (ag a i) ds) with (consider W i (ag a i)
    (DS (ds_methods ds) (ds_argnums ds) (ds_first ds) (ds_inapplicable ds) (ds_warnings ds))) by (by rewrite <- ds_eta).
  apply consider_ok; [done|done|done|..]; rewrite (gd_methods _ _ G).
  - apply rem_MS.
  - apply rem_cons.
Qed.

Definition finishes (R : region) (S : list nat) (a : list obj) (ds : dstate) (e : engine) (ds' : dstate) : Prop :=
  Inv R S e /\ exists t ws, term a = Val (t, ws) /\ ds_warnings ds' = ws ++ ds_warnings ds /\
    (t = None -> ds_inapplicable ds' = true) /\
    forall t0, t = Some t0 -> ds_inapplicable ds' = false /\ exists e', run_engine W a e = Val (Hit t0, e').

Lemma finishes_wrap R R' S S' a ds ds0 e e' ds' : finishes R S a ds e ds' -> ds_warnings ds = ds_warnings ds0 ->
  Inv R' S' e' -> (forall r e1, run_engine W a e = Val (r, e1) -> exists e2, run_engine W a e' = Val (r, e2)) ->
  finishes R' S' a ds0 e' ds'.
Proof.
  intros (HI & t & ws & Ht & Hw & H1 & H2) E HI' Hr. split; [done|]. exists t, ws. split; [done|]. split; [by rewrite <- E|].
  split; [done|]. intros t0 Et. destruct (H2 t0 Et) as [? [e1 He1]]. split; [done|]. by eapply Hr.
Qed.
Lemma finishes_ext R S S' a ds ds0 e ds' : (forall i, i ∈ S <-> i ∈ S') -> finishes R S a ds e ds' ->
  ds_warnings ds = ds_warnings ds0 -> finishes R S' a ds0 e ds'.
Proof. intros HS H E. eapply finishes_wrap; [done|done| |eauto]. eapply Inv_ext; [done|]. apply H. Qed.

Lemma inapplicable_ok (R : region) a ds : R a -> wf_args W g a -> good_ds a ds -> ds_methods ds = [] -> uniform R (ds_argnums ds) ->
  exists ds', dispinapplicable ds = Val (EAbsent, ds') /\ finishes R (ds_argnums ds) a ds EAbsent ds'.
Proof.
  intros Ha Hw G E U. unfold dispinapplicable. rewrite (gd_in _ _ G). eexists. split; [reflexivity|]. split; [done|].
  exists None, []. split; [|done]. apply term_nil; [done|]. apply (rem_nil_all W g (ds_argnums ds)); [|apply G].
  by rewrite <- (gd_methods _ _ G).
Qed.

Lemma select_ok a ds : good_ds a ds -> exists o ds1, select_next_arg n ds = (o, ds1) /\
  good_ds a ds1 /\ ds_argnums ds1 = ds_argnums ds /\ ds_warnings ds1 = ds_warnings ds /\
  match o with Some i => i < n /\ i ∉ ds_argnums ds | None => forall i, i < n -> i ∈ ds_argnums ds end.
Proof.
  intros [G1 G2 G3 G4 G5]. unfold select_next_arg. pose proof (moop_ok (ds_first ds) (ds_argnums ds) G2) as Hm.
  destruct (moop _ _) as [[i l]|].
  - destruct Hm as (H1 & H2 & H3). eexists _, _. split; [reflexivity|]. split; [constructor; cbn; auto|]. cbn. auto.
  - destruct (next_free_ok (ds_argnums ds) 0 G2) as (H1 & _ & H3); [lia|].
    eexists _, _. split; [reflexivity|]. split; [constructor; cbn; auto; intros i Hi; by apply elem_of_nil in Hi|].
    cbn [ds_argnums ds_warnings]. split; [done|]. split; [done|].
    destruct (Nat.ltb_spec (next_free 0 (ds_argnums ds)) n); [done|]. intros i Hi. apply H3; lia.
Qed.

(** ** [compute_more] *)

Definition CM (fuel : nat) : Prop := forall (R : region) a ds, okr R -> R a -> uniform R (ds_argnums ds) -> good_ds a ds ->
  n < fuel + length (ds_argnums ds) ->
  exists e ds', compute_more fuel W g a ds = Val (e, ds') /\ finishes R (ds_argnums ds) a ds e ds'.

Lemma add_argnum_le i l : length l <= length (add_argnum i l).
Proof. induction l as [|j l IH]; cbn -[Nat.ltb Nat.eqb]; [lia|]. destruct (j =? i); [done|]. destruct (i <? j); cbn; lia. Qed.

(** After the instances have been selected. *)
Lemma cm_next fuel (R : region) a ds ds1 i : CM fuel -> okr R -> R a -> uniform R (i :: ds_argnums ds) -> good_ds a ds1 ->
  ds_argnums ds1 = add_argnum i (ds_argnums ds) -> ds_warnings ds1 = ds_warnings ds ->
  n < fuel + length (ds_argnums ds1) ->
  exists e ds', compute_more fuel W g a ds1 = Val (e, ds') /\ finishes R (i :: ds_argnums ds) a ds e ds'.
Proof.
  intros IH Hok Ha U G E Ew Hf.
  assert (HS : forall j, j ∈ ds_argnums ds1 <-> j ∈ i :: ds_argnums ds) by (intros j; by rewrite E, add_argnum_in, elem_of_cons).
  destruct (IH R a ds1) as (e & ds' & -> & Hfin); try done.
  { eapply uniform_ext; [|exact U]. intros j. by rewrite HS. }
  eexists _, _. split; [reflexivity|]. by eapply finishes_ext.
Qed.

(** The methods left after pruning. *)
Lemma prune_ok a i ds : wf_args W g a -> i < n -> good_ds a ds ->
  exists ms1 allall, prune W i (class_of W (ag a i)) ds =
      Val (allall, DS ms1 (ds_argnums ds) (ds_first ds) (ds_inapplicable ds) (ds_warnings ds)) /\
    (forall m, m ∈ ms1 -> m ∈ rem (ds_argnums ds) a) /\
    (forall m, m ∈ rem (ds_argnums ds) a -> m ∈ ms1 \/ none_of W (class_of W (ag a i)) (spc m i)) /\
    (forall m d, m ∈ ms1 -> TSubclass d ∈ atoms (spc m i) -> class_of W (ag a i) = w_class W) /\
    (allall = true -> forall m, m ∈ ms1 -> flat_on W (class_of W (ag a i)) (spc m i)) /\
    List.filter (fun m => instb W (ag a i) (spc m i)) ms1 = rem (i :: ds_argnums ds) a.
Proof.
  intros Ha Hi G. unfold prune.
  destruct (prune_loop_ok W HW g PG i (class_of W (ag a i)) Hi (ag_class W HW g a i Ha Hi) (ds_methods ds)) as (P & aa & -> & H).
  { rewrite (gd_methods _ _ G). apply rem_MS. }
  cbn [obind]. eexists _, _. split; [reflexivity|]. rewrite (gd_methods _ _ G) in *.
  assert (Hin : forall m, m ∈ List.filter P (rem (ds_argnums ds) a) <-> m ∈ rem (ds_argnums ds) a /\ P m = true).
  { intros m. by rewrite !elem_of_list_In, filter_In. }
  split; [intros m [? _]%Hin; done|]. split; [|split; [|split]].
  - intros m Hm. destruct (P m) eqn:E; [left; by apply Hin|right; by apply (H m Hm)].
  - intros m d [Hm E]%Hin. by apply (H m Hm).
  - intros Haa m [Hm E]%Hin. by apply (H m Hm).
  - rewrite <- rem_cons. apply filter_filter. intros m Hm E. destruct (H m Hm) as [H1 _].
    assert (Hmm : m ∈ MS) by (by eapply rem_MS).
    destruct (instb W (ag a i) (spc m i)) eqn:Ei; [|done]. exfalso. eapply (H1 E (ag a i)); [by apply (ag_wf W g)|done|].
    apply (instb_true W HW); [by apply (ag_wf W g)|by apply (spc_wf W g PG)|done].
Qed.

(** [compute-subdiscriminator-for-arg], for the arguments of one class. *)
Lemma sub_ok fuel (R : region) a ds i ms1 : CM fuel -> okr R -> R a -> i < n -> good_ds a ds ->
  (forall a', R a' -> class_of W (ag a' i) = class_of W (ag a i)) -> uniform R (ds_argnums ds) ->
  (forall m, m ∈ ms1 -> m ∈ rem (ds_argnums ds) a) ->
  (forall m, m ∈ rem (ds_argnums ds) a -> m ∈ ms1 \/ none_of W (class_of W (ag a i)) (spc m i)) ->
  (forall m d, m ∈ ms1 -> TSubclass d ∈ atoms (spc m i) -> class_of W (ag a i) = w_class W) ->
  List.filter (fun m => instb W (ag a i) (spc m i)) ms1 = rem (i :: ds_argnums ds) a ->
  n < fuel + length (add_argnum i (ds_argnums ds)) ->
  exists e ds', compute_subdiscriminator fuel W g a i (ag a i) (class_of W (ag a i))
     (DS ms1 (ds_argnums ds) (ds_first ds) (ds_inapplicable ds) (ds_warnings ds)) = Val (e, ds') /\
     finishes R (i :: ds_argnums ds) a ds e ds'.
Proof.
  intros IH Hok Ha Hi G Hc U P1 P2 P3 P4 Hf. unfold compute_subdiscriminator.
  assert (Hm1 : forall m, m ∈ ms1 -> m ∈ MS) by (intros m Hm; by eapply rem_MS, P1).
  cbn [ds_methods].
  destruct (ponder_specializers_ok W HW g PG i (class_of W (ag a i)) Hi (ag_class W HW g a i (Hok a Ha) Hi) ms1 (Sorts false [] []) Hm1)
    as (s & -> & _ & Hhas & Hfrom). cbn [obind].
  destruct (consider_ok a i ds ms1 (Hok a Ha) Hi G Hm1 P4) as (ds1 & -> & G1 & E1 & E2). cbn [obind].
  destruct (build_ok W HW g PG R (ds_argnums ds) i (class_of W (ag a i)) a ms1 s Hok Hi Hc U Ha P2 Hm1 P3 Hhas Hfrom)
    as (Q & Q1 & Q2 & Q3 & HQ).
  destruct (cm_next fuel Q a ds ds1 i IH) as (e & ds' & -> & Hfin); try done.
  { intros a' Ha'. auto. }
  { by rewrite E1. }
  cbn [obind]. destruct (HQ e (proj1 Hfin)) as (e' & -> & HI & Hr). cbn [obind].
  eexists _, _. split; [reflexivity|]. by eapply finishes_wrap.
Qed.

Lemma compute_more_nil fuel a ds : wf_args W g a -> good_ds a ds -> ds_methods ds = [] ->
  exists ds', compute_more (S fuel) W g a ds = Val (EAbsent, ds') /\
    ds_inapplicable ds' = true /\ ds_warnings ds' = ds_warnings ds.
Proof.
  intros Ha G E. cbn [compute_more]. destruct (select_ok a ds G) as (o & ds1 & -> & G1 & E1 & E2 & Ho).
  assert (Em : ds_methods ds1 = []).
  { rewrite (gd_methods _ _ G1), E1, <- (gd_methods _ _ G). done. }
  destruct o as [i|].
  - destruct Ho as [Hi _]. rewrite (arg_at_ok W g a i Ha Hi). cbn [obind]. rewrite Em.
    unfold dispinapplicable. rewrite (gd_in _ _ G1). eexists. split; [reflexivity|]. done.
  - rewrite Em. cbn. unfold dispinapplicable. cbn. rewrite (gd_in _ _ G1). eexists. split; [reflexivity|]. done.
Qed.

Lemma compute_more_ok fuel : CM fuel.
Proof.
  induction fuel as [|fuel IH]; intros R a ds Hok Ha U G Hf.
  { pose proof (ascending_bound (ds_argnums ds) n (gd_asc _ _ G) (gd_lt _ _ G)). cbn in Hf. lia. }
  pose proof (Hok a Ha) as Hw. cbn [compute_more].
  destruct (select_ok a ds G) as (o & ds1 & -> & G1 & E1 & E2 & Ho).
  assert (Hback : forall e ds', finishes R (ds_argnums ds1) a ds1 e ds' -> finishes R (ds_argnums ds) a ds e ds').
  { intros e ds' H. by rewrite E1 in H; eapply finishes_ext. }
  rewrite <- E1 in U, Ho, Hf. clear G. destruct o as [i|].
  - destruct Ho as [Hi Hni]. rewrite (arg_at_ok W g a i Hw Hi). cbn [obind].
    destruct (ds_methods ds1) as [|m0 l0] eqn:Em.
    { destruct (inapplicable_ok R a ds1 Ha Hw G1 Em U) as (ds' & -> & Hfin). eexists _, _. split; [reflexivity|]. by apply Hback. }
    rewrite <- Em. clear m0 l0 Em. set (c := class_of W (ag a i)).
    assert (Hcl : c < length st) by (by apply (ag_class W HW g)).
    assert (Hlen : length (add_argnum i (ds_argnums ds1)) = S (length (ds_argnums ds1))) by (by apply add_argnum_length).
    destruct (ponder_ok W HW g PG i c (ds_methods ds1) Hi Hcl) as (p & -> & [PI1 PI2 PI3 PI4 PI5]).
    { rewrite (gd_methods _ _ G1). apply rem_MS. }
    cbn [obind]. rewrite (gd_methods _ _ G1) in PI1, PI2, PI3, PI4, PI5.
    assert (HR : forall a' m, R a' -> m ∈ rem (ds_argnums ds1) a' -> m ∈ rem (ds_argnums ds1) a).
    { intros a' m Ha' Hm. destruct (U a a' Ha Ha') as [-> _]. done. }
    destruct (consider_plain a i ds1 Hw Hi G1) as (ds2 & Hcon & G2 & F1 & F2).
    assert (Hnext : forall R' : region, (forall a', R' a' -> R a') -> R' a -> uniform R' (i :: ds_argnums ds1) ->
       exists e ds', compute_more fuel W g a ds2 = Val (e, ds') /\ finishes R' (i :: ds_argnums ds1) a ds1 e ds').
    { intros R' HR' Ha' U'. apply (cm_next fuel R' a ds1 ds2 i IH); try done; [intros a'' ?; auto|]. rewrite F1, Hlen. lia. }
    destruct (p_all p) eqn:Ep.
    + rewrite Hcon. cbn [obind].
      destruct (Hnext R) as (e & ds' & -> & Hfin); [done|done|..].
      { apply (uniform_objects W HW g PG); try done. intros a' m Ha' Hm. by apply (PI2 eq_refl), (HR a'). }
      eexists _, _. split; [reflexivity|]. apply Hback. eapply finishes_wrap; [exact Hfin|done| |eauto].
      eapply Inv_drop; [| |apply Hfin].
      * intros a' Ha'. rewrite <- rem_cons. apply filter_true. intros m Hm.
        assert (Hmm : m ∈ MS) by (by eapply rem_MS). destruct (spc_wf W g PG m i Hmm Hi) as (? & ? & ?).
        apply (instb_true W HW); [by apply (ag_wf W g); auto|done|].
        apply (object_like_inst W HW); [by apply (ag_wf W g); auto|done|]. by apply (PI2 eq_refl), (HR a').
      * intros j Hj. by apply elem_of_cons; right.
    + assert (Hby : exists e ds', (do ' (nextd, ds2) <-
                       (if p_secondary p then
                          do ' (_, ds1) <- prune W i c ds1 ;
                          compute_subdiscriminator fuel W g a i (ag a i) c ds1
                        else
                          do ds1 <- consider W i (ag a i) ds1 ;
                          compute_more fuel W g a ds1) ;
                    Val (EByClass i (fupdate absent_table c nextd), ds2)) = Val (e, ds') /\
               finishes R (ds_argnums ds1) a ds1 e ds').
      { assert (Hsub : exists e ds', (if p_secondary p then
                          do ' (_, ds1) <- prune W i c ds1 ;
                          compute_subdiscriminator fuel W g a i (ag a i) c ds1
                        else
                          do ds1 <- consider W i (ag a i) ds1 ;
                          compute_more fuel W g a ds1) = Val (e, ds') /\
            finishes (fun a' => R a' /\ class_of W (ag a' i) = c) (i :: ds_argnums ds1) a ds1 e ds').
        { destruct (p_secondary p) eqn:Es.
          - destruct (prune_ok a i ds1 Hw Hi G1) as (ms1 & aa & Hpr & P1 & P2 & P3 & P4 & P5). fold c in Hpr. rewrite Hpr. cbn [obind].
            apply sub_ok; try done.
            + by apply okr_and.
            + by intros a' [_ ?].
            + eapply uniform_mono; [|exact U]. by intros a' [? _].
            + rewrite Hlen. lia.
          - rewrite Hcon. cbn [obind]. apply Hnext; [by intros a' [? _]|done|].
            apply (uniform_flat W HW g PG) with (c := c); [by apply okr_and|done| |by intros a' [_ ?]|].
            + eapply uniform_mono; [|exact U]. by intros a' [? _].
            + intros a' m [Ha' _] Hm. left. by apply (PI1 eq_refl), (HR a'). }
        destruct Hsub as (e & ds' & -> & Hfin). cbn [obind]. eexists _, _. split; [reflexivity|].
        eapply finishes_wrap; [exact Hfin|done|..].
        - cbn [DispRunProofs.Inv]. split; [done|]. split; [done|]. intros c'. destruct (decide (c' = c)) as [->|Hne].
          + right. rewrite fupdate_eq. apply Hfin.
          + left. by rewrite fupdate_ne.
        - intros r e1 Hr. cbn [run_engine]. rewrite (arg_at_ok W g a i) by auto. cbn [obind]. fold c. rewrite fupdate_eq, Hr. cbn. eauto. }
      destruct (p_exception p) as [|t|] eqn:Ex.
      * destruct Hby as (e & ds' & He & Hfin). eexists _, _. split; [exact He|]. by apply Hback.
      * clear Hby. destruct (PI5 t eq_refl) as [(m0 & Hm0 & Et) PI5'].
        assert (Hmm0 : m0 ∈ MS) by (by eapply rem_MS).
        assert (Wt : wf_specializer W t) by (rewrite Et; by apply (spc_wf W g PG)).
        assert (Hb : forall b, uniform (fun a' => R a' /\ instb W (ag a' i) t = b) (i :: ds_argnums ds1)).
        { intros b. apply (uniform_if W HW g PG) with (t := t) (b := b); [by apply okr_and|done| |done|by intros a' [_ ?]|].
          - eapply uniform_mono; [|exact U]. by intros a' [? _].
          - intros a' m [Ha' _] Hm. by apply PI5', (HR a'). }
        rewrite Hcon. cbn [obind]. destruct (p_some p) eqn:Eso.
        -- destruct (Hnext (fun a' => R a' /\ instb W (ag a' i) t = instb W (ag a i) t)) as (e & ds' & -> & Hfin);
             [by intros a' [? _]|done|apply Hb|].
           cbn [obind]. rewrite (instance_b W HW) by (try apply Wt; by apply (ag_wf W g)). cbn [obind].
           eexists _, _. split; [reflexivity|]. apply Hback. eapply finishes_wrap; [exact Hfin|done|..].
           ++ destruct Hfin as [Hfin _]. destruct (instb W (ag a i) t) eqn:Eb; cbn [DispRunProofs.Inv];
                (split; [done|]; split; [apply Wt|]; split; [done||apply Hb|done||apply Hb]).
           ++ intros r e1 Hr. destruct (instb W (ag a i) t) eqn:Eb; cbn [run_engine];
                rewrite (arg_at_ok W g a i) by auto; cbn [obind];
                rewrite (instance_b W HW) by (try apply Wt; by apply (ag_wf W g)); cbn [obind]; rewrite Eb, Hr; cbn; eauto.
        -- assert (Hout : forall a', R a' -> instb W (ag a' i) t = false -> rem (i :: ds_argnums ds1) a' = []).
           { intros a' Ha' Eb. destruct (rem (i :: ds_argnums ds1) a') as [|m l] eqn:Er; [done|]. exfalso.
             assert (Hm : m ∈ rem (i :: ds_argnums ds1) a') by (rewrite Er; by apply elem_of_cons; left).
             apply rem_cons_in in Hm as [Hm Im]. pose proof (rem_MS W g _ _ _ Hm) as Hmm.
             pose proof (HR a' m Ha' Hm) as Hma. destruct (PI5' m Hma) as [?|[_ (S1 & S2 & _)]]; [by eapply (PI3 eq_refl m)|].
             pose proof (ag_wf W g a' i (Hok a' Ha') Hi) as Wa. pose proof (spc_wf W g PG m i Hmm Hi) as Wm.
             apply (instb_true W HW) in Im; [|done|apply Wm].
             apply (Sub_sound W _ t) in Im; [|done|apply Wt|done]. apply (instb_true W HW) in Im; [congruence|done|apply Wt]. }
           assert (Hlt' : forall j, j ∈ i :: ds_argnums ds1 -> j < n).
           { intros j [->|Hj]%elem_of_cons; [done|by apply (gd_lt _ _ G1)]. }
           destruct (instb W (ag a i) t) eqn:Eb.
           ++ destruct (Hnext (fun a' => R a' /\ instb W (ag a' i) t = true)) as (e & ds' & -> & Hfin);
                [by intros a' [? _]|done|apply Hb|].
              cbn [obind]. eexists _, _. split; [reflexivity|]. apply Hback. eapply finishes_wrap; [exact Hfin|done|..].
              ** cbn [DispRunProofs.Inv]. split; [done|]. split; [apply Wt|]. split; [apply Hfin|].
                 intros a' Ha' E'. eapply rem_nil_all; [by apply Hout|done].
              ** intros r e1 Hr. cbn [run_engine]. rewrite (arg_at_ok W g a i) by auto. cbn [obind].
                 rewrite (instance_b W HW) by (try apply Wt; by apply (ag_wf W g)). cbn [obind]. rewrite Eb, Hr. cbn. eauto.
           ++ pose proof (Hout a Ha Eb) as Hnil. destruct fuel as [|fuel'].
              { pose proof (ascending_bound (ds_argnums ds2) n (gd_asc _ _ G2) (gd_lt _ _ G2)) as Hbd.
                rewrite F1, Hlen in Hbd. cbn in Hf. lia. }
              destruct (compute_more_nil fuel' a ds2 Hw G2) as (ds' & -> & D1 & D2).
              { rewrite (gd_methods _ _ G2), <- Hnil. apply rem_ext. intros j. by rewrite F1, add_argnum_in, elem_of_cons. }
              cbn [obind]. eexists _, _. split; [reflexivity|]. apply Hback. split.
              ** cbn [DispRunProofs.Inv]. split; [done|]. split; [apply Wt|]. split; [apply Hb|].
                 intros a' Ha' E'. eapply rem_nil_all; [by apply Hout|done].
              ** exists None, []. split; [apply term_nil; [done|]; by eapply rem_nil_all|]. split; [by rewrite D2, F2|]. done.
      * destruct Hby as (e & ds' & He & Hfin). eexists _, _. split; [exact He|]. by apply Hback.
  - assert (HS : forall i, i ∈ ds_argnums ds1 <-> i < n) by (intros i; split; [apply (gd_lt _ _ G1)|apply Ho]).
    assert (HS' : forall i, i ∈ ds_argnums ds1 <-> i ∈ seq 0 n) by (intros i; rewrite HS, elem_of_seq; lia).
    rewrite (gd_methods _ _ G1), (rem_ext W g _ _ _ HS'). destruct (term_ok a Hw) as (t & ws & Ht & _ & Hnil).
    pose proof Ht as Ht'. unfold DispRunProofs.term in Ht'. rewrite Ht'. cbn [obind]. destruct t as [t|].
    + eexists _, _. split; [reflexivity|]. apply Hback. split.
      * cbn [DispRunProofs.Inv]. intros a' Ha'. exists ws. rewrite <- Ht. by apply (term_same R (ds_argnums ds1)).
      * exists (Some t), ws. split; [done|]. split; [done|]. split; [done|]. intros t0 [= <-]. split; [apply G1|]. by eexists.
    + unfold dispinapplicable. cbn. rewrite (gd_in _ _ G1). eexists _, _. split; [reflexivity|]. apply Hback.
      split; [done|]. exists None, ws. done.
Qed.
End gf.
