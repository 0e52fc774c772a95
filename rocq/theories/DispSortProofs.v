(** The sorting of methods. *)
From Verif Require Import Base ClassModel ClassSpec ClassProofs TypeModel TypeSpec TypeProofs DispModel DispSpec DispProofs.
From Coq Require Import ZifyBool ZifyNat.
Local Open Scope outcome_scope.
Local Open Scope nat_scope.

Section sort.
Context (cmp : meth -> meth -> outcome order) (U : meth -> Prop).
(** [P]: really precedes.  [Q]: may come before. *)
Context (P Q : meth -> meth -> Prop).
Context (Htot : forall a b, U a -> U b -> exists o, cmp a b = Val o).
Context (HPl : forall a b, U a -> U b -> P a b -> cmp a b = Val OLess).
Context (HPg : forall a b, U a -> U b -> P a b -> cmp b a = Val OGreater).
Context (HQl : forall a b, U a -> U b -> cmp a b = Val OLess -> Q a b).
Context (HQg : forall a b, U a -> U b -> cmp b a = Val OGreater -> Q a b).
Context (HPQ : forall a b, U a -> U b -> Q a b -> ~ P b a).

Record sinv (o a : list meth) : Prop := {
  si_in : forall m, m ∈ o ++ a -> U m;
  si_nodup : NoDup (o ++ a);
  si_ord : forall l1 m l2, o = l1 ++ m :: l2 -> forall m', m' ∈ l2 ++ a -> Q m m';
  si_amb : forall m, m ∈ a -> exists m', m' ∈ a /\ m' <> m /\ ~ P m m' }.

Lemma precedes_all_ok m l : U m -> (forall x, x ∈ l -> U x) ->
  exists b, precedes_all cmp m l = Val b /\ (b = true -> forall x, x ∈ l -> cmp m x = Val OLess) /\
    (b = false -> exists x, x ∈ l /\ cmp m x <> Val OLess).
Proof.
  intros Hm. induction l as [|y l IH]; intros Hl.
  - exists true. split; [done|]. split; [|done]. intros _ x. by rewrite elem_of_nil.
  - cbn. destruct (Htot m y Hm) as [o Ho]; [apply Hl; rewrite elem_of_cons; auto|]. rewrite Ho. cbn.
    case_bool_decide as E.
    + destruct IH as (b & Hb & I1 & I2). { intros x Hx. apply Hl. rewrite elem_of_cons. auto. }
      exists b. split; [done|]. split.
      * intros Ht x [->|Hx]%elem_of_cons; [by subst o|auto].
      * intros Hf. destruct (I2 Hf) as (x & ? & ?). exists x. rewrite elem_of_cons. auto.
    + exists false. split; [done|]. split; [done|]. intros _. exists y. rewrite elem_of_cons. split; [auto|].
      rewrite Ho. congruence.
Qed.

Lemma make_ambiguous_ok m rest amb : sinv rest amb -> U m -> m ∉ rest ++ amb ->
  (forall y l, rest = y :: l -> ~ P y m) ->
  (exists x, x ∈ rest ++ amb /\ ~ P m x) ->
  sinv (make_ambiguous m rest amb).1 (make_ambiguous m rest amb).2 /\
  (make_ambiguous m rest amb).1 ++ (make_ambiguous m rest amb).2 ≡ₚ m :: rest ++ amb.
Proof.
  intros [I1 I2 I3 I4] Hm Hnin Hy Hx. cbn.
  assert (Hp : m :: rev rest ++ amb ≡ₚ m :: rest ++ amb).
  { constructor. f_equiv. rewrite rev_alt. rewrite <- rev_alt. symmetry. apply Permutation_rev. }
  split; [|exact Hp]. constructor; cbn.
  - intros x Hx'. rewrite Hp in Hx'. apply elem_of_cons in Hx' as [->|Hx']; auto.
  - rewrite Hp. apply NoDup_cons. done.
  - intros l1 ? l2 Heq. by destruct l1.
  - intros x. rewrite Hp. intros [->|Hx']%elem_of_cons.
    + destruct Hx as (x & Hx1 & Hx2). exists x. rewrite Hp, elem_of_cons. split; [auto|]. split; [|done].
      intros ->. done.
    + destruct rest as [|y rest].
      * destruct (I4 x Hx') as (m' & M1 & M2 & M3). exists m'. rewrite Hp, elem_of_cons. auto.
      * assert (Uy : U y) by (apply I1; cbn; rewrite elem_of_cons; auto).
        cbn in Hx'. apply elem_of_cons in Hx' as [->|Hx'].
        -- exists m. rewrite Hp, elem_of_cons. split; [auto|]. split; [|by eapply Hy].
           intros ->. apply Hnin. cbn. rewrite elem_of_cons. auto.
        -- exists y. rewrite Hp. cbn. rewrite !elem_of_cons. split; [auto|]. split.
           ++ intros ->. cbn in I2. apply NoDup_cons in I2 as [? _]. done.
           ++ apply HPQ; [done|apply I1; cbn; rewrite elem_of_cons; auto|].
              by apply (I3 [] y rest).
Qed.

Lemma check_subsequent_ok m rest amb : sinv rest amb -> U m -> m ∉ rest ++ amb ->
  (forall y l, rest = y :: l -> cmp m y = Val OLess) ->
  exists o a, check_subsequent cmp m rest amb = Val (o, a) /\ sinv o a /\ o ++ a ≡ₚ m :: rest ++ amb.
Proof.
  intros HI Hm Hnin Hy. pose proof HI as [I1 I2 I3 I4]. unfold check_subsequent.
  assert (HyP : forall y l, rest = y :: l -> ~ P y m).
  { intros y l ->. apply HPQ; [done|apply I1; cbn; rewrite elem_of_cons; auto|]. apply HQl; [done|..].
    - apply I1. cbn. rewrite elem_of_cons. auto.
    - by eapply Hy. }
  assert (Hfail : (exists x, x ∈ rest ++ amb /\ cmp m x <> Val OLess) -> exists x, x ∈ rest ++ amb /\ ~ P m x).
  { intros (x & Hx & Hc). exists x. split; [done|]. intros HP. by apply Hc, HPl; [|apply I1|]. }
  destruct (precedes_all_ok m rest Hm) as (b1 & -> & T1 & F1).
  { intros x Hx. apply I1. rewrite elem_of_app. auto. }
  cbn [obind]. destruct b1.
  - destruct (precedes_all_ok m amb Hm) as (b2 & -> & T2 & F2).
    { intros x Hx. apply I1. rewrite elem_of_app. auto. }
    cbn [obind]. destruct b2.
    + exists (m :: rest), amb. split; [done|]. split; [|done]. constructor; cbn.
      * intros x [->|Hx]%elem_of_cons; auto.
      * apply NoDup_cons. done.
      * intros l1 z l2 Heq m' Hm'. destruct l1 as [|z' l1]; cbn in Heq; injection Heq as -> Heq.
        -- subst l2. apply HQl; [done|by apply I1|]. apply elem_of_app in Hm' as [|]; auto.
        -- by eapply I3.
      * done.
    + destruct (make_ambiguous_ok m rest amb HI Hm Hnin HyP) as [M1 M2].
      { apply Hfail. destruct (F2 eq_refl) as (x & ? & ?). exists x. rewrite elem_of_app. auto. }
      unfold make_ambiguous in *. eexists _, _. split; [reflexivity|]. auto.
  - destruct (make_ambiguous_ok m rest amb HI Hm Hnin HyP) as [M1 M2].
    { apply Hfail. destruct (F1 eq_refl) as (x & ? & ?). exists x. rewrite elem_of_app. auto. }
    unfold make_ambiguous in *. eexists _, _. split; [reflexivity|]. auto.
Qed.

Lemma insert_method_ok m osub amb : sinv osub amb -> U m -> m ∉ osub ++ amb ->
  exists o a, insert_method cmp m osub amb = Val (o, a) /\ sinv o a /\
    (o ++ a ≡ₚ m :: osub ++ amb \/
     (o = osub /\ a = amb /\ exists x, x ∈ osub /\ cmp m x = Val OEqual)).
Proof.
  induction osub as [|x rest IH]; intros HI Hm Hnin.
  - cbn [insert_method]. destruct (check_subsequent_ok m [] amb HI Hm Hnin) as (o & a & -> & ? & ?); [done|]. eauto 10.
  - cbn [insert_method]. pose proof HI as [I1 I2 I3 I4].
    assert (Ux : U x) by (apply I1; cbn; rewrite elem_of_cons; auto).
    destruct (Htot m x Hm Ux) as [ind Hind]. rewrite Hind. cbn [obind]. destruct ind.
    + destruct (check_subsequent_ok m (x :: rest) amb HI Hm Hnin) as (o & a & -> & ? & ?).
      { intros y l [= -> ->]. done. } eauto 10.
    + destruct IH as (o & a & -> & HI' & Hp); [|done|..].
      { constructor.
        - intros y Hy. apply I1. cbn. rewrite elem_of_cons. auto.
        - cbn in I2. by apply NoDup_cons in I2 as [_ ?].
        - intros l1 y l2 ->. by apply (I3 (x :: l1)).
        - done. }
      { intros Hin. apply Hnin. cbn. rewrite elem_of_cons. auto. }
      cbn [obind]. exists (x :: o), a. split; [done|].
      assert (Hmem : forall y, y ∈ o ++ a -> y = m \/ y ∈ rest ++ amb).
      { intros y Hy. destruct Hp as [Hp|(-> & -> & _)]; [|auto]. rewrite Hp in Hy. by apply elem_of_cons. }
      split.
      * destruct HI' as [J1 J2 J3 J4]. constructor; cbn.
        -- intros y [->|Hy]%elem_of_cons; auto.
        -- apply NoDup_cons. split; [|done]. intros Hin. apply Hmem in Hin as [->|Hin].
           ++ apply Hnin. cbn. rewrite elem_of_cons. auto.
           ++ cbn in I2. apply NoDup_cons in I2. tauto.
        -- intros l1 y l2 Heq m' Hm'. destruct l1 as [|z l1]; cbn in Heq; injection Heq as -> Heq.
           ++ subst l2. apply Hmem in Hm' as [->|Hm']; [by apply HQg|]. by apply (I3 [] y rest).
           ++ by eapply J3.
        -- done.
      * destruct Hp as [Hp|(-> & -> & z & Hz1 & Hz2)].
        -- left. cbn. rewrite Hp. constructor.
        -- right. split; [done|]. split; [done|]. exists z. rewrite elem_of_cons. auto.
    + exists (x :: rest), amb. split; [done|]. split; [done|]. right. split; [done|]. split; [done|].
      exists x. rewrite elem_of_cons. auto.
    + destruct (make_ambiguous_ok m (x :: rest) amb HI Hm Hnin) as [M1 M2].
      { intros y l [= -> ->] HP. rewrite (HPg y m Ux Hm HP) in Hind. done. }
      { exists x. cbn. rewrite elem_of_cons. split; [auto|]. intros HP.
        rewrite (HPl m x Hm Ux HP) in Hind. done. }
      unfold make_ambiguous in *. eexists _, _. split; [reflexivity|]. auto.
Qed.

Lemma sort_methods_ok ms : forall o a, sinv o a -> (forall m, m ∈ ms -> U m) -> NoDup (ms ++ o ++ a) ->
  exists o' a', sort_methods cmp ms o a = Val (o', a') /\ sinv o' a' /\
    (forall m, m ∈ o' ++ a' -> m ∈ ms ++ o ++ a) /\
    (forall m, m ∈ o ++ a -> m ∈ o' ++ a') /\
    (forall m, m ∈ ms -> m ∈ o' ++ a' \/ exists x, x ∈ o' ++ a' /\ cmp m x = Val OEqual).
Proof.
  induction ms as [|m ms IH]; intros o a HI Hms Hnd.
  - exists o, a. split; [done|]. split; [done|]. split; [auto|]. split; [auto|]. intros m Hm. by apply elem_of_nil in Hm.
  - cbn [sort_methods]. cbn in Hnd. apply NoDup_cons in Hnd as [Hn Hnd].
    assert (Um : U m) by (apply Hms; rewrite elem_of_cons; auto).
    destruct (insert_method_ok m o a HI Um) as (o1 & a1 & -> & HI1 & Hp).
    { intros Hin. apply Hn. rewrite elem_of_app. auto. }
    cbn [obind].
    destruct (IH o1 a1 HI1) as (o2 & a2 & -> & HI2 & F & K & A).
    { intros x Hx. apply Hms. rewrite elem_of_cons. auto. }
    { destruct Hp as [Hp|(-> & -> & _)]; [|done]. rewrite Hp. rewrite <- Permutation_middle.
      apply NoDup_cons. done. }
    exists o2, a2. split; [done|]. split; [done|].
    assert (Hin1 : forall x, x ∈ o1 ++ a1 -> x = m \/ x ∈ o ++ a).
    { intros x Hx. destruct Hp as [Hp|(-> & -> & _)]; [|auto]. rewrite Hp in Hx. by apply elem_of_cons. }
    assert (Hin2 : forall x, x ∈ o ++ a -> x ∈ o1 ++ a1).
    { intros x Hx. destruct Hp as [Hp|(-> & -> & _)]; [|auto]. rewrite Hp. apply elem_of_cons. auto. }
    split.
    + intros x Hx. specialize (F x Hx). cbn. rewrite elem_of_cons, elem_of_app in *.
      destruct F as [?|F]; [auto|]. apply Hin1 in F. tauto.
    + split; [auto|]. intros x [->|Hx]%elem_of_cons; [|auto].
      destruct Hp as [Hp|(-> & -> & z & Hz1 & Hz2)].
      * left. apply K. rewrite Hp. apply elem_of_cons. auto.
      * right. exists z. split; [|done]. apply K. rewrite elem_of_app. auto.
Qed.
End sort.

Section world.
Context (W : world) (HW : wf_world W).

Lemma precedes_not_both args m1 m2 : ready_methods W args m1 m2 ->
  precedes W args m1 m2 -> ~ precedes W args m2 m1.
Proof.
  intros Hr H1 H2. destruct (order_methods_ok W HW args m1 m2 Hr) as (o & _ & L & G & _).
  apply L in H1. apply G in H2. congruence.
Qed.

(** The sorted order of methods that all apply. *)
Theorem sort_applicable_ok args ms :
  (forall a b, a ∈ ms -> b ∈ ms -> ready_methods W args a b) -> NoDup ms ->
  exists l amb, sort_applicable W ms args = Val (l, amb) /\ sorted_order W args ms l amb /\ NoDup (l ++ amb).
Proof.
  intros Hr Hnd.
  pose proof (sort_methods_ok (fun m1 m2 => order_methods W m1 m2 args) (fun m => m ∈ ms)
    (precedes W args) (precedes W args)) as H.
  destruct H with (ms := ms) (o := @nil meth) (a := @nil meth) as (l & amb & Hs & [S1 S2 S3 S4] & F & _ & A).
  - intros a b Ha Hb. destruct (order_methods_ok W HW args a b (Hr a b Ha Hb)) as (o & -> & _). by exists o.
  - intros a b Ha Hb. destruct (order_methods_ok W HW args a b (Hr a b Ha Hb)) as (o & -> & L & G & E).
    intros HP. apply L in HP. by subst.
  - intros a b Ha Hb. destruct (order_methods_ok W HW args b a (Hr b a Hb Ha)) as (o & -> & L & G & E).
    intros HP. apply G in HP. by subst.
  - intros a b Ha Hb. destruct (order_methods_ok W HW args a b (Hr a b Ha Hb)) as (o & -> & L & G & E).
    intros [= ->]. by apply L.
  - intros a b Ha Hb. destruct (order_methods_ok W HW args b a (Hr b a Hb Ha)) as (o & -> & L & G & E).
    intros [= ->]. by apply G.
  - intros a b Ha Hb. apply precedes_not_both. auto.
  - constructor; cbn.
    + intros m Hm. by apply elem_of_nil in Hm.
    + constructor.
    + intros l1 ? l2 Heq. by destruct l1.
    + intros m Hm. by apply elem_of_nil in Hm.
  - auto.
  - by rewrite !app_nil_r.
  - exists l, amb. split; [done|]. split; [|done]. constructor; try done.
    intros m Hm. destruct (A m Hm) as [?|(x & Hx & Hc)]; [auto|]. right. exists x. split; [done|].
    assert (Hxm : x ∈ ms) by auto.
    destruct (order_methods_ok W HW args m x (Hr m x Hm Hxm)) as (o & Ho & L & G & E).
    apply E. rewrite Ho in Hc. congruence.
Qed.

Lemma desperately_total args m1 m2 : ready_methods W args m1 m2 ->
  exists o, order_methods_desperately W m1 m2 args = Val o /\
    (precedes W args m1 m2 -> o = OLess) /\ (precedes W args m2 m1 -> o = OGreater).
Proof.
  intros Hr. destruct (order_methods_desperately_ok W HW args (m_specs m1) (m_specs m2) false Hr) as (o & Ho & L & G).
  exists o. split; [done|]. split.
  - intros [H1 H2]. by apply L.
  - intros [H1 (i & H2)]. apply G.
    + intros j Hj. destruct (H1 j Hj) as (x & t1 & t2 & ? & ? & ? & Hq). exists x, t2, t1. split_and!; try done.
      destruct Hq as [Hq|Hq]; [left; by apply alike_sym|by right].
    + exists i. destruct H2 as (x & t1 & t2 & ? & ? & ? & Hq). by exists x, t2, t1.
Qed.

(** The desperate order: nothing is put before a more specific method. *)
Theorem sort_desperately_ok args ms :
  (forall a b, a ∈ ms -> b ∈ ms -> ready_methods W args a b) -> NoDup ms ->
  exists l amb, sort_desperately W ms args = Val (l, amb) /\ NoDup (l ++ amb) /\
    (forall m, m ∈ l ++ amb -> m ∈ ms) /\ (ms <> [] -> l ++ amb <> []) /\
    (forall l1 m l2, l = l1 ++ m :: l2 -> forall m', m' ∈ l2 ++ amb -> ~ precedes W args m' m).
Proof.
  intros Hr Hnd.
  pose proof (sort_methods_ok (fun m1 m2 => order_methods_desperately W m1 m2 args) (fun m => m ∈ ms)
    (precedes W args) (fun a b => ~ precedes W args b a)) as H.
  destruct H with (ms := ms) (o := @nil meth) (a := @nil meth) as (l & amb & Hs & [S1 S2 S3 S4] & F & _ & A).
  - intros a b Ha Hb. destruct (desperately_total args a b (Hr a b Ha Hb)) as (o & -> & _). by exists o.
  - intros a b Ha Hb HP. destruct (desperately_total args a b (Hr a b Ha Hb)) as (o & -> & L & G). by rewrite (L HP).
  - intros a b Ha Hb HP. destruct (desperately_total args b a (Hr b a Hb Ha)) as (o & -> & L & G). by rewrite (G HP).
  - intros a b Ha Hb HE HP. destruct (desperately_total args a b (Hr a b Ha Hb)) as (o & Ho & L & G).
    rewrite Ho, (G HP) in HE. done.
  - intros a b Ha Hb HE HP. destruct (desperately_total args b a (Hr b a Hb Ha)) as (o & Ho & L & G).
    rewrite Ho, (L HP) in HE. done.
  - auto.
  - constructor; cbn.
    + intros m Hm. by apply elem_of_nil in Hm.
    + constructor.
    + intros l1 ? l2 Heq. by destruct l1.
    + intros m Hm. by apply elem_of_nil in Hm.
  - auto.
  - by rewrite !app_nil_r.
  - exists l, amb. split; [done|]. split; [done|]. split; [done|]. split; [|done].
    intros Hne Hnil. destruct ms as [|m ms]; [done|]. destruct (A m) as [Hin|(x & Hin & _)].
    + apply elem_of_cons. auto.
    + rewrite Hnil in Hin. by apply elem_of_nil in Hin.
    + rewrite Hnil in Hin. by apply elem_of_nil in Hin.
Qed.

(** The sorted order does not depend on how the methods are listed. *)
Lemma sorted_order_unique args ms l amb l' amb' :
  (forall a b, a ∈ ms -> b ∈ ms -> ready_methods W args a b) ->
  (forall a b, a ∈ ms -> b ∈ ms -> duplicates W args a b -> a = b) ->
  sorted_order W args ms l amb -> sorted_order W args ms l' amb' ->
  NoDup (l ++ amb) -> NoDup (l' ++ amb') -> l = l' /\ amb ≡ₚ amb'.
Proof.
  intros Hr Hd [S1 S2 S3 S4] [S1' S2' S3' S4'] Hn Hn'.
  assert (Hp : l ++ amb ≡ₚ l' ++ amb').
  { apply NoDup_Permutation; [done..|]. intros m. split; intros Hm.
    - destruct (S2' m (S1 m Hm)) as [?|(x & Hx & Hdup)]; [done|]. apply Hd in Hdup; [by subst|auto..].
    - destruct (S2 m (S1' m Hm)) as [?|(x & Hx & Hdup)]; [done|]. apply Hd in Hdup; [by subst|auto..]. }
  assert (Hno : forall a b, a ∈ ms -> b ∈ ms -> precedes W args a b -> ~ precedes W args b a).
  { intros a b Ha Hb. apply precedes_not_both. auto. }
  clear Hr Hd S2 S2'. revert l' Hp S1 S1' S3 S3' Hn Hn'. induction l as [|m l IH]; intros [|m' l'] Hp S1 S1' S3 S3' Hn Hn'.
  - done.
  - exfalso. cbn in Hp. destruct (S4 m') as (x & X1 & X2 & X3).
    { rewrite Hp. apply elem_of_cons. auto. }
    apply X3. apply (S3' [] m' l' eq_refl). rewrite Hp in X1. by apply elem_of_cons in X1 as [?|?].
  - exfalso. cbn in Hp. destruct (S4' m) as (x & X1 & X2 & X3).
    { rewrite <- Hp. apply elem_of_cons. auto. }
    apply X3. apply (S3 [] m l eq_refl). rewrite <- Hp in X1. by apply elem_of_cons in X1 as [?|?].
  - assert (m = m') as <-.
    { destruct (decide (m = m')) as [?|Hne]; [done|]. exfalso. cbn in Hp.
      assert (M1 : m' ∈ l ++ amb).
      { assert (m' ∈ m :: l ++ amb) as [?|?]%elem_of_cons by (rewrite Hp; apply elem_of_cons; auto); congruence. }
      assert (M2 : m ∈ l' ++ amb').
      { assert (m ∈ m' :: l' ++ amb') as [?|?]%elem_of_cons by (rewrite <- Hp; apply elem_of_cons; auto); congruence. }
      apply (Hno m m').
      - apply S1. cbn. apply elem_of_cons. auto.
      - apply S1'. cbn. apply elem_of_cons. auto.
      - by apply (S3 [] m l).
      - by apply (S3' [] m' l'). }
    cbn in Hp, Hn, Hn'. apply Permutation_cons_inv in Hp. apply NoDup_cons in Hn as [_ Hn]. apply NoDup_cons in Hn' as [_ Hn'].
    destruct (IH l') as [-> ?]; try done.
    + intros x Hx. apply S1. cbn. apply elem_of_cons. auto.
    + intros x Hx. apply S1'. cbn. apply elem_of_cons. auto.
    + intros l1 x l2 ->. by apply (S3 (m :: l1)).
    + intros l1 x l2 ->. by apply (S3' (m :: l1)).
Qed.
End world.
