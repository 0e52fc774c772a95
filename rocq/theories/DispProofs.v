(** Ordering and sorting of methods. *)
From Verif Require Import Base ClassModel ClassSpec ClassProofs TypeModel TypeSpec TypeProofs DispModel DispSpec.
From Coq Require Import ZifyBool ZifyNat.
Local Open Scope outcome_scope.
Local Open Scope nat_scope.

Section world.
Context (W : world) (HW : wf_world W).
Local Notation st := (w_classes W).
Local Notation T := (supers_table st).

Lemma first_of_ok c1 c2 l : c1 <> c2 -> c1 ∈ l -> c2 ∈ l -> NoDup l ->
  exists b, first_of c1 c2 l = Val b /\ (b = true <-> before l c1 c2) /\ (b = false <-> before l c2 c1).
Proof.
  intros Hne. induction l as [|c l IH]; [by rewrite elem_of_nil|].
  rewrite !elem_of_cons, NoDup_cons. intros H1 H2 [Hc Hnd]. cbn.
  destruct (Nat.eqb_spec c c1) as [->|N1].
  { exists true. destruct H2 as [->|H2]; [done|]. split; [done|]. split.
    - split; [|done]. intros _. by exists [], l.
    - split; [done|]. intros (l1 & l2 & Heq & Hin). exfalso. destruct l1 as [|a l1]; cbn in Heq; injection Heq as E1 E2.
      + done.
      + apply Hc. rewrite E2, elem_of_app, elem_of_cons. auto. }
  destruct (Nat.eqb_spec c c2) as [->|N2].
  { exists false. destruct H1 as [->|H1]; [done|]. split; [done|]. split.
    - split; [done|]. intros (l1 & l2 & Heq & Hin). exfalso. destruct l1 as [|a l1]; cbn in Heq; injection Heq as E1 E2.
      + done.
      + apply Hc. rewrite E2, elem_of_app, elem_of_cons. auto.
    - split; [|done]. intros _. by exists [], l. }
  destruct H1 as [->|H1]; [done|]. destruct H2 as [->|H2]; [done|].
  destruct (IH H1 H2 Hnd) as (b & -> & Ht & Hf). exists b. split; [done|].
  assert (Hb : forall a b', a <> c -> before (c :: l) a b' <-> before l a b').
  { intros a b' Ha. split.
    - intros (l1 & l2 & Heq & Hin). destruct l1 as [|y l1]; cbn in Heq; injection Heq as E1 E2; [done|].
      by exists l1, l2.
    - intros (l1 & l2 & -> & Hin). by exists (c :: l1), l2. }
  rewrite !Hb by done. done.
Qed.

Lemma precedence_list_cpl c : precedence_list W c = cpl_of st c.
Proof. unfold precedence_list, cpl_of. by destruct (st !! c). Qed.

Lemma class_lt_ok c1 c2 d : d < length st -> c1 <> c2 -> Inherits T d c1 -> Inherits T d c2 ->
  exists b, class_lt W c1 c2 d = Val b /\
    (b = true <-> before (precedence_list W d) c1 c2) /\ (b = false <-> before (precedence_list W d) c2 c1).
Proof.
  intros Hd Hne H1 H2. pose proof (world_wf W HW) as Hwf.
  destruct (lookup_lt_is_Some_2 _ _ Hd) as [ic Hic].
  unfold class_lt, vread. rewrite Hic. cbn [obind].
  rewrite precedence_list_cpl, (cpl_of_lookup _ _ _ Hic). apply first_of_ok; [done|..].
  - rewrite <- (cpl_of_lookup _ _ _ Hic). apply cpl_members; [apply Hwf|done..].
  - rewrite <- (cpl_of_lookup _ _ _ Hic). apply cpl_members; [apply Hwf|done..].
  - rewrite <- (cpl_of_lookup _ _ _ Hic), cpl_of_cores. apply tcpl_nodup. apply Hwf.
Qed.

Lemma before_irrefl l c : NoDup l -> ~ before l c c.
Proof.
  intros Hnd (l1 & l2 & -> & Hin). apply NoDup_app in Hnd as (_ & _ & Hnd). apply NoDup_cons in Hnd. tauto.
Qed.
Lemma precedence_nodup c : NoDup (precedence_list W c).
Proof. rewrite precedence_list_cpl, cpl_of_cores. apply tcpl_nodup. apply (world_wf W HW). Qed.

(** The answer [o] of a comparison of [t1] and [t2] for [x]. *)
Definition order_tells (o : order) (P Q E : Prop) : Prop :=
  (o = OLess <-> P) /\ (o = OGreater <-> Q) /\ (o = OEqual <-> E).
Lemma order_tells_iff o P Q E P' Q' E' : order_tells o P Q E -> (P <-> P') -> (Q <-> Q') -> (E <-> E') ->
  order_tells o P' Q' E'.
Proof. unfold order_tells. tauto. Qed.

Lemma inst_class x c : Inst W x (TClass c) <-> Inherits T (class_of W x) c.
Proof. done. Qed.

Lemma order_classes_ok c1 c2 x : wf_obj W x -> Inst W x (TClass c1) -> Inst W x (TClass c2) ->
  exists o nt, order_classes W c1 c2 x = Val (o, nt) /\
    order_tells o (more_specific W x (TClass c1) (TClass c2)) (more_specific W x (TClass c2) (TClass c1)) (c1 = c2) /\
    (nt = TClass c1 \/ nt = TClass c2) /\ o <> OAmbiguous.
Proof.
  intros Hx H1 H2. unfold order_classes. cbn [more_specific]. destruct (Nat.eqb_spec c1 c2) as [->|Hne].
  { exists OEqual, (TClass c2). split; [done|]. split; [|split; [by left|done]].
    pose proof (before_irrefl _ c2 (precedence_nodup (class_of W x))). unfold order_tells. intuition discriminate. }
  destruct (class_lt_ok c1 c2 (class_of W x)) as (b & -> & Ht & Hf); [by apply class_of_lt|done..|].
  cbn [obind]. destruct b.
  - exists OLess, (TClass c1). split; [done|]. split; [|split; [by left|done]]. unfold order_tells. intuition discriminate.
  - exists OGreater, (TClass c2). split; [done|]. split; [|split; [by right|done]]. unfold order_tells. intuition discriminate.
Qed.

Lemma before_head c d : c < length st -> Inherits T c d ->
  (before (precedence_list W c) c d <-> d <> c) /\ ~ before (precedence_list W c) d c.
Proof.
  intros Hc Hi. pose proof (precedence_nodup c) as Hnd. rewrite precedence_list_cpl in *.
  rewrite <- (cpl_members st c d) in Hi by first [apply (world_wf W HW)|done].
  rewrite cpl_of_cores in *. destruct (tcpl_head (cores st) (ws_tab _ (world_wf W HW)) c) as [t Ht].
  { by rewrite cores_length. }
  rewrite Ht in *. apply NoDup_cons in Hnd as [Hnt Hnd]. split; [split|].
  - intros Hb ->. eapply before_irrefl; [|exact Hb]. by apply NoDup_cons.
  - intros Hne. apply elem_of_cons in Hi as [->|Hi]; [done|]. by exists [], t.
  - intros (l1 & l2 & Heq & Hin). apply Hnt. destruct l1 as [|y l1]; cbn in Heq; injection Heq as E1 E2.
    + by subst.
    + rewrite E2, elem_of_app, elem_of_cons. auto.
Qed.

Definition comparable (t1 t2 : ty) : Prop :=
  wf_specializer W t1 /\ wf_specializer W t2 /\ unmixed2 t1 t2.

Lemma unmixed2_sym t1 t2 : unmixed2 t1 t2 -> unmixed2 t2 t1.
Proof. unfold unmixed2. tauto. Qed.

Lemma subtype_val t1 t2 : comparable t1 t2 -> exists b, subtype W t1 t2 = Val b.
Proof.
  intros ((H1 & _) & (H2 & _) & Hu). destruct (subtype_ok W HW t1 t2 H1 H2 Hu) as (b & Hb & _). by exists b.
Qed.
Lemma subtype_refl t : wf_specializer W t -> unmixed2 t t -> subtype W t t = Val true.
Proof.
  intros (H1 & H2 & _) Hu. eapply tells_val; [by apply subtype_ok|]. by apply Sub_refl.
Qed.
Lemma subtype_sound t1 t2 x : wf_obj W x -> wf_specializer W t1 -> wf_specializer W t2 ->
  subtype W t1 t2 = Val true -> Inst W x t1 -> Inst W x t2.
Proof.
  intros Hx (H1 & _) (H2 & _ & H3) Hs. apply Sub_sound; [done..|]. by apply subtype_true.
Qed.

Lemma order_default_ok t1 t2 x : wf_obj W x -> comparable t1 t2 ->
  Inst W x t1 -> Inst W x t2 ->
  exists o nt, order_default W t1 t2 = Val (o, nt) /\
    order_tells o (subtype W t1 t2 = Val true /\ subtype W t2 t1 = Val false)
      (subtype W t2 t1 = Val true /\ subtype W t1 t2 = Val false)
      (subtype W t1 t2 = Val true /\ subtype W t2 t1 = Val true) /\
    (o <> OAmbiguous -> nt = t1 \/ nt = t2).
Proof.
  intros Hx Hc H1 H2. destruct (subtype_val _ _ Hc) as [a Ha].
  destruct (subtype_val t2 t1) as [b Hb]. { destruct Hc as (? & ? & ?). split; [done|]. split; [done|]. by apply unmixed2_sym. }
  unfold order_default. rewrite Ha. cbn [obind]. rewrite Hb. cbn [obind].
  destruct a, b; eexists _, _; (split; [reflexivity|]); (split; [unfold order_tells; intuition congruence|auto; intuition congruence]).
Qed.

Lemma order_specializers_ok t1 t2 x : wf_obj W x -> comparable t1 t2 ->
  Inst W x t1 -> Inst W x t2 ->
  exists o nt, order_specializers W t1 t2 x = Val (o, nt) /\
    order_tells o (more_specific W x t1 t2) (more_specific W x t2 t1) (alike W t1 t2) /\
    (o <> OAmbiguous -> nt = t1 \/ nt = t2).
Proof.
  intros Hx Hc H1 H2.
  assert (Hself : t1 = t2 -> exists o nt, order_specializers W t1 t2 x = Val (o, nt) /\
    order_tells o (more_specific W x t1 t2) (more_specific W x t2 t1) (alike W t1 t2) /\
    (o <> OAmbiguous -> nt = t1 \/ nt = t2)).
  { intros <-. exists OEqual, t1. unfold order_specializers. rewrite bool_decide_true by done.
    split; [done|]. split; [|by left]. destruct Hc as (Hc & _ & Hu).
    assert (alike W t1 t1 /\ ~ more_specific W x t1 t1) as [Ha Hm].
    { pose proof (subtype_refl t1 Hc Hu) as Hr. destruct t1 as [c|o|a b|mn mx|c]; cbn [alike more_specific].
      - split; [done|]. apply before_irrefl, precedence_nodup.
      - split; [done|tauto].
      - rewrite Hr. split; [done|]. by intros [_ ?].
      - rewrite Hr. split; [done|]. by intros [_ ?].
      - split; [done|]. intros (d & -> & Hb). revert Hb. apply before_irrefl, precedence_nodup. }
    unfold order_tells. intuition discriminate. }
  destruct (decide (t1 = t2)) as [Heq|Hne]; [by apply Hself|]. clear Hself.
  unfold order_specializers. rewrite bool_decide_false by done.
  assert (HD := order_default_ok t1 t2 x Hx Hc H1 H2).
  assert (Hsing : forall o, t1 <> TSing o -> more_specific W x (TSing o) t1 -> True) by done. clear Hsing.
  destruct t1 as [c1|o1|a1 b1|mn1 mx1|c1], t2 as [c2|o2|a2 b2|mn2 mx2|c2];
    try (exact HD);
    try (eexists _, _; split; [reflexivity|]; split; [|by auto]; cbn [more_specific alike];
         unfold order_tells; intuition discriminate).
  - destruct (order_classes_ok c1 c2 x Hx H1 H2) as (o & nt & -> & Ht & Hn & _). exists o, nt.
    split; [done|]. split; [done|]. intros _. done.
  - destruct H2 as (d & -> & Hd). cbn [Inst class_of] in H1.
    assert (Hcl : c1 < length st) by apply Hc.
    destruct (sub_ok W HW (w_class W) c1) as (b & -> & Hb); [apply HW|done|].
    destruct b; [|destruct Hb as [_ Hb]; by specialize (Hb H1)]. cbn [obind].
    destruct (Nat.eqb_spec c2 object_class) as [->|Hn].
    + destruct (order_classes_ok c1 (w_class W) (OClass d) Hx) as (o & nt & -> & Ht & Hnt & Ho).
      { done. } { apply inst_class. cbn. apply inherits_refl. rewrite supers_table_length. apply HW. }
      cbn [obind]. exists o, (TSubclass object_class). split; [done|]. split; [|auto].
      destruct (before_head (w_class W) c1) as [B1 B2]; [apply HW|done|].
      eapply order_tells_iff; [exact Ht|..]; cbn [more_specific alike class_of]; tauto.
    + exists OGreater, (TSubclass c2). split; [done|]. split; [|auto]. cbn [more_specific alike]. unfold order_tells.
      intuition congruence.
  - destruct H1 as (d & -> & Hd). cbn [Inst class_of] in H2.
    assert (Hcl : c2 < length st) by apply Hc.
    destruct (sub_ok W HW (w_class W) c2) as (b & -> & Hb); [apply HW|done|].
    destruct b; [|destruct Hb as [_ Hb]; by specialize (Hb H2)]. cbn [obind].
    destruct (Nat.eqb_spec c1 object_class) as [->|Hn].
    + destruct (order_classes_ok (w_class W) c2 (OClass d) Hx) as (o & nt & -> & Ht & Hnt & Ho).
      { apply inst_class. cbn. apply inherits_refl. rewrite supers_table_length. apply HW. } { done. }
      cbn [obind]. exists o, (TSubclass object_class). split; [done|]. split; [|auto].
      destruct (before_head (w_class W) c2) as [B1 B2]; [apply HW|done|].
      eapply order_tells_iff; [exact Ht|..]; cbn [more_specific alike class_of]; intuition congruence.
    + exists OLess, (TSubclass c1). split; [done|]. split; [|auto]. cbn [more_specific alike]. unfold order_tells.
      intuition congruence.
  - destruct H1 as (d & -> & Hd). destruct H2 as (d' & [= <-] & Hd').
    destruct (Nat.eqb_spec c1 c2) as [->|Hn]; [done|].
    destruct (class_lt_ok c1 c2 d Hx Hn Hd Hd') as (b & -> & Ht & Hf). cbn [obind more_specific alike].
    assert (Hex : forall P : nat -> Prop, (exists d0, OClass d = OClass d0 /\ P d0) <-> P d).
    { intros P. split; [by intros (? & [= <-] & ?)|]. intros HP. by exists d. }
    destruct b; eexists _, _; (split; [reflexivity|]); (split; [|by auto]); unfold order_tells; rewrite !Hex;
      intuition congruence.
Qed.

(** ** Methods *)

Definition pos (args : list obj) (s1 s2 : list ty) (i : nat) (R : obj -> ty -> ty -> Prop) : Prop :=
  exists x t1 t2, args !! i = Some x /\ s1 !! i = Some t1 /\ s2 !! i = Some t2 /\ R x t1 t2.
Lemma pos_0 x args t1 s1 t2 s2 R : pos (x :: args) (t1 :: s1) (t2 :: s2) 0 R <-> R x t1 t2.
Proof. split; [by intros (? & ? & ? & [= ->] & [= ->] & [= ->] & ?)|]. intros H. by exists x, t1, t2. Qed.
Lemma pos_S x args t1 s1 t2 s2 R i : pos (x :: args) (t1 :: s1) (t2 :: s2) (S i) R <-> pos args s1 s2 i R.
Proof. done. Qed.
Lemma pos_all_cons x args t1 s1 t2 s2 R :
  (forall i, i < length (x :: args) -> pos (x :: args) (t1 :: s1) (t2 :: s2) i R) <->
  R x t1 t2 /\ forall i, i < length args -> pos args s1 s2 i R.
Proof.
  split.
  - intros H. split; [|intros i Hi]; [apply (pos_0 x args t1 s1 t2 s2 R), H; cbn; lia|].
    apply (H (S i)). cbn. lia.
  - intros [H0 H] [|i] Hi; [by apply pos_0|]. apply pos_S, H. cbn in Hi. lia.
Qed.
Lemma pos_ex_cons x args t1 s1 t2 s2 R :
  (exists i, pos (x :: args) (t1 :: s1) (t2 :: s2) i R) <-> R x t1 t2 \/ exists i, pos args s1 s2 i R.
Proof.
  split.
  - intros [[|i] H]; [left; exact (proj1 (pos_0 _ _ _ _ _ _ _) H)|]. right. exists i. exact H.
  - intros [H|[i H]]; [exists 0; by apply pos_0|]. exists (S i). exact H.
Qed.
Lemma pos_sym args s1 s2 i (R : obj -> ty -> ty -> Prop) :
  pos args s1 s2 i R <-> pos args s2 s1 i (fun x t1 t2 => R x t2 t1).
Proof. split; intros (x & t1 & t2 & ? & ? & ? & ?); by exists x, t2, t1. Qed.

Definition ready (x : obj) (t1 t2 : ty) : Prop :=
  wf_obj W x /\ comparable t1 t2 /\ Inst W x t1 /\ Inst W x t2.

Lemma order_methods_loop_ok args s1 s2 state : Forall3 ready args s1 s2 -> state <> OAmbiguous ->
  exists o, order_methods_loop W s1 s2 args state = Val o /\
    (o = OLess <-> state <> OGreater /\
       (forall i, i < length args -> pos args s1 s2 i (fun x t1 t2 => alike W t1 t2 \/ more_specific W x t1 t2)) /\
       (state = OLess \/ exists i, pos args s1 s2 i (more_specific W))) /\
    (o = OGreater <-> state <> OLess /\
       (forall i, i < length args -> pos args s1 s2 i (fun x t1 t2 => alike W t1 t2 \/ more_specific W x t2 t1)) /\
       (state = OGreater \/ exists i, pos args s1 s2 i (fun x t1 t2 => more_specific W x t2 t1))) /\
    (o = OEqual <-> state = OEqual /\ forall i, i < length args -> pos args s1 s2 i (fun _ t1 t2 => alike W t1 t2)).
Proof.
  intros H. revert state. induction H as [|x t1 t2 args s1 s2 (Hx & Hc & H1 & H2) HF IH]; intros state Hs.
  - exists state. split; [done|].
    assert (Hno : forall R, (exists i, pos [] [] [] i R) <-> False).
    { intros R. split; [|done]. by intros (i & ? & ? & ? & ? & ?). }
    assert (Hall : forall R, (forall i, i < length (@nil obj) -> pos [] [] [] i R) <-> True).
    { intros R. split; [done|]. cbn. lia. }
    rewrite !Hno, !Hall. destruct state; intuition congruence.
  - cbn [order_methods_loop].
    destruct (order_specializers_ok t1 t2 x Hx Hc H1 H2) as (cmp & nt & -> & (Tl & Tg & Te) & _). cbn [obind].
    case_bool_decide as E1.
    { destruct (IH state Hs) as (o & -> & I1 & I2 & I3). exists o. split; [done|]. rewrite !pos_all_cons, !pos_ex_cons; cbn beta.
      subst cmp. assert (alike W t1 t2) by (by apply Te).
      assert (~ more_specific W x t1 t2) by (rewrite <- Tl; done).
      assert (~ more_specific W x t2 t1) by (rewrite <- Tg; done). tauto. }
    assert (Hna : ~ alike W t1 t2) by (by rewrite <- Te).
    destruct (bool_decide (cmp ≠ OAmbiguous) && (bool_decide (state = OEqual) || bool_decide (cmp = state))) eqn:Hb.
    + rewrite andb_true_iff, orb_true_iff, !bool_decide_eq_true in Hb. destruct Hb as [Hn Hst].
      destruct (IH cmp Hn) as (o & -> & I1 & I2 & I3). exists o. split; [done|]. rewrite !pos_all_cons, !pos_ex_cons; cbn beta.
      destruct cmp; try done.
      * assert (more_specific W x t1 t2) by (by apply Tl). assert (~ more_specific W x t2 t1) by (rewrite <- Tg; done).
        destruct Hst as [->| <-]; intuition congruence.
      * assert (more_specific W x t2 t1) by (by apply Tg). assert (~ more_specific W x t1 t2) by (rewrite <- Tl; done).
        destruct Hst as [->| <-]; intuition congruence.
    + rewrite andb_false_iff, orb_false_iff, !bool_decide_eq_false in Hb. exists OAmbiguous. split; [done|]. rewrite !pos_all_cons, !pos_ex_cons; cbn beta.
      destruct cmp; try done.
      * assert (more_specific W x t1 t2) by (by apply Tl). assert (~ more_specific W x t2 t1) by (rewrite <- Tg; done).
        destruct state; intuition congruence.
      * assert (more_specific W x t2 t1) by (by apply Tg). assert (~ more_specific W x t1 t2) by (rewrite <- Tl; done).
        destruct state; intuition congruence.
      * assert (~ more_specific W x t1 t2) by (rewrite <- Tl; done). assert (~ more_specific W x t2 t1) by (rewrite <- Tg; done).
        destruct state; intuition congruence.
Qed.

Lemma alike_sym t1 t2 : alike W t1 t2 -> alike W t2 t1.
Proof. destruct t1, t2; cbn; tauto || congruence. Qed.

Definition ready_methods (args : list obj) (m1 m2 : meth) : Prop :=
  Forall3 ready args (m_specs m1) (m_specs m2).

Lemma duplicates_sym args m1 m2 : duplicates W args m1 m2 -> duplicates W args m2 m1.
Proof.
  intros H i Hi. destruct (H i Hi) as (x & t1 & t2 & ? & ? & ? & ?). exists x, t2, t1. split_and!; try done. by apply alike_sym.
Qed.

Lemma order_methods_ok args m1 m2 : ready_methods args m1 m2 ->
  exists o, order_methods W m1 m2 args = Val o /\
    order_tells o (precedes W args m1 m2) (precedes W args m2 m1) (duplicates W args m1 m2).
Proof.
  intros H. destruct (order_methods_loop_ok args (m_specs m1) (m_specs m2) OEqual H) as (o & Ho & I1 & I2 & I3); [done|].
  exists o. split; [done|]. unfold order_tells, precedes, duplicates, at_position.
  unfold pos in *. split; [|split].
  - rewrite I1. intuition congruence.
  - rewrite I2. split.
    + intros (_ & Ha & He). split.
      * intros i Hi. destruct (Ha i Hi) as (x & t1 & t2 & ? & ? & ? & Hr). exists x, t2, t1. split_and!; try done.
        destruct Hr; [left; by apply alike_sym|by right].
      * destruct He as [|(i & x & t1 & t2 & ? & ? & ? & Hr)]; [done|]. by exists i, x, t2, t1.
    + intros (Ha & He). split; [done|]. split.
      * intros i Hi. destruct (Ha i Hi) as (x & t1 & t2 & ? & ? & ? & Hr). exists x, t2, t1. split_and!; try done.
        destruct Hr; [left; by apply alike_sym|by right].
      * right. destruct He as (i & x & t1 & t2 & ? & ? & ? & Hr). by exists i, x, t2, t1.
  - rewrite I3. intuition congruence.
Qed.

(** ** Desperate comparison: it ends, with an answer. *)

Lemma union_dec t : (exists a b, t = TUnion a b) \/ ~ (exists a b, t = TUnion a b).
Proof. destruct t; first [by left; eauto|right; intros (? & ? & ?); done]. Qed.

Lemma order_desperately_ok x : wf_obj W x -> forall n t1 t2, ty_size t1 + ty_size t2 <= n ->
  comparable t1 t2 -> Inst W x t1 -> Inst W x t2 ->
  exists o nt, order_desperately n W t1 t2 x = Val (o, nt) /\
    (o <> OAmbiguous -> ty_size nt <= ty_size t1 `max` ty_size t2 /\ Inst W x nt /\
       forall t, comparable t1 t -> comparable t2 t -> comparable nt t).
Proof.
  intros Hx. induction n as [|n IH]; intros t1 t2 Hn Hc H1 H2.
  { destruct t1; cbn in Hn; lia. }
  cbn [order_desperately]. case_bool_decide as Heq.
  { exists OEqual, t1. split; [done|]. intros _. split; [lia|]. split; [done|]. auto. }
  assert (Hparts : forall a b t, comparable (TUnion a b) t ->
    comparable a t /\ comparable b t /\ comparable a b /\ wf_ty W a /\ wf_ty W b).
  { unfold comparable, wf_specializer, unmixed2. intros a b t. cbn. tauto. }
  assert (Hsym : forall a b, comparable a b -> comparable b a).
  { unfold comparable, unmixed2. tauto. }
  destruct (union_dec t1) as [(a & b & ->)|Hnu1].
  { destruct (Hparts _ _ _ Hc) as (Ca & Cb & Cab & Wa & Wb). cbn in Hn.
    destruct (instance_ok W HW x a Hx Wa) as (ba & -> & Ia). cbn [obind].
    destruct (instance_ok W HW x b Hx Wb) as (bb & -> & Ib).
    destruct ba; cbn [obind].
    - destruct bb; cbn [obind].
      + destruct (IH a b) as (o & nt & -> & Hnt); [lia|done|by apply Ia|by apply Ib|]. cbn [obind].
        case_bool_decide as Ho.
        { exists o, nt. split; [done|]. done. }
        destruct (Hnt Ho) as (N1 & N2 & N3).
        destruct (IH nt t2) as (o' & nt' & -> & Hnt'); [lia|by apply N3|done|done|].
        exists o', nt'. split; [done|]. intros Ho'. destruct (Hnt' Ho') as (P1 & P2 & P3). cbn [ty_size].
        split; [lia|]. split; [done|]. intros t Ct1 Ct2. destruct (Hparts _ _ _ Ct1) as (? & ? & ?). auto.
      + destruct (IH a t2) as (o' & nt' & -> & Hnt'); [lia|done|by apply Ia|done|].
        exists o', nt'. split; [done|]. intros Ho'. destruct (Hnt' Ho') as (P1 & P2 & P3). cbn [ty_size].
        split; [lia|]. split; [done|]. intros t Ct1 Ct2. destruct (Hparts _ _ _ Ct1) as (? & ? & ?). auto.
    - destruct bb; cbn [obind].
      + destruct (IH b t2) as (o' & nt' & -> & Hnt'); [lia|done|by apply Ib|done|].
        exists o', nt'. split; [done|]. intros Ho'. destruct (Hnt' Ho') as (P1 & P2 & P3). cbn [ty_size].
        split; [lia|]. split; [done|]. intros t Ct1 Ct2. destruct (Hparts _ _ _ Ct1) as (? & ? & ?). auto.
      + exfalso. destruct H1 as [H1|H1]; [apply Ia in H1|apply Ib in H1]; discriminate. }
  destruct (union_dec t2) as [(a & b & ->)|Hnu2].
  { destruct (Hparts _ _ _ (Hsym _ _ Hc)) as (Ca & Cb & Cab & Wa & Wb). cbn in Hn.
    destruct (instance_ok W HW x a Hx Wa) as (ba & Ea & Ia).
    destruct (instance_ok W HW x b Hx Wb) as (bb & Eb & Ib).
    assert (Hex : exists o nt,
      (do il <- instance W x a ;
            if (il : bool) then
              do ir <- instance W x b ;
              if (ir : bool) then
                do ' (o, nt) <- order_desperately n W a b x ;
                if bool_decide (o = OAmbiguous) then Val (o, nt)
                else order_desperately n W t1 nt x
              else order_desperately n W t1 a x
            else
              do ir <- instance W x b ;
              if (ir : bool) then order_desperately n W t1 b x
              else Signal "You shouldn't get here either!") = Val (o, nt) /\
     (o <> OAmbiguous -> ty_size nt <= ty_size t1 `max` ty_size (TUnion a b) /\ Inst W x nt /\
       forall t, comparable t1 t -> comparable (TUnion a b) t -> comparable nt t)).
    { rewrite Ea, Eb. destruct ba; cbn [obind].
      - destruct bb; cbn [obind].
        + destruct (IH a b) as (o & nt & -> & Hnt); [lia|done|by apply Ia|by apply Ib|]. cbn [obind].
          case_bool_decide as Ho.
          { exists o, nt. split; [done|]. done. }
          destruct (Hnt Ho) as (N1 & N2 & N3).
          destruct (IH t1 nt) as (o' & nt' & -> & Hnt'); [lia|by apply Hsym, N3|done|done|].
          exists o', nt'. split; [done|]. intros Ho'. destruct (Hnt' Ho') as (P1 & P2 & P3). cbn [ty_size].
          split; [lia|]. split; [done|]. intros t Ct1 Ct2. destruct (Hparts _ _ _ Ct2) as (? & ? & ?). auto.
        + destruct (IH t1 a) as (o' & nt' & -> & Hnt'); [lia|by apply Hsym|done|by apply Ia|].
          exists o', nt'. split; [done|]. intros Ho'. destruct (Hnt' Ho') as (P1 & P2 & P3). cbn [ty_size].
          split; [lia|]. split; [done|]. intros t Ct1 Ct2. destruct (Hparts _ _ _ Ct2) as (? & ? & ?). auto.
      - destruct bb; cbn [obind].
        + destruct (IH t1 b) as (o' & nt' & -> & Hnt'); [lia|by apply Hsym|done|by apply Ib|].
          exists o', nt'. split; [done|]. intros Ho'. destruct (Hnt' Ho') as (P1 & P2 & P3). cbn [ty_size].
          split; [lia|]. split; [done|]. intros t Ct1 Ct2. destruct (Hparts _ _ _ Ct2) as (? & ? & ?). auto.
        + exfalso. destruct H2 as [H2|H2]; [apply Ia in H2|apply Ib in H2]; discriminate. }
    destruct t1; try exact Hex. exfalso. apply Hnu1. eauto. }
  destruct (order_specializers_ok t1 t2 x Hx Hc H1 H2) as (o & nt & Ho & _ & Hnt).
  exists o, nt. split.
  { destruct t1; try (exfalso; by apply Hnu1; eauto); destruct t2; try (exfalso; by apply Hnu2; eauto); done. }
  intros Hoa. destruct (Hnt Hoa) as [-> | ->]; (split; [lia|]); (split; [done|]); auto.
Qed.

Lemma order_position_ok t1 t2 x : ready x t1 t2 -> exists o, order_position W t1 t2 x = Val o /\
  (more_specific W x t1 t2 -> o = OLess) /\ (more_specific W x t2 t1 -> o = OGreater) /\ (alike W t1 t2 -> o = OEqual).
Proof.
  intros (Hx & Hc & H1 & H2). unfold order_position.
  destruct (order_specializers_ok t1 t2 x Hx Hc H1 H2) as (cmp & nt & -> & (Tl & Tg & Te) & _). cbn [obind].
  case_bool_decide as E.
  - destruct (order_desperately_ok x Hx _ t1 t2 (le_n _) Hc H1 H2) as (o & nt' & -> & _). exists o.
    split; [done|]. rewrite <- Tl, <- Tg, <- Te. subst cmp. done.
  - exists cmp. split; [done|]. by rewrite <- Tl, <- Tg, <- Te.
Qed.

Lemma order_methods_desperately_ok args s1 s2 b : Forall3 ready args s1 s2 ->
  exists o, order_methods_desperately_loop W s1 s2 args b = Val o /\
    ((forall i, i < length args -> pos args s1 s2 i (fun x t1 t2 => alike W t1 t2 \/ more_specific W x t1 t2)) ->
     (exists i, pos args s1 s2 i (more_specific W)) -> o = OLess) /\
    ((forall i, i < length args -> pos args s1 s2 i (fun x t1 t2 => alike W t1 t2 \/ more_specific W x t2 t1)) ->
     (exists i, pos args s1 s2 i (fun x t1 t2 => more_specific W x t2 t1)) -> o = OGreater).
Proof.
  intros H. revert b. induction H as [|x t1 t2 args s1 s2 Hr HF IH]; intros b.
  - eexists. split; [reflexivity|]. split; intros _ (i & ? & ? & ? & ? & ?); done.
  - cbn [order_methods_desperately_loop]. destruct (order_position_ok t1 t2 x Hr) as (cmp & -> & Cl & Cg & Ce).
    cbn [obind].
    destruct (IH (b || bool_decide (cmp = OAmbiguous))) as (o & Ho & I1 & I2).
    destruct cmp.
    + exists OLess. split; [done|]. rewrite !pos_all_cons, !pos_ex_cons; cbn beta. split; [done|]. intros [[Ha|Ha] _]; [by specialize (Ce Ha)|by specialize (Cg Ha)].
    + exists OGreater. split; [done|]. rewrite !pos_all_cons, !pos_ex_cons; cbn beta. split; [|done]. intros [[Ha|Ha] _]; [by specialize (Ce Ha)|by specialize (Cl Ha)].
    + exists o. split; [done|]. rewrite !pos_all_cons, !pos_ex_cons; cbn beta. split.
      * intros [Ha Hall] [He|He]; [by specialize (Cl He)|auto].
      * intros [Ha Hall] [He|He]; [by specialize (Cg He)|auto].
    + exists o. split; [done|]. rewrite !pos_all_cons, !pos_ex_cons; cbn beta. split.
      * intros [Ha Hall]. exfalso. destruct Ha as [Ha|Ha]; [by specialize (Ce Ha)|by specialize (Cl Ha)].
      * intros [Ha Hall]. exfalso. destruct Ha as [Ha|Ha]; [by specialize (Ce Ha)|by specialize (Cg Ha)].
Qed.
End world.
