(** Proofs about [instance?], [subtype?] and [disjoint-types?]. *)
From Verif Require Import Base ClassModel ClassSpec ClassProofs ClassProps TypeModel TypeSpec.
From Coq Require Import ZifyBool.

Section types.
Context (W : world) (HW : wf_world W).

Notation st := (w_classes W).
Notation T := (supers_table (w_classes W)).

Lemma world_wf : wf_st st.
Proof. destruct (ww_history _ HW) as (ops & _ & ->). apply run_classes_wf. Qed.
Lemma world_rooted : rooted st.
Proof. destruct (ww_history _ HW) as (ops & Hr & ->). by apply run_classes_rooted. Qed.

Lemma sub_ok x y : x < length st -> y < length st ->
  exists b, subclass st x y = Val b /\ (b = true <-> Inherits T x y).
Proof. intros Hx Hy. apply subclass_ok; [apply world_wf|done|done|right; by apply world_rooted]. Qed.
Lemma inst_ok x y : x < length st -> y < length st ->
  exists b, class_instance st x y = Val b /\ (b = true <-> Inherits T x y).
Proof. intros Hx Hy. apply class_instance_ok; [apply world_wf|done|done|right; by apply world_rooted]. Qed.

Lemma class_of_lt x : wf_obj W x -> class_of W x < length st.
Proof. destruct x; cbn; intros H; [apply HW|tauto|apply HW|tauto]. Qed.

Lemma is_integer x : wf_obj W x -> Inherits T (class_of W x) (w_integer W) <-> exists i, x = OInt i.
Proof.
  intros Hx. split.
  - intros H. apply (ww_integer_leaf _ HW) in H. destruct x; cbn in *; [by eexists|tauto| |tauto].
    by destruct (ww_different _ HW).
  - intros [i ->]. cbn. apply inherits_refl. rewrite supers_table_length. apply HW.
Qed.
Lemma is_class x : wf_obj W x -> Inherits T (class_of W x) (w_class W) <-> exists c, x = OClass c.
Proof.
  intros Hx. split.
  - intros H. apply (ww_class_leaf _ HW) in H. destruct x; cbn in *; [|tauto|by eexists|tauto].
    by destruct (ww_different _ HW).
  - intros [i ->]. cbn. apply inherits_refl. rewrite supers_table_length. apply HW.
Qed.

Lemma pointer_id_true x y : pointer_id x y = true <-> x = y.
Proof. unfold pointer_id. apply bool_decide_eq_true. Qed.

Lemma value_equal_true v v' : value_equal v v' = true <-> exists n, v = Some n /\ v' = Some n.
Proof.
  unfold value_equal. destruct v as [a|], v' as [b|]; rewrite ?bool_decide_eq_true; naive_solver.
Qed.

Lemma singleton_instance_true x o : singleton_instance W x o = true <-> same_object W x o.
Proof.
  unfold singleton_instance.
  destruct o as [i|c k|c|c i v]; cbn [indirect]; rewrite ?pointer_id_true; try by destruct x.
  - destruct x as [j|c' k'|c'|c' j v']; cbn [indirect andb]; try by split.
    + cbn [class_of]. rewrite bool_decide_true by done. cbn [andb equal_same_class].
      by rewrite pointer_id_true.
    + cbn [equal_same_class]. rewrite andb_true_iff, pointer_id_true. cbn. split; [|done]. by intros [_ ?].
  - destruct x as [j|c' k'|c'|c' j v']; cbn [indirect andb]; try by split.
    + cbn [equal_same_class]. rewrite andb_true_iff, pointer_id_true. cbn. split; [|done]. by intros [_ ?].
    + cbn [class_of same_object]. rewrite andb_true_iff, bool_decide_eq_true. cbn [equal_same_class].
      destruct (w_equality W c') eqn:He; rewrite ?pointer_id_true, ?value_equal_true; [|done..].
      split.
      * intros [-> [= -> ->]]. done.
      * intros [-> [-> ->]]. done.
Qed.

Lemma limint_instance_true i mn mx : int_range i ->
  (forall m, mn = Some m -> int_range m) -> (forall m, mx = Some m -> int_range m) ->
  (forall m m', mn = Some m -> mx = Some m' -> (m <= m')%Z) ->
  limint_instance i mn mx = true <->
  (forall m, mn = Some m -> (m <= i)%Z) /\ (forall m, mx = Some m -> (i <= m)%Z).
Proof.
  intros Hi H1 H2 H3. unfold limint_instance, tagged. destruct mx as [mx|], mn as [mn|].
  - specialize (H1 _ eq_refl). specialize (H2 _ eq_refl). specialize (H3 _ _ eq_refl eq_refl).
    unfold int_range in *. rewrite bool_decide_eq_true.
    assert (HB : ((4 * mx + 1 - (4 * mn + 1)) mod word_modulus = 4 * (mx - mn))%Z).
    { rewrite Z.mod_small; unfold word_modulus; lia. }
    rewrite HB. destruct (decide (mn <= i)%Z) as [Hle|Hgt].
    + assert (HA : ((4 * i + 1 - (4 * mn + 1)) mod word_modulus = 4 * (i - mn))%Z).
      { rewrite Z.mod_small; unfold word_modulus; lia. }
      rewrite HA. split.
      * intros H. split; intros m [= <-]; lia.
      * intros [_ H]. specialize (H _ eq_refl). lia.
    + assert (HA : ((4 * i + 1 - (4 * mn + 1)) mod word_modulus = 4 * (i - mn) + word_modulus)%Z).
      { symmetry. apply (Z.mod_unique _ _ (-1)); unfold word_modulus; lia. }
      rewrite HA. split.
      * unfold word_modulus. lia.
      * intros [H _]. specialize (H _ eq_refl). lia.
  - rewrite bool_decide_eq_true. split.
    + intros H. split; [done|]. intros m [= <-]. lia.
    + intros [_ H]. specialize (H _ eq_refl). lia.
  - rewrite bool_decide_eq_true. split.
    + intros H. split; [|done]. intros m [= <-]. lia.
    + intros [H _]. specialize (H _ eq_refl). lia.
  - done.
Qed.

(** [b] decides [P]. *)
Definition tells (m : outcome bool) (P : Prop) : Prop := exists b, m = Val b /\ (b = true <-> P).
Lemma tells_true m P : tells m P -> m = Val true -> P.
Proof. intros (b & -> & H) [= ->]. by apply H. Qed.
Lemma tells_val m (P : Prop) : tells m P -> P -> m = Val true.
Proof. intros (b & -> & H) HP. f_equal. by apply H. Qed.
Lemma tells_iff m P Q : tells m P -> (P <-> Q) -> tells m Q.
Proof. intros (b & Hb & H) HQ. exists b. split; [done|]. tauto. Qed.
Lemma tells_or a b P Q : tells a P -> tells b Q -> tells (oor a b) (P \/ Q).
Proof.
  intros (x & -> & Hx) (y & -> & Hy). unfold oor. cbn. destruct x.
  - exists true. tauto.
  - exists y. split; [done|]. rewrite Hy. assert (~ P) by (intros ?%Hx; done). tauto.
Qed.
Lemma tells_and a b P Q : tells a P -> tells b Q -> tells (oand a b) (P /\ Q).
Proof.
  intros (x & -> & Hx) (y & -> & Hy). unfold oand. cbn. destruct x.
  - exists y. tauto.
  - exists false. split; [done|]. split; [done|]. intros [?%Hx _]. done.
Qed.
Lemma tells_not a P : tells a P -> tells (onot a) (~ P).
Proof.
  intros (x & -> & Hx). exists (negb x). split; [done|]. rewrite negb_true_iff, <- Hx. by destruct x.
Qed.
Lemma tells_bool (b : bool) P : (b = true <-> P) -> tells (Val b) P.
Proof. intros H. by exists b. Qed.

Theorem instance_ok x t : wf_obj W x -> wf_ty W t -> tells (instance W x t) (Inst W x t).
Proof.
  intros Hx. pose proof (class_of_lt x Hx) as Hcl. induction t as [c|o|a IHa b IHb|mn mx|c]; intros Ht; cbn in *.
  - by apply inst_ok.
  - apply tells_bool, singleton_instance_true.
  - apply tells_or; tauto.
  - destruct (inst_ok (class_of W x) (w_integer W) Hcl (ww_integer _ HW)) as (b & -> & Hb). cbn.
    rewrite is_integer in Hb by done. destruct b.
    + destruct Hb as [[i ->] _]; [done|]. apply tells_bool. rewrite limint_instance_true; [|tauto..].
      split; [by exists i|]. intros (j & [= <-] & H). done.
    + apply tells_bool. split; [done|]. intros (i & Hi & _). apply Hb. by exists i.
  - destruct (inst_ok (class_of W x) (w_class W) Hcl (ww_class _ HW)) as (b & -> & Hb). cbn.
    rewrite is_class in Hb by done. destruct b.
    + destruct Hb as [[d ->] _]; [done|]. eapply tells_iff; [by apply sub_ok|].
      split; [by exists d|]. by intros (e & [= <-] & H).
    + apply tells_bool. split; [done|]. intros (i & Hi & _). apply Hb. by exists i.
Qed.

(** *** Subtypes *)

Definition SubB (t1 t2 : ty) : Prop :=
  match t1, t2 with
  | TSing a, TSing b => id_equal W a b = true
  | TSing o, _ => Inst W o t2
  | _, TSing _ => False
  | TClass a, TClass b => Inherits T a b
  | TClass c, TSubclass d => c = w_class W /\ d = w_class W
  | TClass _, TLimInt _ _ => False
  | TLimInt mn1 mx1, TLimInt mn2 mx2 =>
      (forall b, mn2 = Some b -> exists v, mn1 = Some v /\ (b <= v)%Z) /\
      (forall b, mx2 = Some b -> exists v, mx1 = Some v /\ (v <= b)%Z)
  | TLimInt _ _, TClass c => Inherits T (w_integer W) c
  | TSubclass a, TSubclass b => Inherits T a b
  | TSubclass _, TClass c => Inherits T (w_class W) c
  | _, _ => False
  end.
Fixpoint SubR (t1 t2 : ty) : Prop :=
  match t2 with
  | TUnion a b => match t1 with
                  | TSing o => Inst W o a \/ Inst W o b
                  | _ => SubR t1 a \/ SubR t1 b
                  end
  | _ => SubB t1 t2
  end.
Fixpoint Sub (t1 t2 : ty) : Prop :=
  match t1 with
  | TUnion a b => Sub a t2 /\ Sub b t2
  | _ => SubR t1 t2
  end.

Definition nonunion (t : ty) : Prop := match t with TUnion _ _ => False | _ => True end.

Lemma satisfies_bound_true value bound (f : Z -> Z -> bool) (P : Z -> Z -> Prop) :
  (forall v b, f v b = true <-> P v b) ->
  satisfies_bound value bound f = true <-> (forall b, bound = Some b -> exists v, value = Some v /\ P v b).
Proof.
  intros Hf. unfold satisfies_bound. destruct bound as [b|]; [|by split].
  destruct value as [v|].
  - rewrite Hf. split; [intros H b' [= <-]; by exists v|]. intros H. destruct (H _ eq_refl) as (v' & [= <-] & ?). done.
  - split; [done|]. intros H. by destruct (H _ eq_refl) as (? & ? & _).
Qed.

Lemma subtype_base_ok t1 t2 : wf_ty W t1 -> wf_ty W t2 -> nonunion t1 -> nonunion t2 -> unmixed2 t1 t2 ->
  tells (subtype_base W t1 t2) (SubB t1 t2).
Proof.
  intros H1 H2 Hn1 Hn2 Hm.
  destruct t1 as [c1|o1|? ?|mn1 mx1|c1]; [..|]; try done;
  destruct t2 as [c2|o2|? ?|mn2 mx2|c2]; try done; cbn [subtype_base SubB];
    cbn in H1, H2;
    try (by apply sub_ok); try (apply tells_bool; by split);
    try (apply sub_ok; [apply HW|done]; fail);
    try (exfalso; unfold unmixed2 in Hm; cbn in Hm; tauto).
  - apply tells_bool. rewrite andb_true_iff, !bool_decide_eq_true. done.
  - by apply (instance_ok o1 (TClass c2)).
  - by apply (instance_ok o1 (TLimInt mn2 mx2)).
  - by apply (instance_ok o1 (TSubclass c2)).
  - apply tells_bool. rewrite andb_true_iff.
    rewrite (satisfies_bound_true mn1 mn2 _ (fun v b => b <= v)%Z) by (intros; apply bool_decide_eq_true).
    rewrite (satisfies_bound_true mx1 mx2 _ (fun v b => v <= b)%Z) by (intros; apply bool_decide_eq_true).
    done.
Qed.

Lemma unmixed2_l a b t : unmixed2 t (TUnion a b) -> unmixed2 t a /\ unmixed2 t b.
Proof. unfold unmixed2. cbn. tauto. Qed.
Lemma unmixed2_r a b t : unmixed2 (TUnion a b) t -> unmixed2 a t /\ unmixed2 b t.
Proof. unfold unmixed2. cbn. tauto. Qed.

Lemma subtype_right_ok t1 t2 : wf_ty W t1 -> wf_ty W t2 -> nonunion t1 -> unmixed2 t1 t2 ->
  tells (subtype_right W t1 t2) (SubR t1 t2).
Proof.
  intros H1 H2 Hn. induction t2 as [c|o|a IHa b IHb|mn mx|c]; intros Hm;
    try (by apply (subtype_base_ok t1)).
  apply unmixed2_l in Hm as [Hma Hmb]. destruct H2 as [H2a H2b].
  destruct t1 as [c1|o1|? ?|mn1 mx1|c1]; cbn [subtype_right SubR]; try (by apply tells_or; auto).
  apply tells_or; by apply instance_ok.
Qed.

Lemma subtype_ok t1 t2 : wf_ty W t1 -> wf_ty W t2 -> unmixed2 t1 t2 ->
  tells (subtype W t1 t2) (Sub t1 t2).
Proof.
  induction t1 as [c|o|a IHa b IHb|mn mx|c]; intros H1 H2 Hm; try (by apply subtype_right_ok).
  apply unmixed2_r in Hm as [Hma Hmb]. destruct H1 as [H1a H1b]. cbn. apply tells_and; auto.
Qed.

(** Whatever the mix, a true answer is a derivation. *)
Lemma oor_true a b : oor a b = Val true -> a = Val true \/ (a = Val false /\ b = Val true).
Proof. unfold oor. destruct a as [[]| | |]; cbn; auto; done. Qed.
Lemma oand_true a b : oand a b = Val true -> a = Val true /\ b = Val true.
Proof. unfold oand. destruct a as [[]| | |]; cbn; auto; done. Qed.
Lemma onot_true a : onot a = Val true -> a = Val false.
Proof. unfold onot. destruct a as [[]| | |]; cbn; auto; done. Qed.

Lemma unmixed2_cases t1 t2 : nonunion t1 -> nonunion t2 ->
  unmixed2 t1 t2 \/ subtype_base W t1 t2 = Signal "no-applicable-method-error".
Proof. unfold unmixed2. destruct t1, t2; cbn; tauto. Qed.

Lemma subtype_base_true t1 t2 : wf_ty W t1 -> wf_ty W t2 -> nonunion t1 -> nonunion t2 ->
  subtype_base W t1 t2 = Val true -> SubB t1 t2.
Proof.
  intros H1 H2 Hn1 Hn2 H. destruct (unmixed2_cases t1 t2 Hn1 Hn2) as [Hm|Hs]; [|congruence].
  eapply tells_true; [|exact H]. by apply subtype_base_ok.
Qed.

Lemma subtype_right_true t1 t2 : wf_ty W t1 -> wf_ty W t2 -> nonunion t1 ->
  subtype_right W t1 t2 = Val true -> SubR t1 t2.
Proof.
  intros H1 H2 Hn. induction t2 as [c|o|a IHa b IHb|mn mx|c]; intros H;
    try (by apply (subtype_base_true t1)).
  destruct H2 as [H2a H2b]. cbn [subtype_right] in H.
  destruct t1 as [c1|o1|? ?|mn1 mx1|c1]; cbn [SubR];
    apply oor_true in H as [H|[_ H]]; auto.
  - left. by eapply tells_true; [apply instance_ok|].
  - right. by eapply tells_true; [apply instance_ok|].
Qed.

Lemma subtype_true t1 t2 : wf_ty W t1 -> wf_ty W t2 -> subtype W t1 t2 = Val true -> Sub t1 t2.
Proof.
  induction t1 as [c|o|a IHa b IHb|mn mx|c]; intros H1 H2 H; try (by apply subtype_right_true).
  destruct H1 as [H1a H1b]. cbn in *. apply oand_true in H as [Ha Hb]. auto.
Qed.

(** Objects [=] to each other belong to the same types. *)
Lemma same_object_refl o : same_object W o o \/ exists c i, o = OOther c i None.
Proof.
  destruct o as [i|c k|c|c i [v|]]; cbn; auto.
  - left. split; [done|]. destruct (w_equality W c); [done|by exists v..].
  - right. by exists c, i.
Qed.
Lemma same_object_trans x y z : same_object W x y -> same_object W y z -> same_object W x z.
Proof.
  destruct x, y; cbn; intros H1; try (by rewrite H1); try done.
  destruct z; cbn; try done. destruct H1 as [-> H1]. intros [-> H2]. split; [done|].
  destruct (w_equality W c1).
  - destruct H1 as [-> ->]. done.
  - destruct H1 as (n & -> & ->), H2 as (m & [= <-] & ->). by exists n.
  - destruct H1 as (n & -> & ->), H2 as (m & [= <-] & ->). by exists n.
Qed.
Lemma same_object_class x y : same_object W x y -> class_of W x = class_of W y.
Proof. destruct x, y; cbn; intros H; try (injection H as ->); try done. by destruct H as [-> _]. Qed.
Lemma same_object_sym x y : same_object W x y -> same_object W y x.
Proof.
  destruct x, y; cbn; intros H; try done. destruct H as [-> H]. split; [done|].
  destruct (w_equality W c0); [by destruct H as [-> ->]| |]; destruct H as (n & -> & ->); by exists n.
Qed.

Lemma same_object_inst x o t : same_object W x o -> Inst W o t -> Inst W x t.
Proof.
  intros Hs. induction t as [c|p|a IHa b IHb|mn mx|c]; cbn.
  - by rewrite (same_object_class _ _ Hs).
  - intros H. by eapply same_object_trans.
  - tauto.
  - intros (i & -> & H). destruct x; cbn in Hs; simplify_eq. by exists i.
  - intros (i & -> & H). destruct x; cbn in Hs; simplify_eq. by exists i.
Qed.

Lemma id_equal_same a b x : id_equal W a b = true -> same_object W x a -> same_object W x b.
Proof.
  unfold id_equal. rewrite orb_true_iff, pointer_id_true. intros [->|H]; [done|].
  rewrite !andb_true_iff in H. destruct H as [[[[Ha Hb] Hc] Hv] He].
  intros Hx. eapply same_object_trans; [done|].
  unfold value_class in Hv.
  destruct a as [|?|?|c i v]; try done. destruct b as [|?|c'|c' i' v']; try done.
  apply bool_decide_eq_true in Hc. cbn in Hc. subst c'. cbn in He |- *. split; [done|].
    unfold value_class in Hv. cbn in Hv. destruct (w_equality W c); try done. by apply value_equal_true.
Qed.

Lemma inherits_trans a b c : Inherits T a b -> Inherits T b c -> Inherits T a c.
Proof. apply Inherits_trans. Qed.

(** *** Soundness of subtypes *)

Lemma SubB_sound t1 t2 x : wf_obj W x -> no_subclass_class W t2 -> SubB t1 t2 -> Inst W x t1 -> Inst W x t2.
Proof.
  intros Hx Hns H H1.
  destruct t1 as [c1|o1|a b|mn1 mx1|c1].
  - destruct t2 as [c2|o2|? ?|mn2 mx2|c2]; try done; cbn in *.
    + by eapply inherits_trans.
    + by destruct H as [_ ->].
  - destruct t2 as [c2|o2|? ?|mn2 mx2|c2]; try done;
      try (by eapply same_object_inst).
    cbn in H. by eapply (id_equal_same o1 o2).
  - by destruct t2.
  - destruct t2 as [c2|o2|? ?|mn2 mx2|c2]; try done; cbn in *.
    + destruct H1 as (i & -> & _). cbn. done.
    + destruct H1 as (i & -> & Hmn & Hmx). exists i. split; [done|]. destruct H as [Hn Hxx]. split.
      * intros m Hm. destruct (Hn m Hm) as (v & Hv & Hle). specialize (Hmn _ Hv). lia.
      * intros m Hm. destruct (Hxx m Hm) as (v & Hv & Hle). specialize (Hmx _ Hv). lia.
  - destruct t2 as [c2|o2|? ?|mn2 mx2|c2]; try done; cbn in *.
    + destruct H1 as (d & -> & _). cbn. done.
    + destruct H1 as (d & -> & Hd). exists d. split; [done|]. by eapply inherits_trans.
Qed.

Lemma SubR_sound t1 t2 x : wf_obj W x -> nonunion t1 -> no_subclass_class W t2 ->
  SubR t1 t2 -> Inst W x t1 -> Inst W x t2.
Proof.
  intros Hx Hn. induction t2 as [c|o|a IHa b IHb|mn mx|c]; intros Hns H H1;
    try (by eapply (SubB_sound t1)).
  destruct Hns as [Ha Hb]. cbn in H |- *.
  destruct t1 as [c1|o1|? ?|mn1 mx1|c1]; try (destruct H as [H|H]; [left|right]; by auto).
  destruct H as [H|H]; [left|right]; by eapply same_object_inst.
Qed.

Lemma Sub_sound t1 t2 x : wf_obj W x -> no_subclass_class W t2 -> Sub t1 t2 -> Inst W x t1 -> Inst W x t2.
Proof.
  intros Hx Hns. induction t1 as [c|o|a IHa b IHb|mn mx|c]; intros H H1;
    try (eapply SubR_sound; [done| |done| |exact H1]; done).
  cbn in H, H1. destruct H as [Ha Hb]. destruct H1; auto.
Qed.

(** *** Preorder *)

Lemma simple_id_equal a b : simple_obj W a -> id_equal W a b = true <-> same_object W a b.
Proof.
  intros Ha. split.
  - intros H. eapply id_equal_same; [done|].
    destruct (same_object_refl a) as [?|(c & i & ->)]; [done|]. cbn in Ha. tauto.
  - intros H. unfold id_equal. rewrite orb_true_iff, pointer_id_true.
    destruct a as [|?|?|c i v], b as [|?|?|c' i' v']; cbn in H; try (by left); try done.
    destruct H as [<- H]. cbn in Ha. destruct Ha as [He Hv]. unfold value_class.
    cbn. destruct (w_equality W c); [left|right|done].
    + by destruct H as [-> ->].
    + rewrite bool_decide_true by done. cbn. by apply value_equal_true.
Qed.

Lemma Sub_singleton o t : simple_obj W o -> Sub (TSing o) t <-> Inst W o t.
Proof.
  intros Ho. destruct t; cbn; try done. by apply simple_id_equal.
Qed.

Lemma SubR_union_l t a b : nonunion t -> simple_singletons W t -> SubR t a -> SubR t (TUnion a b).
Proof.
  intros Hn Hs H. destruct t as [|o| | |]; cbn [SubR]; try (by left). left.
  by apply (Sub_singleton o a).
Qed.
Lemma SubR_union_r t a b : nonunion t -> simple_singletons W t -> SubR t b -> SubR t (TUnion a b).
Proof.
  intros Hn Hs H. destruct t as [|o| | |]; cbn [SubR]; try (by right). right.
  by apply (Sub_singleton o b).
Qed.
Lemma Sub_union_l t a b : simple_singletons W t -> Sub t a -> Sub t (TUnion a b).
Proof.
  induction t as [c|o|x IHx y IHy|mn mx|c]; intros Hs H; try (by apply SubR_union_l).
  destruct Hs as [Hx Hy], H as [H1 H2]. cbn. auto.
Qed.
Lemma Sub_union_r t a b : simple_singletons W t -> Sub t b -> Sub t (TUnion a b).
Proof.
  induction t as [c|o|x IHx y IHy|mn mx|c]; intros Hs H; try (by apply SubR_union_r).
  destruct Hs as [Hx Hy], H as [H1 H2]. cbn. auto.
Qed.

Lemma Sub_refl t : wf_ty W t -> simple_singletons W t -> Sub t t.
Proof.
  induction t as [c|o|a IHa b IHb|mn mx|c]; intros Hw Hs; cbn in Hw.
  - cbn. apply inherits_refl. by rewrite supers_table_length.
  - cbn. unfold id_equal. by rewrite (proj2 (pointer_id_true o o) eq_refl).
  - destruct Hw, Hs. cbn [Sub]. split; [apply Sub_union_l|apply Sub_union_r]; auto.
  - cbn. split; intros b Hb; exists b; (split; [done|lia]).
  - cbn. apply inherits_refl. by rewrite supers_table_length.
Qed.

Definition nonsing (t : ty) : Prop := match t with TSing _ => False | _ => True end.

Lemma SubB_trans t1 t2 t3 : nonunion t1 -> nonunion t2 -> nonunion t3 -> nonsing t1 ->
  no_subclass_class W t2 -> no_subclass_class W t3 ->
  SubB t1 t2 -> SubB t2 t3 -> SubB t1 t3.
Proof.
  intros Hn1 Hn2 Hn3 Hs Hc2 Hc H1 H2.
  destruct t1 as [c1|o1|? ?|mn1 mx1|c1]; try done;
  destruct t2 as [c2|o2|? ?|mn2 mx2|c2]; try done;
  destruct t3 as [c3|o3|? ?|mn3 mx3|c3]; try done; cbn in *;
    try (by eapply inherits_trans); try done; try (by destruct H2 as [_ ->]); try (by destruct H1 as [_ ->]).
  destruct H1 as [A1 B1], H2 as [A2 B2]. split.
  - intros b Hb. destruct (A2 b Hb) as (v & Hv & Hle). destruct (A1 v Hv) as (u & Hu & Hle').
    exists u. split; [done|lia].
  - intros b Hb. destruct (B2 b Hb) as (v & Hv & Hle). destruct (B1 v Hv) as (u & Hu & Hle').
    exists u. split; [done|lia].
Qed.

Lemma SubR_nonunion t1 t2 : nonunion t2 -> SubR t1 t2 = SubB t1 t2.
Proof. by destruct t2. Qed.
Lemma Sub_nonunion t1 t2 : nonunion t1 -> Sub t1 t2 = SubR t1 t2.
Proof. by destruct t1. Qed.
Lemma SubR_union t1 a b : nonunion t1 -> nonsing t1 -> SubR t1 (TUnion a b) = (SubR t1 a \/ SubR t1 b).
Proof. by destruct t1. Qed.

(** [t1] neither a union nor a singleton, [t2] no union. *)
Lemma SubR_trans_base t1 t2 t3 : nonunion t1 -> nonsing t1 -> nonunion t2 ->
  no_subclass_class W t2 -> no_subclass_class W t3 ->
  SubB t1 t2 -> SubR t2 t3 -> SubR t1 t3.
Proof.
  intros Hn1 Hs1 Hn2 Hc2. induction t3 as [c|o|a IHa b IHb|mn mx|c]; intros Hc3 H1 H2;
    try (by apply (SubB_trans t1 t2)).
  destruct Hc3 as [Ha Hb]. rewrite SubR_union by done.
  assert (Hs2 : nonsing t2). { destruct t1, t2; try done. }
  rewrite SubR_union in H2 by done. destruct H2; [left|right]; auto.
Qed.

Lemma SubR_trans t1 t2 t3 : nonunion t1 -> nonsing t1 ->
  no_subclass_class W t2 -> no_subclass_class W t3 ->
  SubR t1 t2 -> Sub t2 t3 -> SubR t1 t3.
Proof.
  intros Hn1 Hs1. induction t2 as [c|o|a IHa b IHb|mn mx|c]; intros Hc2 Hc3 H1 H2.
  3: { destruct Hc2. cbn [Sub] in H2. rewrite SubR_union in H1 by done.
       destruct H1, H2; auto. }
  all: by refine (SubR_trans_base t1 _ t3 Hn1 Hs1 _ Hc2 Hc3 H1 H2).
Qed.

Lemma Sub_trans t1 t2 t3 : wf_ty W t1 -> simple_singletons W t1 ->
  no_subclass_class W t2 -> no_subclass_class W t3 ->
  Sub t1 t2 -> Sub t2 t3 -> Sub t1 t3.
Proof.
  induction t1 as [c|o|a IHa b IHb|mn mx|c]; intros Hw Hs Hc2 Hc3 H1 H2;
    try (by eapply (SubR_trans _ t2)).
  - apply Sub_singleton; [done|]. eapply Sub_sound; [done|done|exact H2|]. by apply (Sub_singleton o t2).
  - destruct Hw, Hs. cbn [Sub] in *. destruct H1. auto.
Qed.
(** *** Disjointness *)

Context (HL : loaded_world W).

Lemma disjoint_classes_true a b c : a < length st -> b < length st ->
  disjoint_classes st a b = Val true -> Inherits T c a -> Inherits T c b -> False.
Proof.
  destruct HL as (ops & Hl & Hr & Hst). intros Ha Hb H Hca Hcb. rewrite Hst in *.
  pose proof (run_classes_wf ops) as Hwf. pose proof (run_classes_joint ops Hl) as Hj.
  destruct (C22_classes_sound_partial ops a b Hl Hr Ha Hb) as (r & Hd & Hs).
  rewrite Hd in H. injection H as ->. by apply (Hs eq_refl c).
Qed.

Lemma onot_val m : onot m = Val true -> m = Val false.
Proof. unfold onot. destruct m as [[|]| | |]; cbn; congruence. Qed.
Lemma tells_false m P : tells m P -> m = Val false -> ~ P.
Proof. intros (b & -> & H) [= ->] HP. by apply H in HP. Qed.

Lemma subtype_singleton_false o t : wf_obj W o -> wf_ty W t -> nonunion t -> nonsing t ->
  subtype W (TSing o) t = Val false -> ~ Inst W o t.
Proof.
  intros Ho Ht Hn Hs H. eapply (tells_false _ (SubR (TSing o) t)) in H.
  - by destruct t.
  - apply subtype_right_ok; [done|done|done|]. destruct t; try done; unfold unmixed2; cbn; tauto.
Qed.

Lemma disjoint1_sound t1 t2 x : wf_obj W x -> wf_ty W t1 -> wf_ty W t2 -> nonunion t1 -> nonunion t2 ->
  simple_singletons W t1 ->
  disjoint1 W t1 t2 = Val true -> Inst W x t1 -> Inst W x t2 -> False.
Proof.
  intros Hx H1 H2 Hn1 Hn2 Hs H I1 I2.
  pose proof (ww_class _ HW) as Hcl. pose proof (ww_integer _ HW) as Hin.
  assert (Hclass : forall o c, same_object W x o -> wf_obj W o -> c < length st ->
            onot (subclass st (class_of W o) c) = Val true -> Inherits T (class_of W x) c -> False).
  { intros o c Hso Ho Hc Hd%onot_val Hi. rewrite (same_object_class _ _ Hso) in Hi.
    by eapply (tells_false _ _ (sub_ok _ c (class_of_lt o Ho) Hc)). }
  assert (Hint : forall c mn mx, Inst W x (TLimInt mn mx) -> c < length st ->
            onot (oor (subclass st (w_integer W) c) (subclass st c (w_integer W))) = Val true ->
            Inherits T (class_of W x) c -> False).
  { intros c mn mx (i & -> & _) Hc Hd%onot_val Hi. cbn in Hi.
    eapply (tells_false _ _ (tells_or _ _ _ _ (sub_ok _ c Hin Hc) (sub_ok c _ Hc Hin))); [done|]. by left. }
  assert (Hsing : forall o t a, wf_obj W o -> wf_ty W t -> nonunion t -> nonsing t ->
            oand (onot (subtype W (TSing o) t)) (onot a) = Val true ->
            same_object W x o -> Inst W x t -> False).
  { intros o t a Ho Ht Hn Hs' [Hd%onot_val _]%oand_true Hso Hi.
    eapply subtype_singleton_false; [| | | |done|]; try done.
    by eapply same_object_inst; [apply same_object_sym|]. }
  assert (Hsing' : forall o t a, wf_obj W o -> wf_ty W t -> nonunion t -> nonsing t ->
            oand (onot a) (onot (subtype W (TSing o) t)) = Val true ->
            same_object W x o -> Inst W x t -> False).
  { intros o t a Ho Ht Hn Hs' [_ Hd%onot_val]%oand_true Hso Hi.
    eapply subtype_singleton_false; [| | | |done|]; try done.
    by eapply same_object_inst; [apply same_object_sym|]. }
  destruct t1 as [c1|o1|? ?|mn1 mx1|c1]; try done;
  destruct t2 as [c2|o2|? ?|mn2 mx2|c2]; try done; cbn [disjoint1 has_instances] in H; cbn in H1, H2.
  - by eapply (disjoint_classes_true c1 c2).
  - by eapply Hclass; [| | |exact H|].
  - by eapply Hint; [| |exact H|].
  - destruct I2 as (d & -> & _). cbn in I1.
    eapply (disjoint_classes_true _ c1); [| |done| |exact I1]; try done.
    apply inherits_refl. by rewrite supers_table_length.
  - by eapply Hclass; [| | |exact H|].
  - injection H as H. apply negb_true_iff in H. cbn in I1, I2.
    assert (Hid : id_equal W o1 o2 = true).
    { apply simple_id_equal; [done|]. eapply same_object_trans; [|exact I2]. by apply same_object_sym. }
    congruence.
  - by eapply Hsing; [| | | |exact H| |].
  - by eapply Hsing; [| | | |exact H| |].
  - by eapply Hint; [| |exact H|].
  - by eapply Hsing'; [| | | |exact H| |].
  - injection H as H. destruct I1 as (i & -> & A1 & B1), I2 as (j & [= <-] & A2 & B2).
    unfold limint_disjoint in H. apply orb_true_iff in H as [H|H].
    + destruct mx1 as [a|], mn2 as [b|]; try done. apply bool_decide_eq_true in H.
      specialize (B1 _ eq_refl). specialize (A2 _ eq_refl). lia.
    + destruct mn1 as [a|], mx2 as [b|]; try done. apply bool_decide_eq_true in H.
      specialize (A1 _ eq_refl). specialize (B2 _ eq_refl). lia.
  - destruct I1 as (d & -> & _). cbn in I2.
    eapply (disjoint_classes_true _ c2); [| |done| |exact I2]; try done.
    apply inherits_refl. by rewrite supers_table_length.
  - by eapply Hsing'; [| | | |exact H| |].
  - destruct I1 as (d & -> & I1), I2 as (e & [= <-] & I2). by eapply (disjoint_classes_true c1 c2).
Qed.

Lemma disjoint_eq t1 t2 : disjoint W t1 t2 =
    match t1, t2 with
    | TUnion a b, TUnion c d =>
        oand (disjoint W a c) (oand (disjoint W a d) (oand (disjoint W b c) (disjoint W b d)))
    | TUnion a b, _ => oand (disjoint W a t2) (disjoint W b t2)
    | _, TUnion c d => oand (disjoint W t1 c) (disjoint W t1 d)
    | _, _ => disjoint1 W t1 t2
    end.
Proof. by destruct t1, t2. Qed.

Lemma disjoint_sound x : wf_obj W x -> forall t1 t2, wf_ty W t1 -> wf_ty W t2 ->
  simple_singletons W t1 ->
  disjoint W t1 t2 = Val true -> Inst W x t1 -> Inst W x t2 -> False.
Proof.
  intros Hx. induction t1 as [c|o|a IHa b IHb|mn mx|c].
  3: { intros t2 [H1a H1b] H2 [Hsa Hsb] H I1 I2. rewrite disjoint_eq in H. destruct t2 as [c2|o2|p q|mn2 mx2|c2];
       try (apply oand_true in H as [Ha Hb]; destruct I1; by eauto).
       destruct H2. apply oand_true in H as [Hac [Had [Hbc Hbd]%oand_true]%oand_true].
       destruct I1, I2; eauto. }
  all: intros t2; induction t2 as [c2|o2|p IHp q IHq|mn2 mx2|c2]; intros H1 H2 Hs H I1 I2;
    rewrite disjoint_eq in H;
    try (eapply disjoint1_sound; [| | | | | |exact H|exact I1|exact I2]; done).
  all: destruct H2; apply oand_true in H as [Hp Hq]; destruct I2; eauto.
Qed.
End types.
