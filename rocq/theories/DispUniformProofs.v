(** When two arguments give the same comparisons of specializers. *)
From Verif Require Import Base ClassModel ClassSpec ClassProofs TypeModel TypeSpec TypeProofs
  DispModel DispSpec DispProofs.
From Coq Require Import ZifyBool ZifyNat.
Local Open Scope outcome_scope.
Local Open Scope nat_scope.

Section world.
Context (W : world) (HW : wf_world W).
Local Notation st := (w_classes W).
Local Notation T := (supers_table st).

(** ** <object> *)

Lemma cpl_ends_with_object c : c < length st -> exists l, cpl_of st c = l ++ [object_class].
Proof. intros Hc. pose proof (world_rooted W HW c Hc) as H. unfold rooted_at in H. by apply last_Some in H. Qed.
Lemma object_top c : c < length st -> Inherits T c object_class.
Proof.
  intros Hc. apply cpl_members; [apply (world_wf W HW)|done|].
  destruct (cpl_ends_with_object c Hc) as [l ->]. rewrite elem_of_app, elem_of_list_singleton. auto.
Qed.
Lemma object_lt : object_class < length st.
Proof. pose proof (ww_integer W HW). unfold object_class. lia. Qed.
Lemma cpl_nodup c : NoDup (cpl_of st c).
Proof. rewrite cpl_of_cores. apply tcpl_nodup. apply (world_wf W HW). Qed.
Lemma object_only c : Inherits T object_class c -> c = object_class.
Proof.
  intros H. rewrite <- cpl_members in H; [|apply (world_wf W HW)|apply object_lt].
  destruct (cpl_ends_with_object object_class object_lt) as [l Hl].
  destruct (tcpl_head (cores st) (ws_tab _ (world_wf W HW)) object_class) as [t Ht].
  { rewrite cores_length. apply object_lt. }
  rewrite <- cpl_of_cores in Ht. pose proof (cpl_nodup object_class) as Hnd.
  rewrite Ht in *. apply NoDup_cons in Hnd as [Hnt _].
  destruct l as [|y l]; cbn in Hl.
  - injection Hl as ->. by apply elem_of_list_singleton in H.
  - injection Hl as E1 E2. exfalso. apply Hnt. rewrite E2, elem_of_app, elem_of_list_singleton. auto.
Qed.
Lemma object_last c d : c < length st -> ~ before (precedence_list W c) object_class d.
Proof.
  intros Hc (l1 & l2 & Hl & Hd). rewrite precedence_list_cpl in Hl.
  destruct (cpl_ends_with_object c Hc) as [l Hl']. pose proof (cpl_nodup c) as Hnd. rewrite Hl in Hnd, Hl'.
  destruct l2 as [|y l2] using rev_ind; [by apply elem_of_nil in Hd|]. clear IHl2.
  change (l1 ++ object_class :: l2 ++ [y]) with (l1 ++ (object_class :: l2) ++ [y]) in Hl'.
  rewrite app_assoc in Hl'. apply app_inj_tail in Hl' as [_ ->].
  apply NoDup_app in Hnd as (_ & _ & Hnd). apply NoDup_cons in Hnd as [Hn _]. apply Hn.
  rewrite elem_of_app, elem_of_list_singleton. auto.
Qed.
Lemma class_not_object : w_class W <> object_class.
Proof.
  intros H. apply (ww_different W HW). apply (ww_class_leaf W HW). rewrite H. apply object_top, HW.
Qed.

(** ** [instance?] as a boolean *)

Definition instb (x : obj) (t : ty) : bool := match instance W x t with Val b => b | _ => false end.
Lemma instance_b x t : wf_obj W x -> wf_ty W t -> instance W x t = Val (instb x t).
Proof. intros Hx Ht. unfold instb. by destruct (instance_ok W HW x t Hx Ht) as (b & -> & _). Qed.
Lemma instb_true x t : wf_obj W x -> wf_ty W t -> instb x t = true <-> Inst W x t.
Proof. intros Hx Ht. unfold instb. by destruct (instance_ok W HW x t Hx Ht) as (b & -> & ?). Qed.
Lemma instb_eq x x' t : wf_obj W x -> wf_obj W x' -> wf_ty W t -> (Inst W x t <-> Inst W x' t) -> instb x t = instb x' t.
Proof.
  intros Hx Hx' Ht H. apply eq_true_iff_eq. by rewrite !instb_true.
Qed.

(** ** Same comparisons *)

Definition order_only (m : outcome (order * ty)) : outcome order := do ' (o, _) <- m ; Val o.
Definition osame (x x' : obj) (t1 t2 : ty) : Prop :=
  order_only (order_specializers W t1 t2 x) = order_only (order_specializers W t1 t2 x') /\
  order_position W t1 t2 x = order_position W t1 t2 x'.
Lemma osame_refl x t1 t2 : osame x x t1 t2.
Proof. done. Qed.

Lemma osame_of_tells x x' t1 t2 : ready W x t1 t2 -> ready W x' t1 t2 ->
  alike W t1 t2 \/ (more_specific W x t1 t2 /\ more_specific W x' t1 t2) \/
  (more_specific W x t2 t1 /\ more_specific W x' t2 t1) -> osame x x' t1 t2.
Proof.
  intros R R' H.
  assert (exists o nt nt', order_specializers W t1 t2 x = Val (o, nt) /\ order_specializers W t1 t2 x' = Val (o, nt') /\
    o <> OAmbiguous) as (o & nt & nt' & H1 & H2 & Ho).
  { destruct R as (Hx & Hc & I1 & I2), R' as (Hx' & _ & I1' & I2').
    destruct (order_specializers_ok W HW t1 t2 x Hx Hc I1 I2) as (o & nt & E & (T1 & T2 & T3) & _).
    destruct (order_specializers_ok W HW t1 t2 x' Hx' Hc I1' I2') as (o' & nt' & E' & (T1' & T2' & T3') & _).
    destruct H as [H|[[H H']|[H H']]].
    - rewrite <- T3 in H. assert (H' : o' = OEqual) by (apply T3'; by apply T3). subst. by eexists _, _, _.
    - rewrite <- T1 in H. rewrite <- T1' in H'. subst. by eexists _, _, _.
    - rewrite <- T2 in H. rewrite <- T2' in H'. subst. by eexists _, _, _. }
  unfold osame, order_position. rewrite H1, H2. cbn. by rewrite bool_decide_false.
Qed.

Section agree.
Context (x x' : obj) (L : list ty).
Context (Hcl : class_of W x = class_of W x').
Context (Hin : forall u, u ∈ L -> instance W x u = instance W x' u).
Context (Hsub : x = x' \/ forall c1 c2, TSubclass c1 ∈ L -> TSubclass c2 ∈ L -> c1 = c2).

Lemma atom_self t : (forall a b, t <> TUnion a b) -> atoms t = [t].
Proof. destruct t; try done. intros H. by destruct (H t1 t2). Qed.

Lemma instance_agree t : (forall u, u ∈ atoms t -> u ∈ L) -> instance W x t = instance W x' t.
Proof.
  induction t as [c|o|a IHa b IHb|mn mx|c]; intros H;
    try (apply Hin, H; cbn; by apply elem_of_list_singleton).
  cbn. rewrite IHa, IHb; [done|..]; intros u Hu; apply H; cbn; rewrite elem_of_app; auto.
Qed.

Lemma order_specializers_agree t1 t2 : (forall u, u ∈ atoms t1 ++ atoms t2 -> u ∈ L) ->
  order_specializers W t1 t2 x = order_specializers W t1 t2 x'.
Proof.
  intros H. unfold order_specializers. case_bool_decide as E; [done|].
  assert (Hc : forall c1 c2, order_classes W c1 c2 x = order_classes W c1 c2 x').
  { intros. unfold order_classes. by rewrite Hcl. }
  destruct t1 as [c1|o1|a1 b1|mn1 mx1|c1], t2 as [c2|o2|a2 b2|mn2 mx2|c2]; rewrite ?Hc; try done.
  destruct Hsub as [->|Hs]; [done|]. destruct E. f_equal. apply Hs; apply H; cbn; rewrite !elem_of_cons; auto.
Qed.

Lemma order_specializers_atoms t1 t2 y o nt : order_specializers W t1 t2 y = Val (o, nt) -> o <> OAmbiguous ->
  nt = t1 \/ nt = t2.
Proof.
  unfold order_specializers. case_bool_decide as E; [intros [= <- <-]; auto|].
  assert (HD : forall t1 t2, order_default W t1 t2 = Val (o, nt) -> o <> OAmbiguous -> nt = t1 \/ nt = t2).
  { intros s1 s2. unfold order_default. destruct (subtype W s1 s2) as [[]| | |]; cbn; try done;
      destruct (subtype W s2 s1) as [[]| | |]; cbn; try done; intros [= <- <-]; auto. done. }
  assert (HC : forall c1 c2, order_classes W c1 c2 y = Val (o, nt) -> nt = TClass c1 \/ nt = TClass c2).
  { intros c1 c2. unfold order_classes. destruct (c1 =? c2); [intros [= <- <-]; auto|].
    destruct (class_lt _ _ _ _) as [[]| | |]; cbn; try done; intros [= <- <-]; auto. }
  destruct t1 as [c1|o1|a1 b1|mn1 mx1|c1], t2 as [c2|o2|a2 b2|mn2 mx2|c2]; try apply HD;
    try (intros [= <- <-]; by auto).
  - intros H _. by apply HC.
  - destruct (subclass _ _ _) as [[]| | |]; cbn [obind]; try done; [|intros [= <- <-]; auto].
    destruct (c2 =? _); [|intros [= <- <-]; auto]. destruct (order_classes _ _ _ _) as [[]| | |]; cbn; try done.
    intros [= <- <-]; auto.
  - destruct (subclass _ _ _) as [[]| | |]; cbn [obind]; try done; [|intros [= <- <-]; auto].
    destruct (c1 =? _); [|intros [= <- <-]; auto]. destruct (order_classes _ _ _ _) as [[]| | |]; cbn; try done.
    intros [= <- <-]; auto.
  - destruct y; try done. destruct (c1 =? c2); [intros [= <- <-]; auto|].
    destruct (class_lt _ _ _ _) as [[]| | |]; cbn; try done; intros [= <- <-]; auto.
Qed.

Lemma order_desperately_agree n : forall t1 t2, (forall u, u ∈ atoms t1 ++ atoms t2 -> u ∈ L) ->
  order_desperately n W t1 t2 x = order_desperately n W t1 t2 x' /\
  (forall o nt, order_desperately n W t1 t2 x = Val (o, nt) -> o <> OAmbiguous -> forall u, u ∈ atoms nt -> u ∈ L).
Proof.
  induction n as [|n IH]; intros t1 t2 H; [done|].
  assert (A1 : forall u, u ∈ atoms t1 -> u ∈ L) by (intros u Hu; apply H; rewrite elem_of_app; auto).
  assert (A2 : forall u, u ∈ atoms t2 -> u ∈ L) by (intros u Hu; apply H; rewrite elem_of_app; auto).
  cbn [order_desperately]. case_bool_decide as E.
  { split; [done|]. intros o nt [= <- <-] _. done. }
  assert (Base : order_specializers W t1 t2 x = order_specializers W t1 t2 x' /\
    (forall o nt, order_specializers W t1 t2 x = Val (o, nt) -> o <> OAmbiguous -> forall u, u ∈ atoms nt -> u ∈ L)).
  { split; [by apply order_specializers_agree|]. intros o nt Ho Hn. by destruct (order_specializers_atoms _ _ _ _ _ Ho Hn) as [->| ->]. }
  assert (IH' : forall s1 s2, (forall u, u ∈ atoms s1 -> u ∈ L) -> (forall u, u ∈ atoms s2 -> u ∈ L) ->
    order_desperately n W s1 s2 x = order_desperately n W s1 s2 x' /\
    (forall o nt, order_desperately n W s1 s2 x = Val (o, nt) -> o <> OAmbiguous -> forall u, u ∈ atoms nt -> u ∈ L)).
  { intros s1 s2 S1 S2. apply IH. intros u. rewrite elem_of_app. intros [?|?]; auto. }
  assert (Un : forall l r s, (forall u, u ∈ atoms l -> u ∈ L) -> (forall u, u ∈ atoms r -> u ∈ L) -> 
     (forall u, u ∈ atoms s -> u ∈ L) -> forall sig (flip : bool),
     let k s' y := if flip then order_desperately n W s s' y else order_desperately n W s' s y in
     let body y := (do il <- instance W y l ;
            if (il : bool) then
              do ir <- instance W y r ;
              if (ir : bool) then
                do ' (o, nt) <- order_desperately n W l r y ;
                if bool_decide (o = OAmbiguous) then Val (o, nt)
                else k nt y
              else k l y
            else
              do ir <- instance W y r ;
              if (ir : bool) then k r y
              else Signal sig) in
     body x = body x' /\
     (forall o nt, body x = Val (o, nt) -> o <> OAmbiguous -> forall u, u ∈ atoms nt -> u ∈ L)).
  { intros l r s Al Ar As sig flip k body. subst k body. cbv beta.
    assert (Hk : forall s', (forall u, u ∈ atoms s' -> u ∈ L) ->
       (if flip then order_desperately n W s s' x else order_desperately n W s' s x) =
       (if flip then order_desperately n W s s' x' else order_desperately n W s' s x') /\
       (forall o nt, (if flip then order_desperately n W s s' x else order_desperately n W s' s x) = Val (o, nt) ->
          o <> OAmbiguous -> forall u, u ∈ atoms nt -> u ∈ L)).
    { intros s' S'. destruct flip; by apply IH'. }
    rewrite <- !(instance_agree l), <- !(instance_agree r) by done.
    destruct (IH' l r Al Ar) as [<- Hnt].
    destruct (instance W x l) as [[]| | |]; cbn [obind]; try done;
      destruct (instance W x r) as [[]| | |]; cbn [obind]; try done; try (by apply Hk).
    destruct (order_desperately n W l r x) as [[o nt]| | |]; cbn [obind]; try done.
    case_bool_decide as Eo; [split; [done|]; intros ? ? [= <- <-]; done|].
    apply Hk. by apply (Hnt o). }
  assert (AU : forall a b, (forall u, u ∈ atoms (TUnion a b) -> u ∈ L) ->
     (forall u, u ∈ atoms a -> u ∈ L) /\ (forall u, u ∈ atoms b -> u ∈ L)).
  { intros a b Hab. split; intros u Hu; apply Hab; cbn; rewrite elem_of_app; auto. }
  destruct t1 as [c1|o1|a1 b1|mn1 mx1|c1];
    try (destruct t2 as [c2|o2|a2 b2|mn2 mx2|c2]; try exact Base;
         destruct (AU _ _ A2) as [Aa Ab]; exact (Un a2 b2 _ Aa Ab A1 _ true)).
  destruct (AU _ _ A1) as [Aa Ab]. exact (Un a1 b1 _ Aa Ab A2 _ false).
Qed.

Lemma osame_agree t1 t2 : (forall u, u ∈ atoms t1 ++ atoms t2 -> u ∈ L) -> osame x x' t1 t2.
Proof.
  intros H. unfold osame, order_position. rewrite (order_specializers_agree t1 t2 H).
  destruct (order_desperately_agree (ty_size t1 + ty_size t2) t1 t2 H) as [-> _]. done.
Qed.
End agree.

(** ** Specializers that contain every object *)

Definition object_like (t : ty) : Prop := Sub W (TClass object_class) t.

Lemma object_like_form t : object_like t -> t = TClass object_class \/ exists a b, t = TUnion a b.
Proof.
  unfold object_like. destruct t as [c|o|a b|mn mx|c]; cbn.
  - intros H. left. f_equal. by apply object_only.
  - done.
  - intros _. right. eauto.
  - done.
  - intros [H _]. by destruct class_not_object.
Qed.
Lemma sub_object t : wf_ty W t -> Sub W t (TClass object_class).
Proof.
  induction t as [c|o|a IHa b IHb|mn mx|c]; cbn; intros H.
  - by apply object_top.
  - by apply object_top, (class_of_lt W HW).
  - destruct H. auto.
  - apply object_top, HW.
  - apply object_top, HW.
Qed.
Lemma object_like_inst t x : wf_obj W x -> no_subclass_class W t -> object_like t -> Inst W x t.
Proof.
  intros Hx Ht Ho. eapply (Sub_sound W (TClass object_class)); [done..|]. cbn. by apply object_top, (class_of_lt W HW).
Qed.
Lemma sub_true t1 t2 : comparable W t1 t2 -> Sub W t1 t2 -> subtype W t1 t2 = Val true.
Proof. intros ((H1 & _) & (H2 & _) & Hu) H. by eapply tells_val; [apply subtype_ok|]. Qed.
Lemma sub_false t1 t2 : comparable W t1 t2 -> ~ Sub W t1 t2 -> subtype W t1 t2 = Val false.
Proof.
  intros ((H1 & _) & (H2 & _) & Hu) H. destruct (subtype_ok W HW t1 t2 H1 H2 Hu) as ([] & -> & Hb); [|done].
  destruct H. by apply Hb.
Qed.
Lemma comparable_sym t1 t2 : comparable W t1 t2 -> comparable W t2 t1.
Proof. intros (H1 & H2 & H3). split; [done|]. split; [done|]. by apply unmixed2_sym. Qed.
Lemma sub_trans t1 t2 t3 : wf_specializer W t1 -> wf_specializer W t2 -> wf_specializer W t3 ->
  Sub W t1 t2 -> Sub W t2 t3 -> Sub W t1 t3.
Proof. intros (? & ? & ?) (? & ? & ?) (? & ? & ?). by apply Sub_trans. Qed.
Lemma object_wf : wf_specializer W (TClass object_class).
Proof. split; [apply object_lt|]. done. Qed.

Lemma object_like_alike t1 t2 : comparable W t1 t2 -> object_like t1 -> object_like t2 -> alike W t1 t2.
Proof.
  intros Hc H1 H2. pose proof Hc as (W1 & W2 & _).
  assert (S12 : Sub W t1 t2). { apply (sub_trans t1 (TClass object_class) t2); try done; [apply object_wf|]. by apply sub_object, W1. }
  assert (S21 : Sub W t2 t1). { apply (sub_trans t2 (TClass object_class) t1); try done; [apply object_wf|]. by apply sub_object, W2. }
  apply (sub_true t1 t2 Hc) in S12. apply (sub_true t2 t1 (comparable_sym _ _ Hc)) in S21.
  destruct (object_like_form _ H1) as [->|(a & b & ->)], (object_like_form _ H2) as [->|(a' & b' & ->)]; cbn [alike]; done.
Qed.

Lemma below_object_like e o x : wf_obj W x -> comparable W e o -> Inst W x e -> ~ object_like e -> object_like o ->
  more_specific W x e o.
Proof.
  intros Hx Hc Hi He Ho. pose proof Hc as (W1 & W2 & _).
  assert (S12 : Sub W e o). { apply (sub_trans e (TClass object_class) o); try done; [apply object_wf|]. by apply sub_object, W1. }
  assert (S21 : ~ Sub W o e). { intros H. apply He. apply (sub_trans _ o e); try done. apply object_wf. }
  apply (sub_true e o Hc) in S12. apply (sub_false o e (comparable_sym _ _ Hc)) in S21.
  destruct (object_like_form _ Ho) as [->|(a & b & ->)]; destruct e as [c|o1|a1 b1|mn mx|c]; cbn [more_specific]; try done.
  - assert (Hne : c <> object_class). { intros ->. apply He. unfold object_like. cbn. apply inherits_refl. rewrite supers_table_length. apply object_lt. }
    pose proof (class_of_lt W HW x Hx) as Hcx.
    destruct (class_lt_ok W HW c object_class (class_of W x) Hcx Hne Hi) as ([] & _ & B1 & B2).
    { by apply object_top. }
    + by apply B1.
    + exfalso. by eapply object_last, B2.
  - intros [_ ?]. by destruct class_not_object.
Qed.

(** ** Specializers that are the same for an if-type discriminator *)

Definition elike (t e : ty) : Prop :=
  Sub W e t /\ Sub W t e /\
  match e with TClass _ | TSubclass _ => t = e | TSing _ => exists o, t = TSing o | _ => True end.
Lemma elike_refl t : wf_specializer W t -> elike t t.
Proof. intros (H1 & H2 & H3). pose proof (Sub_refl W t H1 H2). split; [done|]. split; [done|]. destruct t; eauto. Qed.

Lemma same_specializer_ok t0 t : comparable W t0 t -> exists b, same_specializer W t0 t = Val b /\
  (b = true -> Sub W t0 t /\ Sub W t t0 /\
     match t0 with TClass _ | TSubclass _ => t = t0 | TSing _ => exists o, t = TSing o | _ => True end).
Proof.
  intros Hc. pose proof Hc as (W1 & W2 & _).
  assert (Hr : forall s, wf_specializer W s -> Sub W s s). { intros s (H1 & H2 & _). by apply Sub_refl. }
  assert (HO : exists b, oand (subtype W t0 t) (subtype W t t0) = Val b /\ (b = true -> Sub W t0 t /\ Sub W t t0)).
  { destruct (subtype_ok W HW t0 t (proj1 W1) (proj1 W2) (proj2 (proj2 Hc))) as (b1 & E1 & B1).
    destruct (subtype_ok W HW t t0 (proj1 W2) (proj1 W1) (unmixed2_sym _ _ (proj2 (proj2 Hc)))) as (b2 & E2 & B2).
    rewrite E1, E2. unfold oand. cbn. destruct b1; [|by exists false]. exists b2. split; [done|]. intros ->. tauto. }
  destruct t0 as [c|o|a b|mn mx|c]; cbn [same_specializer].
  - eexists. split; [reflexivity|]. rewrite bool_decide_eq_true. intros <-. auto.
  - destruct t as [c'|o'|a b|mn mx|c']; try (by exists false). eexists. split; [reflexivity|]. intros H.
    split; [done|]. split; [|eauto]. cbn. apply (simple_id_equal W).
    { apply W2. }
    apply same_object_sym. apply (simple_id_equal W); [apply W1|done].
  - case_bool_decide as E; [exists true; rewrite <- E; split; [done|]; intros _; split; [by apply Hr|]; split; [by apply Hr|done]|].
    destruct HO as (b1 & H1 & H). exists b1.
    split; [exact H1|]. intros Hb1. destruct (H Hb1). auto.
  - case_bool_decide as E; [exists true; rewrite <- E; split; [done|]; intros _; split; [by apply Hr|]; split; [by apply Hr|done]|].
    destruct HO as (b1 & H1 & H). exists b1.
    split; [exact H1|]. intros Hb1. destruct (H Hb1). auto.
  - destruct t as [c'|o'|a b|mn mx|c']; try (by exists false). eexists. split; [reflexivity|].
    intros H%Nat.eqb_eq. subst. auto.
Qed.

Lemma elike_step t0 t e : wf_specializer W t0 -> wf_specializer W t -> wf_specializer W e ->
  elike t0 e -> Sub W t0 t -> Sub W t t0 ->
  match t0 with TClass _ | TSubclass _ => t = t0 | TSing _ => exists o, t = TSing o | _ => True end -> elike t e.
Proof.
  intros W0 W1 We (E1 & E2 & E3) S1 S2 M. split; [by apply (sub_trans e t0 t)|]. split; [by apply (sub_trans t t0 e)|].
  destruct e; try done.
  - subst t0. done.
  - destruct E3 as [o' ->]. done.
  - subst t0. done.
Qed.

Lemma elike_osame x x' t e1 e2 : wf_specializer W t -> ready W x e1 e2 -> ready W x' e1 e2 ->
  elike t e1 -> elike t e2 -> osame x x' e1 e2.
Proof.
  intros Wt R R' (A1 & A2 & A3) (B1 & B2 & B3). apply osame_of_tells; [done..|].
  destruct R as (_ & Hc & _). pose proof Hc as (W1 & W2 & _).
  assert (S12 : Sub W e1 e2) by (by apply (sub_trans e1 t e2)).
  assert (S21 : Sub W e2 e1) by (by apply (sub_trans e2 t e1)).
  apply (sub_true e1 e2 Hc) in S12. apply (sub_true e2 e1 (comparable_sym _ _ Hc)) in S21.
  destruct e1 as [c1|o1|a1 b1|mn1 mx1|c1], e2 as [c2|o2|a2 b2|mn2 mx2|c2]; cbn [alike more_specific]; auto;
    try (subst t; (congruence || (left; congruence) || (destruct B3 as [? ?]; congruence)));
    try (destruct A3 as [o ->]; congruence).
Qed.
End world.
