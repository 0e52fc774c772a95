(** C20, C21, C22: [instance?], [subtype?] and [disjoint-types?] for all types built from
    classes, singletons, unions, limited integers and subclass types. *)
From Verif Require Import Base ClassModel ClassSpec ClassProofs TypeModel TypeSpec TypeProofs.
Local Open Scope nat_scope.

(** *** C20 *)

(** [instance?] answers, and answers membership. *)
Theorem C20_instance W x t : wf_world W -> wf_obj W x -> wf_ty W t ->
  exists b, instance W x t = Val b /\ (b = true <-> Inst W x t).
Proof. intros HW Hx Ht. by apply instance_ok. Qed.
Print Assumptions C20_instance.

(** Soundness.  Missing: [subclass(<class>)] on the right and limited integers with
    inverted bounds, refuted below. *)
Theorem C20_subtype_sound_partial W t1 t2 x :
  wf_world W -> wf_ty W t1 -> wf_ty W t2 -> no_subclass_class W t2 -> wf_obj W x ->
  subtype W t1 t2 = Val true -> instance W x t1 = Val true -> instance W x t2 = Val true.
Proof.
  intros HW H1 H2 Hc Hx Hs Hi.
  eapply tells_val; [by apply instance_ok|].
  apply (Sub_sound W t1 t2 x Hx Hc); [by apply subtype_true|].
  eapply tells_true; [|exact Hi]. by apply instance_ok.
Qed.
Print Assumptions C20_subtype_sound_partial.

(** On classes and singletons the answer is also complete: if every object of one type
    that could exist is in the other, [subtype?] says so.  For a singleton of an object
    equal to itself: *)
Theorem C20_singleton_complete W o t :
  wf_world W -> wf_obj W o -> wf_ty W t -> simple_obj W o ->
  exists b, subtype W (TSing o) t = Val b /\
    (b = true <-> forall x, wf_obj W x -> instance W x (TSing o) = Val true -> instance W x t = Val true).
Proof.
  intros HW Ho Ht Hs.
  assert (Hself : same_object W o o).
  { destruct (same_object_refl W o) as [?|(c & i & ->)]; [done|]. cbn in Hs. tauto. }
  assert (HT : tells (subtype W (TSing o) t) (Inst W o t)).
  { clear Hself. destruct t as [c|p|a b|mn mx|c].
    - by apply (subtype_base_ok W HW (TSing o) (TClass c)); try done; left.
    - apply tells_bool. by apply simple_id_equal.
    - destruct Ht. cbn. apply tells_or; by apply instance_ok.
    - by apply (subtype_base_ok W HW (TSing o) (TLimInt mn mx)); try done; right.
    - by apply (subtype_base_ok W HW (TSing o) (TSubclass c)); try done; left. }
  destruct HT as (b & Hb & Hiff). exists b. split; [done|]. rewrite Hiff. split.
  - intros HI x Hx Hi. eapply tells_val; [by apply instance_ok|]. eapply same_object_inst; [|exact HI].
    by apply (tells_true _ _ (instance_ok W HW x (TSing o) Hx Ho)).
  - intros H. eapply tells_true; [by apply instance_ok|]. apply H; [done|].
    eapply tells_val; [by apply instance_ok|]. done.
Qed.
Print Assumptions C20_singleton_complete.

(** For two classes, whenever the first has a direct instance: *)
Theorem C20_class_complete W c t n v :
  wf_world W -> c < length (w_classes W) -> c <> w_integer W -> c <> w_class W ->
  match t with TClass _ | TUnion (TClass _) (TClass _) => True | _ => False end -> wf_ty W t ->
  instance W (OOther c n v) t = Val true -> subtype W (TClass c) t = Val true.
Proof.
  intros HW Hc Hi Hcl Hk Ht H.
  assert (Hx : wf_obj W (OOther c n v)) by done.
  pose proof (tells_true _ _ (instance_ok W HW _ t Hx Ht) H) as HI.
  eapply tells_val; [apply (subtype_ok W HW); [done|done|]|].
  - left. destruct t as [| |[] []| |]; done.
  - destruct t as [| |[] []| |]; try done.
Qed.
Print Assumptions C20_class_complete.

(** *** C21 *)

Theorem C21_reflexive_partial W t :
  wf_world W -> wf_ty W t -> simple_singletons W t -> unmixed t ->
  subtype W t t = Val true.
Proof.
  intros HW Ht Hs Hm. eapply tells_val; [apply (subtype_ok W HW); [done|done|]|].
  - unfold unmixed2. unfold unmixed in Hm. tauto.
  - by apply Sub_refl.
Qed.
Print Assumptions C21_reflexive_partial.

Theorem C21_transitive_partial W t1 t2 t3 :
  wf_world W -> wf_ty W t1 -> wf_ty W t2 -> wf_ty W t3 ->
  simple_singletons W t1 -> no_subclass_class W t2 -> no_subclass_class W t3 -> unmixed2 t1 t3 ->
  subtype W t1 t2 = Val true -> subtype W t2 t3 = Val true -> subtype W t1 t3 = Val true.
Proof.
  intros HW H1 H2 H3 Hs Hc2 Hc3 Hm H12 H23.
  eapply tells_val; [by apply (subtype_ok W HW)|].
  eapply (Sub_trans W t1 t2 t3); [done..| |]; by apply subtype_true.
Qed.
Print Assumptions C21_transitive_partial.

(** A union is the least upper bound of its members. *)
Theorem C21_union_partial W t1 t2 t :
  wf_world W -> wf_ty W t1 -> wf_ty W t2 -> wf_ty W t ->
  simple_singletons W t1 -> simple_singletons W t2 -> unmixed (TUnion t1 t2) ->
  subtype W t1 (type_union t1 t2) = Val true /\ subtype W t2 (type_union t1 t2) = Val true /\
  (subtype W t1 t = Val true -> subtype W t2 t = Val true -> subtype W (type_union t1 t2) t = Val true).
Proof.
  intros HW H1 H2 H3 Hs1 Hs2 Hm.
  assert (HU : type_union t1 t2 = TUnion t1 t2 \/ (type_union t1 t2 = t1 /\ t1 = t2)).
  { unfold type_union. destruct t1, t2; try (by left). case_bool_decide; [right; by subst|by left]. }
  destruct HU as [-> |[-> <-]].
  - split; [|split].
    + eapply tells_val; [apply (subtype_ok W HW); [done|done|]|].
      * unfold unmixed2. unfold unmixed in Hm. cbn in *. tauto.
      * apply Sub_union_l; [done|]. by apply Sub_refl.
    + eapply tells_val; [apply (subtype_ok W HW); [done|done|]|].
      * unfold unmixed2. unfold unmixed in Hm. cbn in *. tauto.
      * apply Sub_union_r; [done|]. by apply Sub_refl.
    + intros Ha Hb. cbn. by rewrite Ha, Hb.
  - assert (subtype W t1 t1 = Val true).
    { apply C21_reflexive_partial; try done. unfold unmixed in *. cbn in Hm. tauto. }
    done.
Qed.
Print Assumptions C21_union_partial.

(** *** C22 *)

(** Missing: classes made at run time (C22_runtime_class_refuted) and singletons of
    objects that are [=] but not [==] (refuted below). *)
Theorem C22_disjoint_sound_partial W t1 t2 x :
  wf_world W -> loaded_world W -> wf_ty W t1 -> wf_ty W t2 -> simple_singletons W t1 -> wf_obj W x ->
  disjoint W t1 t2 = Val true -> ~ (instance W x t1 = Val true /\ instance W x t2 = Val true).
Proof.
  intros HW HL H1 H2 Hs Hx Hd [I1 I2].
  eapply (disjoint_sound W HW HL x Hx t1 t2); [done..| |].
  - by apply (tells_true _ _ (instance_ok W HW x t1 Hx H1)).
  - by apply (tells_true _ _ (instance_ok W HW x t2 Hx H2)).
Qed.
Print Assumptions C22_disjoint_sound_partial.

(** *** A concrete world: 1 <integer>, 2 <class>, 3 <string>, 4 <double-float>,
    5 a class, 6 and 7 its subclasses. *)

Definition demo_ops : list class_op :=
  [LoadLibrary [([0], false); ([0], false); ([0], false); ([0], false); ([0], false); ([5], false); ([5], false)]].
Definition demo : world :=
  World (run_classes demo_ops) 1 2
    (fun c => if bool_decide (c = 3) then EqContent else if bool_decide (c = 4) then EqValue else EqIdentity).

Lemma demo_leaf d : d = 1 \/ d = 2 ->
  forall c, Inherits (supers_table (w_classes demo)) c d -> c = d.
Proof.
  intros Hd c H. pose proof (Inherits_lt _ _ _ H) as Hlt.
  assert (Hd' : d < length (w_classes demo)). { destruct Hd as [-> | ->]; vm_compute; lia. }
  rewrite supers_table_length in Hlt.
  destruct (subclass_ok (w_classes demo) (run_classes_wf demo_ops) c d Hlt Hd') as (b & Hb & Hiff).
  { right. apply run_classes_rooted; [repeat constructor; done|done]. }
  apply Hiff in H. subst b. change (length (w_classes demo)) with 8 in Hlt.
  do 8 (destruct c as [|c]; [destruct Hd as [-> | ->]; vm_compute in Hb; first [done|discriminate]|]). lia.
Qed.
Example demo_wf : wf_world demo /\ loaded_world demo.
Proof.
  split; [split|].
  - exists demo_ops. split; [repeat constructor; done|done].
  - vm_compute. lia.
  - vm_compute. lia.
  - done.
  - apply demo_leaf. by left.
  - apply demo_leaf. by right.
  - exists demo_ops. split; [repeat constructor|]. split; [repeat constructor; done|done].
Qed.

Definition demo_t1 : ty := TUnion (TSing (OInt 7)) (TUnion (TClass 6) (TLimInt (Some 3%Z) (Some 9%Z))).
Definition demo_t2 : ty := TUnion (TLimInt (Some 0%Z) None) (TClass 5).
Definition demo_t3 : ty := TUnion (TClass 0) (TSing (OOther 4 9 (Some 1))).
Lemma demo_length : length (w_classes demo) = 8.
Proof. vm_compute. reflexivity. Qed.
Example demo_types_wf :
  wf_ty demo demo_t1 /\ wf_ty demo demo_t2 /\ wf_ty demo demo_t3 /\
  no_subclass_class demo demo_t2 /\ no_subclass_class demo demo_t3 /\
  unmixed demo_t1 /\ unmixed2 demo_t1 demo_t3.
Proof.
  unfold demo_t1, demo_t2, demo_t3, unmixed, unmixed2, int_range.
  cbn [wf_ty wf_obj no_subclass_class no_limint no_subclass w_integer w_class demo].
  rewrite demo_length. unfold int_range.
  split; [|split; [|split; [|tauto]]].
  - split; [lia|]. split; [lia|]. split; [intros ? [= <-]; lia|]. split; [intros ? [= <-]; lia|].
    intros ? ? [= <-] [= <-]. lia.
  - split; [|lia]. split; [intros ? [= <-]; lia|]. split; intros; discriminate.
  - split; [lia|]. lia.
Qed.
Example demo_types_simple : simple_singletons demo demo_t1 /\ simple_singletons demo demo_t3.
Proof. split; [done|]. split; [done|]. by split. Qed.
Example demo_types :
  subtype demo demo_t1 demo_t2 = Val true /\ subtype demo demo_t2 demo_t3 = Val true /\
  subtype demo demo_t2 demo_t1 = Val false /\
  instance demo (OInt 7) demo_t1 = Val true /\ instance demo (OInt 10) demo_t1 = Val false.
Proof. vm_compute. by repeat split. Qed.
Example demo_disjoint :
  disjoint demo (TUnion (TClass 6) (TLimInt None (Some 4%Z))) (TUnion (TLimInt (Some 5%Z) None) (TClass 7)) = Val true /\
  disjoint demo (TClass 5) (TUnion (TClass 3) (TClass 6)) = Val false /\
  disjoint demo (TSubclass 6) (TSubclass 7) = Val true /\ disjoint demo (TSing (OInt 4)) (TLimInt (Some 5%Z) None) = Val true.
Proof. vm_compute. by repeat split. Qed.
Example demo_subclass_types :
  instance demo (OClass 6) (TSubclass 5) = Val true /\ subtype demo (TSubclass 6) (TSubclass 5) = Val true /\
  subtype demo (TSubclass 6) (TClass 2) = Val true /\ subtype demo (TSing (OClass 6)) (TSubclass 5) = Val true.
Proof. vm_compute. by repeat split. Qed.

(** *** Where the properties fail *)

(** [subtype?(<class>, subclass(<class>))] is true, but not every class is a subclass of
    <class>. *)
Theorem C20_subclass_class_refuted :
  exists W t1 t2 x, wf_world W /\ wf_ty W t1 /\ wf_ty W t2 /\ wf_obj W x /\
    subtype W t1 t2 = Val true /\ instance W x t1 = Val true /\ instance W x t2 = Val false.
Proof.
  exists demo, (TClass 2), (TSubclass 2), (OClass 5). split; [apply demo_wf|].
  split; [vm_compute; lia|]. split; [vm_compute; lia|]. split; [vm_compute; lia|]. vm_compute. done.
Qed.
Print Assumptions C20_subclass_class_refuted.

(** limited(<integer>, min: 10, max: 5) has instances, as the test is one unsigned
    comparison; it is a subtype of limited(<integer>, min: 0, max: 5). *)
Theorem C20_inverted_bounds_refuted :
  exists W t1 t2 x, wf_world W /\ wf_ty W t2 /\ wf_obj W x /\
    subtype W t1 t2 = Val true /\ instance W x t1 = Val true /\ instance W x t2 = Val false.
Proof.
  exists demo, (TLimInt (Some 10%Z) (Some 5%Z)), (TLimInt (Some 0%Z) (Some 5%Z)), (OInt 100).
  split; [apply demo_wf|]. split.
  { cbn [wf_ty]. unfold int_range. split; [intros ? [= <-]; lia|]. split; [intros ? [= <-]; lia|].
    intros ? ? [= <-] [= <-]. lia. }
  split; [cbn; unfold int_range; lia|]. vm_compute. done.
Qed.
Print Assumptions C20_inverted_bounds_refuted.

(** No method compares a subclass type with a limited integer. *)
Theorem C21_reflexive_refuted :
  exists W t, wf_world W /\ wf_ty W t /\ simple_singletons W t /\
    subtype W t t = Signal "no-applicable-method-error".
Proof.
  exists demo, (TUnion (TLimInt (Some 0%Z) None) (TSubclass 5)).
  split; [apply demo_wf|]. split.
  { cbn [wf_ty]. unfold int_range. split; [split; [intros ? [= <-]; lia|done]|]. vm_compute. lia. }
  split; [done|]. vm_compute. done.
Qed.
Print Assumptions C21_reflexive_refuted.

(** A union with the singleton of a NaN is not a subtype of itself. *)
Theorem C21_nan_refuted :
  exists W t, wf_world W /\ wf_ty W t /\ unmixed t /\ subtype W t t = Val false.
Proof.
  exists demo, (TUnion (TSing (OOther 4 1 None)) (TClass 5)).
  split; [apply demo_wf|]. split; [vm_compute; repeat split; lia|]. split; [by left|]. vm_compute. done.
Qed.
Print Assumptions C21_nan_refuted.

(** With two strings that are [=] but not [==]. *)
Theorem C21_transitive_refuted :
  exists W t1 t2 t3, wf_world W /\ wf_ty W t1 /\ wf_ty W t2 /\ wf_ty W t3 /\
    subtype W t1 t2 = Val true /\ subtype W t2 t3 = Val true /\ subtype W t1 t3 = Val false.
Proof.
  set (a := OOther 3 1 (Some 5)). set (b := OOther 3 2 (Some 5)).
  exists demo, (TSing a), (TUnion (TSing b) (TSing b)), (TSing b).
  split; [apply demo_wf|]. do 3 (split; [vm_compute; repeat split; lia|]). vm_compute. done.
Qed.
Print Assumptions C21_transitive_refuted.

(** <class> is below subclass(<class>), which is below subclass(<object>). *)
Theorem C21_transitive_class_refuted :
  exists W t1 t2 t3, wf_world W /\ wf_ty W t1 /\ wf_ty W t2 /\ wf_ty W t3 /\
    subtype W t1 t2 = Val true /\ subtype W t2 t3 = Val true /\ subtype W t1 t3 = Val false.
Proof.
  exists demo, (TClass 2), (TSubclass 2), (TSubclass 0).
  split; [apply demo_wf|]. do 3 (split; [vm_compute; repeat split; lia|]). vm_compute. done.
Qed.
Print Assumptions C21_transitive_class_refuted.

(** Two strings [=] but not [==]: their singletons are declared disjoint, and each string
    is an instance of both. *)
Theorem C22_singletons_refuted :
  exists W t1 t2 x, wf_world W /\ loaded_world W /\ wf_ty W t1 /\ wf_ty W t2 /\ wf_obj W x /\
    disjoint W t1 t2 = Val true /\ instance W x t1 = Val true /\ instance W x t2 = Val true.
Proof.
  set (a := OOther 3 1 (Some 5)). set (b := OOther 3 2 (Some 5)).
  exists demo, (TSing a), (TSing b), a.
  split; [apply demo_wf|]. split; [apply demo_wf|]. do 3 (split; [vm_compute; repeat split; lia|]). vm_compute. done.
Qed.
Print Assumptions C22_singletons_refuted.
