(** Class precedence lists (C23), the subclass test (C24) and disjointness of classes
    (part of C22), for every history of class definitions. *)
From Verif Require Import Base ClassModel ClassSpec ClassProofs.
From Coq Require Import Sorting.Sorted.

(** *** C23 *)

(** After any history, the precedence list of every class is a monotone linearization
    of its superclasses. *)
Theorem C23_cpl_is_linearization ops c ic :
  run_classes ops !! c = Some ic ->
  Linearization (supers_table (run_classes ops)) (cpl_of (run_classes ops)) c
    (direct_supers ic) (all_supers ic).
Proof.
  intros Hc. pose proof (ws_tab _ (run_classes_wf ops)) as Htab.
  assert (Hl : cores (run_classes ops) !! c = Some (direct_supers ic, all_supers ic)).
  { unfold cores. by rewrite list_lookup_fmap, Hc. }
  destruct (Htab _ _ _ Hl) as [_ [H1 H2 H3 H4 H5]].
  rewrite supers_table_cores. constructor; try done.
  intros s Hs. rewrite cpl_of_cores. by apply H5.
Qed.
Print Assumptions C23_cpl_is_linearization.

(** Monotone with respect to all ancestors, not only the direct superclasses. *)
Theorem C23_monotone ops c d :
  Inherits (supers_table (run_classes ops)) c d ->
  keeps_order (cpl_of (run_classes ops) c) (cpl_of (run_classes ops) d).
Proof.
  intros Hi. pose proof (ws_tab _ (run_classes_wf ops)) as Htab.
  assert (Hc : c < length (run_classes ops)).
  { rewrite <- supers_table_length. by eapply Inherits_lt. }
  unfold keeps_order. rewrite !cpl_of_cores. apply tcpl_monotone; [done|by rewrite cores_length|].
  apply tcpl_members; [done|by rewrite cores_length|]. by rewrite <- supers_table_cores.
Qed.
Print Assumptions C23_monotone.

(** A new class, of any existing direct superclasses, after any history: it is
    appended with such a list and the lists of the others are kept; or the
    inconsistency is signalled, and then no order at all satisfies the constraints; or
    unrelated primary superclasses are, and then there are some.  No other outcome:
    neither the assertion on positions nor the comparison with the old algorithm
    fails. *)
Theorem C23_new_class ops supers prim :
  let st := run_classes ops in
  (forall s, s ∈ supers -> s < length st) ->
  (exists st' ic, make_class st supers prim = Val st' /\ length st' = S (length st) /\
     (forall c, c < length st -> cpl_of st' c = cpl_of st c) /\
     st' !! length st = Some ic /\ direct_supers ic = supers /\
     Linearization (supers_table st) (cpl_of st) (length st) supers (all_supers ic)) \/
  (make_class st supers prim = Signal "inconsistent-precedence-class-error" /\
     ~ exists L, consistent_order (cpl_of st) supers L) \/
  (make_class st supers prim = Signal "combines unrelated primary classes" /\
     exists p q s t, s ∈ supers /\ t ∈ supers /\
       Inherits (supers_table st) s p /\ Inherits (supers_table st) t q /\
       is_primary st p /\ is_primary st q /\
       ~ Inherits (supers_table st) p q /\ ~ Inherits (supers_table st) q p).
Proof.
  intros st Hs.
  destruct (make_class_spec st supers prim (run_classes_wf ops) Hs)
    as [(st' & L & HE & Hwf & HL & Hca)|[H|H]]; [|right; by left|right; by right].
  left. pose proof (class_added_length _ _ _ _ _ Hca) as Hlen.
  destruct (lookup_lt_is_Some_2 st' (length st)) as [ic Hic]; [lia|].
  exists st', ic. split; [done|]. split; [done|].
  assert (Hcore : core ic = (supers, L)).
  { assert (cores st' !! length st = Some (core ic)) as H1 by (unfold cores; by rewrite list_lookup_fmap, Hic).
    rewrite (ca_cores _ _ _ _ _ Hca), lookup_app_r, cores_length, Nat.sub_diag in H1
      by (by rewrite cores_length). cbn in H1. congruence. }
  injection Hcore as H1 H2. split.
  - intros c Hc. rewrite !cpl_of_cores, (ca_cores _ _ _ _ _ Hca). unfold tcpl.
    by rewrite lookup_app_l by (by rewrite cores_length).
  - split; [done|]. split; [done|]. by rewrite H2.
Qed.
Print Assumptions C23_new_class.

(** The inconsistency error is exact: it is signalled if and only if no order of
    classes satisfies the constraints. *)
Theorem C23_inconsistent_iff ops supers prim :
  let st := run_classes ops in
  (forall s, s ∈ supers -> s < length st) ->
  make_class st supers prim = Signal "inconsistent-precedence-class-error" <->
  ~ exists L, consistent_order (cpl_of st) supers L.
Proof.
  intros st Hs.
  assert (Hcons : forall L, Linearization (supers_table st) (cpl_of st) (length st) supers L ->
    consistent_order (cpl_of st) supers L).
  { intros L [H1 H2 H3 H4 H5]. by repeat split. }
  pose proof (ws_tab _ (run_classes_wf ops)) as Htab.
  destruct (make_class_spec st supers prim (run_classes_wf ops) Hs)
    as [(st' & L & HE & _ & HL & _)|[[HE Hno]|[HE _]]]; rewrite HE.
  - split; [done|]. intros H. destruct H. exists L. by apply Hcons.
  - by split.
  - split; [done|]. intros H. exfalso. apply H.
    destruct (compute_cpl_spec st supers Htab Hs) as [(L & _ & HL)|[HE2 _]]; [exists L; by apply Hcons|].
    unfold make_class in HE. by rewrite HE2 in HE.
Qed.
Print Assumptions C23_inconsistent_iff.

(** Non-vacuity.  1 = A, 2 = B, 3 = C(A, B), 4 = D(B, A) cannot be joined; the diamond
    5 = (3), 6 = (3), 7 = (5, 6) is. *)
Definition demo_ops : list class_op :=
  [LoadLibrary [([0], false); ([0], true); ([1; 2], false)];
   MakeClass [2; 1] false; MakeClass [3] false; MakeClass [3] false; MakeClass [5; 6] false].
Example C23_ex_diamond : cpl_of (run_classes demo_ops) 7 = [7; 5; 6; 3; 1; 2; 0].
Proof. vm_compute. reflexivity. Qed.
Example C23_ex_inconsistent :
  make_class (run_classes demo_ops) [3; 4] false = Signal "inconsistent-precedence-class-error".
Proof. vm_compute. reflexivity. Qed.
Example C23_ex_primaries :
  make_class (run_classes [LoadLibrary [([0], true); ([0], true)]]) [1; 2] false
  = Signal "combines unrelated primary classes".
Proof. vm_compute. reflexivity. Qed.

(** *** C24 *)

(** After any history in which every class is given a superclass, [subclass?] tells
    exactly whether one class inherits from the other. *)
Theorem C24_subclass_partial ops x y :
  Forall rooted_op ops ->
  let st := run_classes ops in
  x < length st -> y < length st ->
  exists b, subclass st x y = Val b /\ (b = true <-> Inherits (supers_table st) x y).
Proof.
  intros Hr st Hx Hy. apply subclass_ok; [apply run_classes_wf|done|done|].
  right. by apply run_classes_rooted.
Qed.
Print Assumptions C24_subclass_partial.

(** The same, as the property puts it: when the second is in the precedence list of the
    first. *)
Theorem C24_subclass_cpl_partial ops x y :
  Forall rooted_op ops ->
  let st := run_classes ops in
  x < length st -> y < length st ->
  exists b, subclass st x y = Val b /\ (b = true <-> y ∈ cpl_of st x).
Proof.
  intros Hr st Hx Hy. destruct (C24_subclass_partial ops x y Hr Hx Hy) as (b & Hb & Hiff).
  exists b. split; [done|]. rewrite Hiff. symmetry. apply cpl_members; [apply run_classes_wf|done].
Qed.
Print Assumptions C24_subclass_cpl_partial.

(** Whatever the history, the answer is right for every second argument but <object>. *)
Theorem C24_subclass_not_object ops x y :
  let st := run_classes ops in
  x < length st -> y < length st -> y <> object_class ->
  exists b, subclass st x y = Val b /\ (b = true <-> Inherits (supers_table st) x y).
Proof. intros st Hx Hy Hy0. apply subclass_ok; [apply run_classes_wf|done|done|by left]. Qed.
Print Assumptions C24_subclass_not_object.

(** [instance?] on an object of class [x], by the function chosen for [y]. *)
Theorem C24_instance_partial ops x y :
  Forall rooted_op ops ->
  let st := run_classes ops in
  x < length st -> y < length st ->
  exists b, class_instance st x y = Val b /\ (b = true <-> Inherits (supers_table st) x y).
Proof.
  intros Hr st Hx Hy. apply class_instance_ok; [apply run_classes_wf|done|done|].
  right. by apply run_classes_rooted.
Qed.
Print Assumptions C24_instance_partial.

(** With make(<class>, superclasses: #()) the test fails: C below inherits from
    <object> through D, and [subclass?] denies it. *)
Theorem C24_empty_superclasses_refuted :
  exists ops x, let st := run_classes ops in
    x < length st /\ Inherits (supers_table st) x object_class /\
    object_class ∈ cpl_of st x /\ subclass st x object_class = Val false /\
    class_instance st x object_class = Val false.
Proof.
  exists [MakeClass [] false; MakeClass [0] false; MakeClass [2; 1] false], 3.
  cbv zeta. split; [vm_compute; lia|]. split.
  { eapply (inherits_step _ _ [2; 1] 2); [reflexivity|left|].
    eapply (inherits_step _ _ [0] 0); [reflexivity|left|]. apply inherits_refl. vm_compute. lia. }
  split; [|split; vm_compute; reflexivity].
  assert (Hc : cpl_of (run_classes [MakeClass [] false; MakeClass [0] false; MakeClass [2; 1] false]) 3
    = [3; 2; 0; 1]) by (vm_compute; reflexivity).
  rewrite Hc. rewrite !elem_of_cons. auto.
Qed.
Print Assumptions C24_empty_superclasses_refuted.

(** The primary superclasses of a class are pairwise related. *)
Theorem C24_primaries_related ops c p q :
  let st := run_classes ops in
  Inherits (supers_table st) c p -> Inherits (supers_table st) c q ->
  is_primary st p -> is_primary st q ->
  Inherits (supers_table st) p q \/ Inherits (supers_table st) q p.
Proof.
  intros st Hp Hq (ip & Hip & Hpp) (iq & Hiq & Hpq).
  assert (Hc : c < length st) by (rewrite <- supers_table_length; by eapply Inherits_lt).
  pose proof (run_classes_wf ops) as Hwf.
  destruct (lookup_lt_is_Some_2 _ _ Hc) as [ic Hic].
  eapply (ws_prim _ Hwf c ic p ip q iq); try done; rewrite <- (cpl_of_lookup _ _ _ Hic);
    (apply cpl_members; [apply Hwf|done|done]).
Qed.
Print Assumptions C24_primaries_related.

(** Adding several positions at once: when they are in order and above the first
    position, the recorded positions become the union, in order. *)
Theorem C24_positions_multiple_partial ic positions :
  StronglySorted Z.lt (rcpl_position ic :: rcpl_others ic) -> StronglySorted Z.lt positions ->
  (forall p, p ∈ positions -> rcpl_position ic < p)%Z ->
  exists ic', augment_positions_multiple ic positions = Val ic' /\
    all_supers ic' = all_supers ic /\ rcpl_vector ic' = rcpl_vector ic /\
    rcpl_position ic' = rcpl_position ic /\
    StronglySorted Z.lt (rcpl_position ic' :: rcpl_others ic') /\
    forall p, p ∈ rcpl_others ic' <-> p ∈ rcpl_others ic \/ p ∈ positions.
Proof.
  intros Hs Hp Ha. destruct (augment_positions_multiple_ok ic positions Hs Hp Ha)
    as (ic' & HE & Hcore & Hr). exists ic'. split; [done|]. split; [|done]. by injection Hcore.
Qed.
Print Assumptions C24_positions_multiple_partial.

(** If the first position is among them the loop writes past the vector. *)
Theorem C24_positions_multiple_refuted :
  exists ic positions,
    StronglySorted Z.lt (rcpl_position ic :: rcpl_others ic) /\ StronglySorted Z.lt positions /\
    (forall p, p ∈ positions -> rcpl_position ic <= p)%Z /\
    augment_positions_multiple ic positions = Signal "element-range-error".
Proof.
  exists (IClass [] [] [] 2 [] false []), [2; 3]%Z. split; [repeat constructor|].
  split; [repeat constructor; lia|]. split; [|vm_compute; reflexivity].
  intros p Hp. rewrite !elem_of_cons, elem_of_nil in Hp. cbn. lia.
Qed.
Print Assumptions C24_positions_multiple_refuted.

Example C24_ex_moved_class :  (* class 1 is at positions 1, 2 and 3 of different lists *)
  let st := run_classes [LoadLibrary [([0], false); ([0], false); ([0], false);
                                      ([1; 2], false); ([1; 2; 3], false)]] in
  rcpl_others <$> st !! 1 = Some [2; 3]%Z /\ subclass st 4 1 = Val true /\ subclass st 5 1 = Val true /\
  subclass st 4 3 = Val false.
Proof. vm_compute. by repeat split. Qed.
Example C24_ex_rooted : Forall rooted_op demo_ops.
Proof. repeat constructor; done. Qed.
Example C24_ex_multiple : augment_positions_multiple (IClass [] [] [] 2 [4; 7]%Z false []) [3; 4; 9]%Z
  = Val (IClass [] [] [] 2 [3; 4; 7; 9]%Z false []).
Proof. vm_compute. reflexivity. Qed.

(** *** C22, classes *)

(** After any history of library loads, classes that are declared disjoint have no
    common subclass, so no common instance. *)
Theorem C22_classes_sound_partial ops a b :
  Forall is_load ops -> Forall rooted_op ops ->
  let st := run_classes ops in
  a < length st -> b < length st ->
  exists r, disjoint_classes st a b = Val r /\
    (r = true -> forall c, ~ (Inherits (supers_table st) c a /\ Inherits (supers_table st) c b)).
Proof.
  intros Hload Hroot st Ha Hb.
  pose proof (run_classes_wf ops) as Hwf. pose proof (run_classes_joint ops Hload) as Hj.
  pose proof (run_classes_rooted ops Hroot) as Hr.
  destruct (lookup_lt_is_Some_2 _ _ Ha) as [ia Hia]. destruct (lookup_lt_is_Some_2 _ _ Hb) as [ib Hib].
  unfold disjoint_classes, iclass_of. rewrite (vread_val _ _ _ Hia), (vread_val _ _ _ Hib). cbn [obind].
  destruct (isubclass_ok st Hwf a ia b ib Hia Hib) as (b1 & Hb1 & Hiff1); [right; by apply Hr|].
  rewrite Hb1. cbn [obind]. destruct b1; [by exists false|].
  destruct (isubclass_ok st Hwf b ib a ia Hib Hia) as (b2 & Hb2 & Hiff2); [right; by apply Hr|].
  rewrite Hb2. cbn [obind]. destruct b2; [by exists false|].
  assert (Hab : ~ Inherits (supers_table st) a b) by (intros H; by apply Hiff1 in H).
  assert (Hba : ~ Inherits (supers_table st) b a) by (intros H; by apply Hiff2 in H).
  eexists. split; [done|]. intros Hd c [Hca Hcb].
  apply orb_true_iff in Hd as [Hd|Hd].
  - apply andb_true_iff in Hd as [Hpa Hpb].
    destruct (C24_primaries_related ops c a b Hca Hcb) as [?|?]; [by exists ia|by exists ib|done..].
  - apply andb_true_iff in Hd as [H1 H2]. rewrite negb_true_iff in H1, H2.
    apply member_false in H1, H2.
    destruct (Hj a b c Hca Hcb Hab Hba) as [H|H]; unfold known_of in H; fold st in H; [rewrite Hia in H|rewrite Hib in H]; done.
Qed.
Print Assumptions C22_classes_sound_partial.

(** Classes made at run time are not recorded: the two superclasses of a class made by
    make(<class>, superclasses: list(a, b)) are still declared disjoint. *)
Theorem C22_runtime_class_refuted :
  exists ops a b c, Forall rooted_op ops /\ let st := run_classes ops in
    disjoint_classes st a b = Val true /\
    class_instance st c a = Val true /\ class_instance st c b = Val true.
Proof.
  exists [LoadLibrary [([0], false); ([0], false)]; MakeClass [1; 2] false], 1, 2, 3.
  split; [repeat constructor; done|]. vm_compute. by repeat split.
Qed.
Print Assumptions C22_runtime_class_refuted.

Example C22_ex_load :
  let st := run_classes [LoadLibrary [([0], false); ([0], false); ([0], false)]; LoadLibrary [([1; 2], false)]] in
  disjoint_classes st 1 2 = Val false /\ disjoint_classes st 1 3 = Val true.
Proof. vm_compute. by repeat split. Qed.
