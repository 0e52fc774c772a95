(** What discrimination learns from the class of an argument and from the specializers of
    the methods left. *)
From Verif Require Import Base ClassModel ClassSpec ClassProofs TypeModel TypeSpec TypeProofs
  DispModel DispSpec DispProofs DispUniformProofs.
From Coq Require Import ZifyBool ZifyNat.
Local Open Scope outcome_scope.
Local Open Scope nat_scope.

Section world.
Context (W : world) (HW : wf_world W).
Local Notation st := (w_classes W).
Local Notation T := (supers_table st).

Definition none_of (c : cid) (t : ty) : Prop := forall x, wf_obj W x -> class_of W x = c -> ~ Inst W x t.
Definition all_of (c : cid) (t : ty) : Prop := forall x, wf_obj W x -> class_of W x = c -> Inst W x t.
Definition constant_on (c : cid) (t : ty) : Prop := none_of c t \/ all_of c t.

Lemma same_object_class_of x o : same_object W x o -> class_of W x = class_of W o.
Proof. apply same_object_class. Qed.

Lemma class_constant c d : c < length st -> d < length st -> constant_on c (TClass d).
Proof.
  intros Hc Hd. destruct (sub_ok W HW c d Hc Hd) as (b & _ & Hb). destruct b.
  - right. intros x _ <-. cbn. by apply Hb.
  - left. intros x _ <- H. cbn in H. apply Hb in H. done.
Qed.

Lemma has_instances2_ok c t : c < length st -> wf_ty W t ->
  exists some all, has_instances2 W c t = Val (some, all) /\
    (some = false -> none_of c t) /\ (all = true -> all_of c t) /\
    (all = true -> exists u, u ∈ atoms t /\
       ((exists d, u = TClass d /\ Inherits T c d) \/ (u = TSubclass object_class /\ Inherits T c (w_class W)))).
Proof.
  intros Hc. induction t as [d|o|a IHa b IHb|mn mx|d]; cbn [has_instances2 wf_ty]; intros Ht.
  - destruct (sub_ok W HW c d Hc Ht) as (b & -> & Hb). cbn [obind]. exists b, b. split; [done|].
    split; [|split].
    + intros -> x _ <- H. cbn in H. apply Hb in H. done.
    + intros -> x _ <-. cbn. by apply Hb.
    + intros ->. exists (TClass d). split; [by apply elem_of_list_singleton|]. left. exists d. split; [done|]. by apply Hb.
  - destruct (sub_ok W HW (class_of W o) c) as (b & -> & Hb); [by apply class_of_lt|done|]. cbn [obind].
    exists b, false. split; [done|]. split; [|done]. intros -> x _ <- H. cbn in H.
    apply same_object_class_of in H. rewrite H in Hb. assert (false = true); [|done]. apply Hb.
    apply inherits_refl. rewrite supers_table_length. by apply class_of_lt.
  - destruct Ht as [Ha Hb]. destruct (IHa Ha) as (s1 & a1 & -> & N1 & A1 & C1).
    destruct (IHb Hb) as (s2 & a2 & -> & N2 & A2 & C2). cbn [obind]. eexists _, _. split; [reflexivity|].
    split; [|split].
    + intros H x Hx Hcx. apply orb_false_iff in H as [-> ->]. intros [H|H]; [by apply (N1 eq_refl x)|by apply (N2 eq_refl x)].
    + intros H x Hx Hcx. apply orb_true_iff in H as [->| ->]; [left; by apply A1|right; by apply A2].
    + intros H. apply orb_true_iff in H as [->| ->]; [destruct (C1 eq_refl) as (u & Hu & ?)|destruct (C2 eq_refl) as (u & Hu & ?)];
        exists u; (split; [cbn; rewrite elem_of_app; auto|done]).
  - destruct (sub_ok W HW (w_integer W) c) as (b1 & E1 & H1); [apply HW|done|].
    destruct (sub_ok W HW c (w_integer W)) as (b2 & E2 & H2); [done|apply HW|].
    rewrite E1, E2. unfold oor. cbn [obind]. exists (if b1 then true else b2), false.
    split; [by destruct b1|]. split; [|done]. intros H x Hx <- Hi. destruct Hi as (i & -> & _). cbn in *.
    destruct b1; [done|]. subst b2. assert (false = true); [|done]. apply H2. apply inherits_refl. rewrite supers_table_length. apply HW.
  - destruct (sub_ok W HW c (w_class W)) as (b & -> & Hb); [done|apply HW|]. cbn [obind].
    eexists _, _. split; [reflexivity|]. split; [|split].
    + intros -> x Hx <- (e & -> & _). assert (false = true); [|done]. apply Hb. cbn. apply inherits_refl. rewrite supers_table_length. apply HW.
    + intros H x Hx <-. apply andb_true_iff in H as [-> ->%Nat.eqb_eq]. destruct (proj1 (is_class W HW x Hx) (proj1 Hb eq_refl)) as [e ->].
      exists e. split; [done|]. by apply object_top.
    + intros H. apply andb_true_iff in H as [-> ->%Nat.eqb_eq]. exists (TSubclass object_class). split; [by apply elem_of_list_singleton|].
      right. split; [done|]. by apply Hb.
Qed.

Lemma grounded_ok c t : c < length st -> wf_ty W t ->
  exists some all, grounded_has_instances W c t = Val (some, all) /\
    (some = false -> none_of c t) /\ (all = true -> all_of c t) /\
    (all = true -> exists u, u ∈ atoms t /\
       ((exists d, u = TClass d /\ Inherits T c d) \/ (u = TSubclass object_class /\ Inherits T c (w_class W)))).
Proof.
  intros Hc Ht. pose proof (has_instances2_ok c t Hc Ht) as H. destruct t; try done. cbn [grounded_has_instances].
  eexists _, _. split; [reflexivity|]. split; [|done]. intros Hn x Hx <- Hi. cbn in Hi.
  apply same_object_class_of in Hi. rewrite Hi, Nat.eqb_refl in Hn. done.
Qed.

Lemma atoms_nonunion t u : u ∈ atoms t -> nonunion u.
Proof.
  induction t as [c|o|a IHa b IHb|mn mx|c]; cbn; rewrite ?elem_of_list_singleton; try (by intros ->).
  rewrite elem_of_app. intros [?|?]; auto.
Qed.
Lemma atoms_wf t u : wf_specializer W t -> u ∈ atoms t -> wf_specializer W u.
Proof.
  induction t as [c|o|a IHa b IHb|mn mx|c]; cbn; rewrite ?elem_of_list_singleton; try (by intros ? ->).
  intros ([? ?] & [? ?] & [? ?]). rewrite elem_of_app. intros [?|?]; [apply IHa|apply IHb]; done.
Qed.
Lemma atoms_no_subclass t u : no_subclass t -> u ∈ atoms t -> no_subclass u.
Proof.
  induction t as [c|o|a IHa b IHb|mn mx|c]; cbn; rewrite ?elem_of_list_singleton; try (by intros ? ->).
  intros [? ?]. rewrite elem_of_app. intros [?|?]; auto.
Qed.
Lemma inst_atoms x t : Inst W x t <-> exists u, u ∈ atoms t /\ Inst W x u.
Proof.
  induction t as [c|o|a IHa b IHb|mn mx|c]; cbn [atoms];
    try (split; [intros H; eexists; split; [by apply elem_of_list_singleton|done]|
                 intros (u & ->%elem_of_list_singleton & H); done]).
  cbn [Inst]. rewrite IHa, IHb. setoid_rewrite elem_of_app. split.
  - intros [(u & ? & ?)|(u & ? & ?)]; eauto.
  - intros (u & [?|?] & ?); eauto.
Qed.
Lemma plain_subclass t d : plain_union W t -> TSubclass d ∈ atoms t -> t = TSubclass d.
Proof.
  intros [[[c ->]|Hn] _] H.
  - by apply elem_of_list_singleton in H as [= ->].
  - by apply (atoms_no_subclass _ _ Hn) in H.
Qed.

(** The atoms of [t] do not tell the instances of [c] apart. *)
Definition flat_on (c : cid) (t : ty) : Prop :=
  forall u, u ∈ atoms t -> constant_on c u /\ match u with TSubclass d => d = object_class \/ none_of c u | _ => True end.

Lemma covered_flat c t all : c < length st -> wf_specializer W t -> plain_union W t ->
  (all = true -> exists u, u ∈ atoms t /\
       ((exists d, u = TClass d /\ Inherits T c d) \/ (u = TSubclass object_class /\ Inherits T c (w_class W)))) ->
  all = true -> flat_on c t.
Proof.
  intros Hc Wt Hp H Ha. destruct (H Ha) as (u0 & Hu0 & H0). clear H Ha. intros u Hu.
  pose proof (atoms_wf t u Wt Hu) as Wu. pose proof (atoms_nonunion t u Hu) as Nu.
  destruct H0 as [(d & -> & Hd)|[-> Hd]].
  - destruct Hp as [Hs Hp].
    assert (Hpart : partial_type u -> ~ Sub W u (TClass d)).
    { intros Hpu. pose proof (Hp u d Hu Hu0 Hpu) as Hf.
      pose proof (atoms_wf t _ Wt Hu0) as Wd.
      eapply tells_false; [|exact Hf]. apply subtype_ok; [done|apply Wu|apply Wd|].
      unfold unmixed2. destruct u; cbn in *; tauto. }
    destruct u as [d'|o|? ?|mn mx|d']; try done.
    + split; [|done]. apply class_constant; [done|apply Wu].
    + split; [|done]. left. intros x Hx <- Hi. apply Hpart; [done|]. cbn in Hi |- *.
      by rewrite <- (same_object_class_of _ _ Hi).
    + split; [|done]. left. intros x Hx <- (i & -> & _). by apply Hpart.
    + exfalso. destruct Hs as [[c' ->]|Hn]; [by apply elem_of_list_singleton in Hu0|]. by apply (atoms_no_subclass _ _ Hn) in Hu.
  - assert (t = TSubclass object_class) as -> by (by apply plain_subclass).
    apply elem_of_list_singleton in Hu as ->. split; [|by left]. right. intros x Hx <-.
    destruct (proj1 (is_class W HW x Hx) Hd) as [e ->]. exists e. split; [done|]. by apply object_top.
Qed.

Lemma secondary_ok c t : c < length st -> wf_specializer W t ->
  exists b, secondary W t c = Val b /\ (b = false -> flat_on c t).
Proof.
  intros Hc. induction t as [d|o|a IHa b IHb|mn mx|d]; intros Wt; cbn [secondary].
  3: { destruct Wt as ([Wa Wb] & [Sa Sb] & [Na Nb]).
       destruct IHa as (b1 & -> & H1); [done|]. destruct IHb as (b2 & -> & H2); [done|]. unfold oor. cbn [obind].
       destruct b1; [by exists true|]. exists b2. split; [done|]. intros ->. intros u. cbn. rewrite elem_of_app.
       intros [?|?]; [by apply H1|by apply H2]. }
  all: match goal with |- context [grounded_has_instances W ?c ?t] =>
         destruct (grounded_ok c t ltac:(assumption) (proj1 Wt)) as (some & all & -> & N & A & C) end; cbn [obind];
    eexists; (split; [reflexivity|]); intros H u Hu; apply elem_of_list_singleton in Hu as ->;
    apply andb_false_iff in H.
  - split; [|done]. apply class_constant; [done|apply Wt].
  - split; [|done]. destruct H as [->|H]; [left; by apply N|right; apply A; by destruct all].
  - split; [|done]. destruct H as [->|H]; [left; by apply N|right; apply A; by destruct all].
  - destruct H as [->|H]; [split; [left|right]; by apply N|].
    destruct all; [|done]. split; [right; by apply A|]. left. destruct (C eq_refl) as (u & Hu & [(d' & -> & _)|[-> _]]);
      apply elem_of_list_singleton in Hu; congruence.
Qed.

(** ** Sorts of specializers *)

Record sorts_le (c : cid) (s s' : sorts) : Prop := {
  sl_subclass : so_subclass s = true -> so_subclass s' = true;
  sl_singles : forall o, o ∈ so_singletons s -> o ∈ so_singletons s';
  sl_others : forall u, u ∈ so_others s -> u ∈ so_others s' }.
Definition sorts_has (c : cid) (s : sorts) (u : ty) : Prop :=
  match u with
  | TSubclass _ => so_subclass s = true
  | TSing o => class_of W o = c -> o ∈ so_singletons s
  | TLimInt _ _ => c = w_integer W -> u ∈ so_others s
  | _ => True
  end.
Record sorts_from (c : cid) (P : ty -> Prop) (s s' : sorts) : Prop := {
  sf_subclass : so_subclass s' = true -> so_subclass s = true \/ exists d, P (TSubclass d);
  sf_singles : forall o, o ∈ so_singletons s' -> o ∈ so_singletons s \/ (class_of W o = c /\ P (TSing o));
  sf_others : forall u, u ∈ so_others s' -> u ∈ so_others s \/ (P u /\ exists mn mx, u = TLimInt mn mx) }.

Lemma sorts_le_refl c s : sorts_le c s s.
Proof. by constructor. Qed.
Lemma sorts_le_trans c s1 s2 s3 : sorts_le c s1 s2 -> sorts_le c s2 s3 -> sorts_le c s1 s3.
Proof. intros [] []. constructor; auto. Qed.
Lemma sorts_has_le c s s' u : sorts_le c s s' -> sorts_has c s u -> sorts_has c s' u.
Proof. intros [] H. destruct u; cbn in *; auto. Qed.
Lemma sorts_from_trans c P s1 s2 s3 : sorts_from c P s1 s2 -> sorts_from c P s2 s3 -> sorts_from c P s1 s3.
Proof.
  intros [A1 A2 A3] [B1 B2 B3]. constructor.
  - intros H. destruct (B1 H); auto.
  - intros o H. destruct (B2 o H); auto.
  - intros u H. destruct (B3 u H); auto.
Qed.
Lemma sorts_from_weaken c (P Q : ty -> Prop) s1 s2 : (forall u, P u -> Q u) -> sorts_from c P s1 s2 -> sorts_from c Q s1 s2.
Proof.
  intros HPQ [A1 A2 A3]. constructor.
  - intros H. destruct (A1 H) as [?|[d ?]]; eauto.
  - intros o H. destruct (A2 o H) as [?|[? ?]]; eauto.
  - intros u H. destruct (A3 u H) as [?|[? ?]]; eauto.
Qed.

Lemma ponder_specializer_ok c t s : c < length st -> wf_ty W t ->
  exists s', ponder_specializer W t c s = Val s' /\ sorts_le c s s' /\
    (forall u, u ∈ atoms t -> sorts_has c s' u) /\ sorts_from c (fun u => u ∈ atoms t) s s'.
Proof.
  intros Hc. revert s. induction t as [d|o|a IHa b IHb|mn mx|d]; cbn [ponder_specializer atoms]; intros s Ht.
  - exists s. split; [done|]. split; [apply sorts_le_refl|]. split.
    + intros u ->%elem_of_list_singleton. done.
    + constructor; auto.
  - destruct (Nat.eqb_spec (class_of W o) c) as [E|E]; eexists; (split; [reflexivity|]); split.
    + constructor; cbn; auto. intros o' H. apply elem_of_cons. auto.
    + split; [intros u ->%elem_of_list_singleton; cbn; intros _; apply elem_of_cons; auto|].
      constructor; cbn; auto. intros o' [->|?]%elem_of_cons; auto. right. split; [done|]. by apply elem_of_list_singleton.
    + apply sorts_le_refl.
    + split; [intros u ->%elem_of_list_singleton; cbn; done|]. constructor; auto.
  - destruct Ht as [Ha Hb]. destruct (IHa s Ha) as (s1 & -> & L1 & H1 & F1). cbn [obind].
    destruct (IHb s1 Hb) as (s2 & -> & L2 & H2 & F2). exists s2. split; [done|]. split; [by eapply sorts_le_trans|]. split.
    + intros u [Hu|Hu]%elem_of_app; [|by apply H2]. eapply sorts_has_le; [done|]. by apply H1.
    + eapply sorts_from_trans; (eapply sorts_from_weaken; [|eassumption]); cbn; intros u Hu; rewrite elem_of_app; auto.
  - destruct (grounded_ok c (TLimInt mn mx) Hc Ht) as (some & all & Hg & N & _). rewrite Hg. cbn [obind].
    destruct some; eexists; (split; [reflexivity|]); split.
    + constructor; cbn; auto. intros o' H. apply elem_of_cons. auto.
    + split; [intros u ->%elem_of_list_singleton; cbn; intros _; apply elem_of_cons; auto|].
      constructor; cbn; auto. intros o' [->|?]%elem_of_cons; auto. right. split; [by apply elem_of_list_singleton|eauto].
    + apply sorts_le_refl.
    + split; [|constructor; auto]. intros u ->%elem_of_list_singleton. cbn. intros ->. exfalso.
      cbn in Hg. unfold oor in Hg. destruct (sub_ok W HW (w_integer W) (w_integer W)) as (b & Hb & Hiff); [apply HW..|].
      rewrite Hb in Hg. destruct b; [cbn in Hg; done|]. assert (false = true); [|done]. apply Hiff.
      apply inherits_refl. rewrite supers_table_length. apply HW.
  - eexists. split; [reflexivity|]. split; [constructor; cbn; auto|]. split; [intros u ->%elem_of_list_singleton; done|].
    constructor; cbn; auto. intros _. right. exists d. by apply elem_of_list_singleton.
Qed.
End world.
