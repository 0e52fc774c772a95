(** Proofs about choose, remove, remove-duplicates, intersection, union, add, reverse and concatenate. *)
From stdpp Require Import list_numbers.
From Verif Require Import Base CollModel CollSpec CollProofs CollIterProofs AccModel AccSpec EqModel EqSpec EqProofs SeqOpModel SeqOpSpec SeqOpProofs SelModel SelSpec.
From Coq Require Import ZArith ZifyBool ZifyNat.
Local Open Scope outcome_scope.
Local Open Scope Z_scope.

(** ** Loops are folds over the elements *)

Fixpoint foldM {R} (step : R -> value -> outcome R) (r : R) (l : list value) : outcome R :=
  match l with [] => Val r | x :: l => do r <- step r x ; foldM step r l end.

Lemma for_items_ok {R} (step : R -> value -> outcome R) c m : holds_list c m ->
  forall n i r fuel, (i + n = length m)%nat -> (n < fuel)%nat ->
  for_items fuel c (fip_of c) (pos_state c i) step r = foldM step r (drop i m).
Proof.
  intros H. induction n as [|n IH]; intros i r fuel Hi Hf; (destruct fuel as [|fuel]; [lia|]); cbn [for_items].
  - destruct (at_holds c m i H) as [[-> ->]|(v & _ & _ & Hv & _ & Hlt)]; [lia| |lia]. cbn [obind]. by rewrite drop_all.
  - destruct (at_holds c m i H) as [[_ ?]|(v & -> & He & Hv & Hn & Hlt)]; [lia|lia|]. cbn [obind]. rewrite He. cbn [obind].
    rewrite (drop_S m v i) by done. cbn [foldM]. destruct (step r v); cbn [obind]; [|done..]. rewrite Hn. cbn [obind].
    apply IH; lia.
Qed.

Lemma for_in_ok {R} fuel c m (step : R -> value -> outcome R) r : holds_list c m -> (length m < fuel)%nat ->
  for_in fuel c step r = foldM step r m.
Proof. intros H Hf. unfold for_in. rewrite fip_init. rewrite (for_items_ok step c m H (length m)) by lia. by rewrite drop_0. Qed.

Lemma any_items_ok test c m : holds_list c m ->
  forall n i fuel, (i + n = length m)%nat -> (n < fuel)%nat ->
  any_items fuel c (fip_of c) (pos_state c i) test = Val (existsb test (drop i m)).
Proof.
  intros H. induction n as [|n IH]; intros i fuel Hi Hf; (destruct fuel as [|fuel]; [lia|]); cbn [any_items].
  - destruct (at_holds c m i H) as [[-> ->]|(v & _ & _ & Hv & _ & Hlt)]; [lia| |lia]. cbn [obind]. by rewrite drop_all.
  - destruct (at_holds c m i H) as [[_ ?]|(v & -> & He & Hv & Hn & Hlt)]; [lia|lia|]. cbn [obind]. rewrite He. cbn [obind].
    rewrite (drop_S m v i) by done. cbn [existsb]. destruct (test v); [done|]. rewrite Hn. cbn [obind orb]. apply IH; lia.
Qed.

Lemma any_in_ok fuel c m test : holds_list c m -> (length m < fuel)%nat -> any_in fuel c test = Val (existsb test m).
Proof. intros H Hf. unfold any_in. rewrite fip_init. rewrite (any_items_ok test c m H (length m)) by lia. by rewrite drop_0. Qed.

Lemma holds_editable c : editable c -> holds_list c (contents c).
Proof.
  intros He. split_and!; [by apply editable_seq|by destruct c|by rewrite slen_editable|]. intros i. by apply sv_editable.
Qed.

Lemma holds_contents c m : editable c -> holds_list c m -> contents c = m.
Proof. intros He (_ & _ & _ & H). apply list_eq. intros i. by rewrite <- H, sv_editable. Qed.

Lemma len_holds c m : holds_list c m -> len c = Val (Z.of_nat (length m)).
Proof. intros (Hs & _ & Hl & _). unfold len. destruct c; cbn in Hl |- *; try done; by injection Hl as ->. Qed.

Lemma is_empty_holds c m : holds_list c m -> is_empty c = Val (bool_decide (m = [])).
Proof.
  intros H. unfold is_empty. rewrite (len_holds c m H). cbn [obind]. f_equal. destruct m; [done|]. rewrite bool_decide_false by done. done.
Qed.

Lemma checked_holds c m i v : holds_list c m -> m !! i = Some v -> checked_element c (Z.of_nat i) = Val v.
Proof.
  intros (Hs & _ & _ & H) Hv. rewrite <- H in Hv. unfold sv in Hv. unfold checked_element.
  assert (element_nf c (KInt (Z.of_nat i)) = Val (Some v)) as ->; [|done].
  unfold element_nf, znth. rewrite value_at_nat in Hv by done. rewrite Nat2Z.id.
  destruct c as [[]| | | | |]; cbn in Hv |- *; try done; destruct (Z.leb_spec 0 (Z.of_nat i)); try lia; try (by rewrite Hv).
  - destruct (decide _); [|done]. destruct (Z.ltb_spec (Z.of_nat i) (Z.of_nat n)); [|lia]. cbn. congruence.
Qed.

(** ** as *)

Definition takes_t (ty : ttype) (v : value) : bool := match ty with TVec k => storable k v | _ => true end.

Lemma as_type_ok ty l : sequence_type ty -> Forall (fun v => takes_t ty v = true) l ->
  exists c, as_type ty l = Val c /\ has_type ty c /\ elements_are c l /\ wf_coll c.
Proof.
  intros Hs Hf. destruct ty as [k| | |]; try done; cbn [as_type].
  - rewrite (proj2 (forallb_forall _ _)). 2:{ rewrite Forall_forall in Hf. intros x Hx. apply Hf. by apply elem_of_list_In. }
    eexists. split; [done|]. split; [done|]. split; [by apply elements_editable|]. by destruct k.
  - eexists. split; [done|]. split; [done|]. split; [by apply elements_editable|done].
  - eexists. split; [done|]. split; [done|]. split; [by apply elements_editable|done].
Qed.

Lemma as_type_bad ty l : sequence_type ty -> ~ Forall (fun v => takes_t ty v = true) l -> exists e, as_type ty l = Signal e.
Proof.
  intros Hs Hf. destruct ty as [k| | |]; try done; cbn [as_type]; [|exfalso; apply Hf; by apply Forall_true..].
  destruct (forallb _ _) eqn:E; [|by eexists]. exfalso. apply Hf. rewrite forallb_forall in E. apply Forall_forall. intros x Hx.
  apply E. by apply elem_of_list_In.
Qed.

Lemma takes_own c m v : wf_coll c -> holds_list c m -> v ∈ m -> takes_t (type_for_copy c) v = true.
Proof.
  intros Hw H Hv. destruct c as [[] l| | | | |]; try done. cbn. rewrite <- (holds_contents (CVec VkString l) m) in Hv by done.
  cbn in Hv, Hw. rewrite Forall_forall in Hw. by apply Hw.
Qed.

Lemma type_copy_sequence c : is_sequence c = true -> sequence_type (type_for_copy c).
Proof. by destruct c. Qed.

Lemma class_type c c' : is_sequence c = true -> has_type (type_for_copy c) c' -> of_class_of c c'.
Proof. destruct c; try done; destruct c'; try done; intros; by eexists. Qed.

(** A part of the elements of [c] can be made a sequence of its class. *)
Lemma as_own c m r : wf_coll c -> holds_list c m -> (forall v, v ∈ r -> v ∈ m) ->
  exists c', as_type (type_for_copy c) r = Val c' /\ of_class_of c c' /\ elements_are c' r /\ wf_coll c'.
Proof.
  intros Hw H Hr. pose proof H as (Hs & _). destruct (as_type_ok (type_for_copy c) r) as (c' & -> & Ht & He & Hw').
  - by apply type_copy_sequence.
  - apply Forall_forall. intros v Hv. apply (takes_own c m); [done|done|by apply Hr].
  - exists c'. split_and!; try done. by apply class_type.
Qed.

Lemma own_class c m : wf_coll c -> holds_list c m -> vector_or_deque c \/ is_list c = true -> of_class_of c c.
Proof. destruct c; intros _ _ [?|?]; done. Qed.

(** ** choose *)

Lemma foldM_filter (test : value -> bool) : forall l r,
  foldM (fun (r : list value) item => Val (if test item then item :: r else r)) r l = Val (rev (List.filter test l) ++ r).
Proof.
  induction l as [|x l IH]; intros r; cbn [foldM List.filter]; [done|]. cbn [obind]. rewrite IH. destruct (test x); [|done].
  cbn [rev]. by rewrite <- app_assoc.
Qed.

Lemma choose_ok fuel test c m : wf_coll c -> holds_list c m -> (length m < fuel)%nat ->
  exists c', choose fuel test c = Val c' /\ of_class_of c c' /\ elements_are c' (List.filter test m) /\ wf_coll c'.
Proof.
  intros Hw H Hf. unfold choose. rewrite (for_in_ok fuel c m) by done. rewrite foldM_filter. cbn [obind]. rewrite app_nil_r, rev_involutive.
  apply (as_own c m); try done. intros v Hv. apply elem_of_list_In, filter_In in Hv as [Hv _]. by apply elem_of_list_In.
Qed.

(** ** choose-by *)

Lemma choose_by_loop_ok test ct mt cv mv : holds_list ct mt -> holds_list cv mv ->
  forall fuel i r, (i <= length mt)%nat -> (i <= length mv)%nat -> (Nat.min (length mt) (length mv) - i < fuel)%nat ->
  choose_by_loop fuel test ct (fip_of ct) (pos_state ct i) cv (fip_of cv) (pos_state cv i) r =
    Val (rev (List.filter (fun e => test e.1) (zip (drop i mt) (drop i mv))).*2 ++ r).
Proof.
  intros Ht Hv. induction fuel as [|fuel IH]; intros i r Hi1 Hi2 Hf; [lia|]; cbn [choose_by_loop].
  destruct (at_holds ct mt i Ht) as [[-> ->]|(v & -> & He & Hx & Hn & Hlt)]; [lia| |]; cbn [obind].
  { by rewrite drop_all. }
  destruct (at_holds cv mv i Hv) as [[-> ->]|(v' & -> & He' & Hx' & Hn' & Hlt')]; [lia| |]; cbn [obind].
  { rewrite drop_all, zip_with_nil_r. done. }
  rewrite He, He', Hn, Hn'. cbn [obind]. rewrite IH by lia. rewrite (drop_S mt v i), (drop_S mv v' i) by done.
  cbn [zip_with List.filter fst]. destruct (test v); [|done]. cbn [fmap list_fmap rev snd]. by rewrite <- app_assoc.
Qed.

Lemma choose_by_ok fuel test ct mt cv mv : wf_coll cv -> holds_list ct mt -> holds_list cv mv ->
  (Nat.min (length mt) (length mv) < fuel)%nat ->
  exists c', choose_by fuel test ct cv = Val c' /\ of_class_of cv c' /\
    elements_are c' (List.filter (fun e => test e.1) (zip mt mv)).*2 /\ wf_coll c'.
Proof.
  intros Hw Ht Hv Hf. unfold choose_by. rewrite !fip_init, (choose_by_loop_ok test ct mt cv mv) by (done || lia). cbn [obind].
  rewrite app_nil_r, rev_involutive, !drop_0. apply (as_own cv mv); try done.
  intros v Hin. apply elem_of_list_fmap in Hin as ([a b] & -> & Hin). apply elem_of_list_In, filter_In in Hin as [Hin _].
  apply elem_of_list_In, elem_of_zip_r in Hin. done.
Qed.

(** ** remove *)

Definition count_nat (count : option Z) : option nat := option_map Z.to_nat count.

Lemma remove_fold test v : forall l count changed r, exists count' changed',
  foldM (remove_step test v) (count, changed, r) l =
    Val (count', changed', rev (without (fun x => test x v) (count_nat count) l) ++ r) /\
  (changed' = false -> without (fun x => test x v) (count_nat count) l = l /\ changed = false) .
Proof.
  induction l as [|x l IH]; intros count changed r.
  { cbn [foldM without]. exists count, changed. done. }
  cbn [foldM remove_step]. destruct count as [n|]; cbn [count_nat option_map].
  - destruct (Z.ltb_spec 0 n) as [Hn|Hn]; cbn [andb].
    + destruct (Z.to_nat n) as [|k] eqn:Ek; [lia|]. cbn [without]. destruct (test x v); cbn [obind].
      * destruct (IH (Some (n - 1)) true r) as (c' & ch' & -> & Hch). cbn [count_nat option_map] in *.
        replace (Z.to_nat (n - 1)) with k in * by lia. exists c', ch'. split; [done|]. intros ->. by destruct (Hch eq_refl).
      * destruct (IH (Some n) changed (x :: r)) as (c' & ch' & -> & Hch). cbn [count_nat option_map] in *. rewrite Ek in *.
        exists c', ch'. cbn [rev]. rewrite <- app_assoc. split; [done|]. intros ->. destruct (Hch eq_refl) as [-> ->]. done.
    + assert (Z.to_nat n = O) as E0 by lia. rewrite E0. cbn [obind without].
      destruct (IH (Some n) changed (x :: r)) as (c' & ch' & -> & Hch). cbn [count_nat option_map] in *. rewrite E0 in *.
      assert (without (fun x => test x v) (Some O) l = l) as E by (by destruct l). rewrite E in *.
      exists c', ch'. cbn [rev]. rewrite <- app_assoc. split; [done|]. intros ->. by destruct (Hch eq_refl) as [_ ->].
  - cbn [without]. destruct (test x v); cbn [obind].
    + destruct (IH None true r) as (c' & ch' & -> & Hch). exists c', ch'. split; [done|]. intros ->. by destruct (Hch eq_refl).
    + destruct (IH None changed (x :: r)) as (c' & ch' & -> & Hch). cbn [count_nat option_map] in *.
      exists c', ch'. cbn [rev]. rewrite <- app_assoc. split; [done|]. intros ->. destruct (Hch eq_refl) as [-> ->]. done.
Qed.

Lemma without_in p : forall l count v, v ∈ without p count l -> v ∈ l.
Proof.
  induction l as [|x l IH]; intros count v; cbn [without]; [done|]. destruct count as [[|n]|].
  - done.
  - destruct (p x); intros Hv; [right; by eapply IH|]. apply elem_of_cons in Hv as [->|Hv]; [by left|right; by eapply IH].
  - destruct (p x); intros Hv; [right; by eapply IH|]. apply elem_of_cons in Hv as [->|Hv]; [by left|right; by eapply IH].
Qed.

Lemma remove_ok fuel test count c m v : wf_coll c -> vector_or_deque c \/ is_list c = true -> elements_are c m -> (length m < fuel)%nat ->
  exists c', remove fuel test count c v = Val c' /\ of_class_of c c' /\
    elements_are c' (without (fun x => test x v) (count_nat count) m) /\ wf_coll c'.
Proof.
  intros Hw Hc He Hf. pose proof (holds_elements c m Hw He) as H. unfold remove. rewrite (for_in_ok fuel c m) by done.
  destruct (remove_fold test v m count false []) as (c' & ch & -> & Hch). cbn [obind]. destruct ch.
  - rewrite app_nil_r, rev_involutive. apply (as_own c m); try done. intros x Hx. by eapply without_in.
  - destruct (Hch eq_refl) as [-> _]. exists c. split_and!; try done. by apply (own_class c m).
Qed.

(** ** remove-duplicates *)

Fixpoint nub (test : value -> value -> bool) (kept l : list value) : list value :=
  match l with
  | [] => []
  | x :: l => if existsb (fun y => test y x) kept then nub test kept l else x :: nub test (x :: kept) l
  end.

Definition dup_step (test : value -> value -> bool) : bool * list value -> value -> outcome (bool * list value) :=
  fun '(duplicates, new) item =>
       do b <- any_in (S (length new)) (CList new) (fun el => test el item) ;
       Val (if b : bool then (true, new) else (duplicates, item :: new)).

Lemma dup_fold test : forall l d new, exists d',
  foldM (dup_step test) (d, new) l = Val (d', rev (nub test new l) ++ new) /\
  (d' = false -> nub test new l = l /\ d = false).
Proof.
  induction l as [|x l IH]; intros d new; [by exists d|]. cbn [foldM dup_step nub].
  rewrite (any_in_ok _ (CList new) new); [|by apply (holds_editable (CList new))|lia]. cbn [obind].
  destruct (existsb (fun y => test y x) new).
  - destruct (IH true new) as (d' & -> & H). exists d'. split; [done|]. intros ->. by destruct (H eq_refl).
  - destruct (IH d (x :: new)) as (d' & -> & H). exists d'. cbn [rev]. rewrite <- app_assoc. split; [done|].
    intros ->. destruct (H eq_refl) as [-> ->]. done.
Qed.

Lemma nub_facts test : forall l kept, let r := nub test kept l in
  sublist r l /\ (forall y x, y ∈ kept -> x ∈ r -> test y x = false) /\
  (forall i j x y, (i < j)%nat -> r !! i = Some x -> r !! j = Some y -> test x y = false) /\
  (forall x, x ∈ l -> x ∈ r \/ exists y, (y ∈ kept \/ y ∈ r) /\ test y x = true).
Proof.
  induction l as [|x l IH]; intros kept; cbn zeta; cbn [nub].
  { split_and!; [done| | |]; intros *; [by intros ? ?%elem_of_nil|done|by intros ?%elem_of_nil]. }
  destruct (existsb (fun y => test y x) kept) eqn:E.
  - destruct (IH kept) as (H1 & H2 & H3 & H4). split_and!; try done; [by constructor|]. intros z [->|Hz]%elem_of_cons.
    + right. apply existsb_exists in E as (y & Hy & Ht). exists y. split; [left; by apply elem_of_list_In|done].
    + by apply H4.
  - destruct (IH (x :: kept)) as (H1 & H2 & H3 & H4). split_and!.
    + by constructor.
    + intros y z Hy [->|Hz]%elem_of_cons.
      * destruct (test y x) eqn:Et; [|done]. rewrite <- E. symmetry. apply existsb_exists. exists y. split; [by apply elem_of_list_In|done].
      * apply H2; [by right|done].
    + intros [|i] [|j] a b Hij Ha Hb; try lia; cbn in Ha, Hb.
      * injection Ha as <-. apply H2; [by left|]. by eapply elem_of_list_lookup_2.
      * eapply (H3 i j); [lia|done|done].
    + intros z [->|Hz]%elem_of_cons; [left; by left|]. destruct (H4 z Hz) as [?|(y & Hy & Ht)]; [left; by right|].
      right. exists y. split; [|done]. destruct Hy as [[->|Hy]%elem_of_cons|Hy]; [right; by left|by left|right; by right].
Qed.

Lemma nub_firsts test : (forall a b c, test a b = true -> test b c = true -> test a c = true) ->
  forall l kept earlier, (forall y, y ∈ kept -> y ∈ earlier) ->
  (forall y, y ∈ earlier -> y ∈ kept \/ exists z, z ∈ kept /\ test z y = true) ->
  nub test kept l = firsts test earlier l.
Proof.
  intros Htr. induction l as [|x l IH]; intros kept earlier H1 H2; [done|]. cbn [nub firsts].
  assert (existsb (fun y => test y x) kept = existsb (fun y => test y x) earlier) as E.
  { apply eq_true_iff_eq. rewrite !existsb_exists. setoid_rewrite <- elem_of_list_In. split.
    - intros (y & Hy & Ht). exists y. split; [by apply H1|done].
    - intros (y & Hy & Ht). destruct (H2 y Hy) as [Hk|(z & Hz & Hzy)]; [by exists y|]. exists z. split; [done|by eapply Htr]. }
  rewrite <- E. destruct (existsb _ kept) eqn:Ek.
  - apply IH.
    + intros y Hy. apply elem_of_app. left. by apply H1.
    + intros y [Hy|Hy%elem_of_list_singleton]%elem_of_app; [by apply H2|subst y]. right.
      apply existsb_exists in Ek as (z & Hz & Ht). exists z. split; [by apply elem_of_list_In|done].
  - f_equal. apply IH.
    + intros y [->|Hy]%elem_of_cons; apply elem_of_app; [right; by apply elem_of_list_singleton|left; by apply H1].
    + intros y [Hy|Hy%elem_of_list_singleton]%elem_of_app; [|subst y; left; by left].
      destruct (H2 y Hy) as [?|(z & Hz & ?)]; [left; by right|right]. exists z. split; [by right|done].
Qed.

Lemma remove_duplicates_ok fuel test c m : wf_coll c -> elements_are c m -> (length m < fuel)%nat ->
  exists c', remove_duplicates fuel test c = Val c' /\ (of_class_of c c' \/ c' = c) /\ elements_are c' (nub test [] m) /\ wf_coll c'.
Proof.
  intros Hw He Hf. pose proof (holds_elements c m Hw He) as H. unfold remove_duplicates. rewrite (for_in_ok fuel c m) by done.
  fold (dup_step test). destruct (dup_fold test m false []) as (d & -> & Hd). cbn [obind]. destruct d.
  - rewrite app_nil_r, rev_involutive. destruct (as_own c m (nub test [] m)) as (c' & -> & ? & ? & ?); [done|done| |].
    + intros v Hv. destruct (nub_facts test m []) as (Hsub & _). by eapply elem_of_submseteq, sublist_submseteq.
    + exists c'. split_and!; try done. by left.
  - destruct (Hd eq_refl) as [-> _]. exists c. split_and!; try done. by right.
Qed.

(** ** member? *)

Lemma member_vector_ok test v k l : forall n i, (i + n = length l)%nat ->
  member_vector n test v (CVec k l) (Z.of_nat i) = Val (existsb (fun y => test v y) (drop i l)).
Proof.
  induction n as [|n IH]; intros i Hi; cbn [member_vector]; [by rewrite drop_ge by lia|].
  destruct (lookup_lt_is_Some_2 l i) as [x Hx]; [lia|]. cbn [array_read]. rewrite (zread_val l _ x) by (try lia; by rewrite Nat2Z.id).
  cbn [obind]. rewrite (drop_S l x i) by done. cbn [existsb]. destruct (test v x); [done|].
  replace (Z.of_nat i + 1) with (Z.of_nat (S i)) by lia. apply IH. lia.
Qed.
Lemma member_string_ok test v k l : forall n i, (i + n = length l)%nat ->
  member_string n test v (CVec k l) (Z.of_nat i) = Val (existsb (fun y => test y v) (drop i l)).
Proof.
  induction n as [|n IH]; intros i Hi; cbn [member_string]; [by rewrite drop_ge by lia|].
  destruct (lookup_lt_is_Some_2 l i) as [x Hx]; [lia|]. cbn [array_read]. rewrite (zread_val l _ x) by (try lia; by rewrite Nat2Z.id).
  cbn [obind]. rewrite (drop_S l x i) by done. cbn [existsb]. destruct (test x v); [done|].
  replace (Z.of_nat i + 1) with (Z.of_nat (S i)) by lia. apply IH. lia.
Qed.
Lemma member_list_ok test v : forall l, member_list test v l = among test l v.
Proof. induction l as [|x l IH]; [done|]. cbn. rewrite IH. unfold among. by destruct (test v x). Qed.

Lemma existsb_ext {A} (f g : A -> bool) l : (forall x, f x = g x) -> existsb f l = existsb g l.
Proof. intros H. induction l as [|x l IH]; [done|]. cbn. by rewrite H, IH. Qed.

Lemma member_ok fuel test v c m : holds_list c m -> (length m < fuel)%nat -> symmetric_if_string test c ->
  member_of fuel test v c = Val (among test m v).
Proof.
  intros H Hf Hsym. unfold member_of. destruct c as [k l|d l|l| | |]; cbn in Hsym; try (by apply (any_in_ok _ _ m)).
  - assert (Hl : l = m) by (by apply (holds_contents (CVec k l) m)). subst m.
    pose proof (member_vector_ok test v k l (length l) 0 eq_refl) as Hv. rewrite drop_0 in Hv.
    pose proof (member_string_ok test v k l (length l) 0 eq_refl) as Hs. rewrite drop_0 in Hs.
    destruct k; try exact Hv. destruct v; try exact Hv. change (Z.of_nat 0) with 0 in Hs. rewrite Hs. f_equal.
    apply existsb_ext. intros x. apply Hsym.
  - assert (Hl : l = m) by (by apply (holds_contents (CList l) m)). subst m. by rewrite member_list_ok.
Qed.

(** ** intersection and union *)

Lemma intersection_ok fuel test c1 m1 c2 m2 : holds_list c1 m1 -> holds_list c2 m2 -> symmetric_if_string test c2 ->
  (length m1 < fuel)%nat -> (length m2 < fuel)%nat ->
  intersection fuel test c1 c2 = Val (CList (rev (List.filter (among test m2) m1))).
Proof.
  intros H1 H2 Hs Hf1 Hf2. unfold intersection. rewrite (for_in_ok fuel c1 m1) by done.
  assert (forall l r, foldM (fun (result : list value) item => do b <- member_of fuel test item c2 ; Val (if b : bool then item :: result else result)) r l
    = Val (rev (List.filter (among test m2) l) ++ r)) as ->.
  { intros l r. rewrite <- foldM_filter. revert r. induction l as [|x l IH]; intros r; [done|]. cbn [foldM].
    rewrite (member_ok fuel test x c2 m2) by done. cbn [obind]. apply IH. }
  cbn [obind]. by rewrite app_nil_r.
Qed.

Lemma as_list_ok fuel c m : holds_list c m -> (length m < fuel)%nat -> as_list fuel c = Val m.
Proof.
  intros H Hf. unfold as_list. rewrite (for_in_ok fuel c m) by done.
  assert (forall l r, foldM (fun (l : list value) item => Val (item :: l)) r l = Val (rev l ++ r)) as ->.
  { induction l as [|x l IH]; intros r; [done|]. cbn [foldM obind rev]. rewrite IH. by rewrite <- app_assoc. }
  cbn [obind]. by rewrite app_nil_r, rev_involutive.
Qed.

Lemma union_ok fuel test c1 m1 c2 m2 : holds_list c1 m1 -> holds_list c2 m2 -> symmetric_if_string test c2 ->
  (length m1 < fuel)%nat -> (length m2 < fuel)%nat ->
  union fuel test c1 c2 = Val (CList (rev (List.filter (fun x => negb (among test m2 x)) m1) ++ m2)).
Proof.
  intros H1 H2 Hs Hf1 Hf2. unfold union. rewrite (as_list_ok fuel c2 m2) by done. cbn [obind]. rewrite (for_in_ok fuel c1 m1) by done.
  assert (forall l r, foldM (fun (new : list value) item => do b <- member_of fuel test item c2 ; Val (if b : bool then new else item :: new)) r l
    = Val (rev (List.filter (fun x => negb (among test m2 x)) l) ++ r)) as ->; [|done].
  intros l r. rewrite <- foldM_filter. revert r. induction l as [|x l IH]; intros r; [done|]. cbn [foldM].
  rewrite (member_ok fuel test x c2 m2) by done. cbn [obind]. rewrite IH. by destruct (among test m2 x).
Qed.
