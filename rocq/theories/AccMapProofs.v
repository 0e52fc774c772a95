(** Proofs about map-as. *)
From stdpp Require Import list_numbers.
From Verif Require Import Base CollModel CollSpec CollProofs CollAgree CollIterProofs CollAlignProofs CollSourceProofs CollMapProofs CollMapTopProofs AccModel AccSpec AccProofs.
From Coq Require Import ZArith ZifyBool ZifyNat.
Local Open Scope outcome_scope.
Local Open Scope Z_scope.

(** ** Entries *)

Lemma indexed_lookup kvs k v : indexed kvs -> (k, v) ∈ kvs <-> exists i : nat, k = KInt (Z.of_nat i) /\ kvs.*2 !! i = Some v.
Proof.
  intros H. split.
  - intros Hin. apply elem_of_list_lookup in Hin as [i Hi]. exists i. split; [by eapply H|]. by rewrite list_lookup_fmap, Hi.
  - intros (i & -> & Hi). rewrite list_lookup_fmap in Hi. destruct (kvs !! i) as [[k' v']|] eqn:E; [|done]. injection Hi as <-.
    rewrite <- (H _ _ _ E). by eapply elem_of_list_lookup_2.
Qed.

Lemma seq_entries c l kvs : is_sequence c = true -> match c with CVec _ l' | CDeq _ l' | CList l' => l' = l | _ => False end ->
  (forall i v, l !! i = Some v <-> (KInt (Z.of_nat i), v) ∈ kvs) -> (forall k v, (k, v) ∈ kvs -> exists i : nat, k = KInt (Z.of_nat i)) -> has_entries c kvs.
Proof.
  intros Hs Hc Hl Hk k v. split.
  - intros H. destruct (seq_key _ _ _ Hs H) as [i ->]. rewrite value_at_nat in H by done. apply Hl. by destruct c; subst.
  - intros H. destruct (Hk _ _ H) as [i ->]. rewrite value_at_nat by done. apply Hl in H. by destruct c; subst.
Qed.

Lemma indexed_entries c kvs : indexed kvs -> match c with CVec _ l' | CDeq _ l' | CList l' => l' = kvs.*2 | _ => False end -> has_entries c kvs.
Proof.
  intros Hi Hc. apply (seq_entries c (kvs.*2)); [by destruct c|done| |].
  - intros i v. rewrite indexed_lookup by done. split; [eauto|]. intros (i' & E & Hv). injection E. intros. by replace i with i' by lia.
  - intros k v H. apply indexed_lookup in H as (i & -> & _); eauto.
Qed.

Lemma tab_entries kt kvs : NoDup kvs.*1 -> has_entries (CTab kt kvs) kvs.
Proof. intros H k v. by apply value_at_tab. Qed.

Lemma entries_chars (kvs : list (key * value)) : Forall (fun e => is_char e.2 = true) kvs <-> Forall (fun v => is_char v = true) kvs.*2.
Proof. by rewrite Forall_fmap. Qed.

(** ** Conversion of accumulators *)

Lemma store_new k v t : k ∉ t.*1 -> store_key k v t = t ++ [(k, v)].
Proof.
  induction t as [|[x w] t IH]; intros H; [done|]. cbn in *. apply not_elem_of_cons in H as [H1 H2].
  rewrite bool_decide_false by congruence. by rewrite IH.
Qed.

Lemma tab_fold kt : forall kvs t, NoDup (t ++ kvs).*1 -> fold_out (fun c k e => element_set no_place e c k) (CTab kt t) kvs = Val (CTab kt (t ++ kvs)).
Proof.
  induction kvs as [|[k v] kvs IH]; intros t H; [by rewrite app_nil_r|]. cbn [fold_out element_set obind].
  rewrite store_new.
  - cbn [obind]. rewrite IH; [by rewrite <- app_assoc|]. by rewrite <- app_assoc.
  - rewrite fmap_app in H. apply NoDup_app in H as (_ & H & _). intros Hin. apply (H k Hin). cbn. left.
Qed.

Definition in_range (n : nat) (e : key * value) : Prop := exists z, e.1 = KInt z /\ 0 <= z < Z.of_nat n.

Global Instance in_range_dec n e : Decision (in_range n e).
Proof.
  unfold in_range. destruct e as [[z| |] v]; cbn.
  - destruct (decide (0 <= z < Z.of_nat n)) as [H|H]; [left; eauto|right]. intros (z' & [= <-] & ?). done.
  - right. by intros (z' & ? & ?).
  - right. by intros (z' & ? & ?).
Defined.

Definition temp_step (n : nat) (temp : list value) (k : key) (e : value) : outcome (list value) :=
  match k with
  | KInt z => if (0 <=? z) && (z <? Z.of_nat n) then zwrite temp z e else Signal "invalid index"
  | _ => Signal "invalid index"
  end.

Lemma temp_fold_bad n : forall kvs temp, length temp = n -> ~ Forall (in_range n) kvs -> exists msg, fold_out (temp_step n) temp kvs = Signal msg.
Proof.
  induction kvs as [|[k v] kvs IH]; intros temp Hl H; [by destruct H|]. cbn [fold_out].
  destruct k as [z| |]; try (by eexists). cbn [temp_step]. destruct ((0 <=? z) && (z <? Z.of_nat n)) eqn:E; [|by eexists].
  rewrite zwrite_val by lia. cbn [obind]. apply IH; [by rewrite insert_length|]. intros Hf. apply H. constructor; [|done]. exists z. cbn. split; [done|lia].
Qed.

Lemma temp_fold_ok n : forall kvs temp, length temp = n -> Forall (in_range n) kvs -> NoDup kvs.*1 ->
  exists temp', fold_out (temp_step n) temp kvs = Val temp' /\ length temp' = n /\
    (forall i v, (KInt (Z.of_nat i), v) ∈ kvs -> temp' !! i = Some v) /\ (forall i, KInt (Z.of_nat i) ∉ kvs.*1 -> temp' !! i = temp !! i).
Proof.
  induction kvs as [|[k v] kvs IH]; intros temp Hl H Hnd.
  { exists temp. split_and!; try done. intros i v Hin. by apply elem_of_nil in Hin. }
  inversion_clear H as [|? ? (z & Hz & Hr) Hf]. cbn in Hz. subst k. cbn [fold_out temp_step].
  replace ((0 <=? z) && (z <? Z.of_nat n)) with true by lia. rewrite zwrite_val by lia. cbn [obind].
  rewrite fmap_cons in Hnd. cbn in Hnd. apply NoDup_cons in Hnd as [Hn Hnd].
  destruct (IH (<[Z.to_nat z := v]> temp)) as (t' & -> & Hl' & H1 & H2); [by rewrite insert_length|done|done|].
  exists t'. split_and!; try done.
  - intros i w Hin. apply elem_of_cons in Hin as [E|Hin]; [|by apply H1]. injection E as E1 <-.
    rewrite H2 by (by rewrite E1). replace i with (Z.to_nat z) by lia. apply list_lookup_insert. lia.
  - intros i Hi. cbn in Hi. apply not_elem_of_cons in Hi as [Hi1 Hi2]. rewrite H2 by done. apply list_lookup_insert_ne. intros E. apply Hi1. f_equal. lia.
Qed.

Lemma keys_full (kvs : list (key * value)) i : Forall (in_range (length kvs)) kvs -> NoDup kvs.*1 -> (i < length kvs)%nat -> KInt (Z.of_nat i) ∈ kvs.*1.
Proof.
  intros Hr Hnd Hi.
  set (f := fun k => match k with KInt z => Z.to_nat z | _ => 0%nat end).
  assert (forall k, k ∈ kvs.*1 -> k = KInt (Z.of_nat (f k)) /\ (f k < length kvs)%nat) as Hf.
  { intros k Hk. apply elem_of_list_fmap in Hk as (e & -> & He). rewrite Forall_forall in Hr. destruct (Hr e He) as (z & -> & Hz). cbn. split; [f_equal|]; lia. }
  assert (NoDup (f <$> kvs.*1)) as Hndf.
  { apply NoDup_fmap_2_strong; [|done]. intros x y Hx Hy E. apply Hf in Hx as [-> _], Hy as [-> _]. by rewrite E. }
  assert (i ∈ f <$> kvs.*1) as Hin.
  { apply elem_of_list_In. apply (NoDup_length_incl (l := f <$> kvs.*1) (l' := seq 0 (length kvs))).
    - by apply NoDup_ListNoDup.
    - rewrite seq_length, !fmap_length. done.
    - intros x Hx. apply elem_of_list_In, elem_of_list_fmap in Hx as (k & -> & Hk). apply Hf in Hk as [_ Hk]. apply in_seq. lia.
    - apply in_seq. lia. }
  apply elem_of_list_fmap in Hin as (k & E & Hk). destruct (Hf k Hk) as [E' _]. rewrite E, <- E'. done.
Qed.

(** Filling a vector from an accumulator. *)
Definition fill_step (f : fip) (cs : coll * state) (_ : key) (e : value) : outcome (coll * state) :=
  let '(c, s) := cs in
  do c <- run_set (f_set f) e c s ;
  do s <- run_next (f_next f) c s ;
  Val (c, s).

Lemma vec_fold k f : f_set f = SetVec k -> f_next f = NSeq -> forall (kvs : list (key * value)) (pre rest : list value), length rest = length kvs ->
  let r := fold_out (fill_step f) (CVec k (pre ++ rest), SInt (Z.of_nat (length pre))) kvs in
  (Forall (fun e => storable k e.2 = true) kvs -> exists s, r = Val (CVec k (pre ++ kvs.*2), s)) /\
  (~ Forall (fun e => storable k e.2 = true) kvs -> exists msg, r = Signal msg).
Proof.
  intros Hf1 Hf2. induction kvs as [|[x v] kvs IH]; intros pre rest Hl; cbn zeta.
  { destruct rest; [|done]. split; [by eexists|]. intros H. by destruct H. }
  destruct rest as [|w rest]; [done|]. cbn [fold_out]. unfold fill_step at 1 3. rewrite Hf1, Hf2. cbn [run_set].
  rewrite bool_decide_true by done. cbn [andb].
  destruct (storable k v) eqn:E.
  - rewrite zwrite_val by (rewrite ?app_length; cbn; lia). cbn [obind run_next is_sequence]. rewrite Nat2Z.id.
    replace (<[length pre:=v]> (pre ++ w :: rest)) with ((pre ++ [v]) ++ rest).
    2: { rewrite <- (Nat.add_0_r (length pre)). rewrite insert_app_r. by rewrite <- app_assoc. }
    replace (Z.of_nat (length pre) + 1) with (Z.of_nat (length (pre ++ [v]))) by (rewrite app_length; cbn; lia).
    destruct (IH (pre ++ [v]) rest) as [H1 H2]; [by injection Hl|]. split.
    + intros H. inversion_clear H. destruct (H1 H3) as [s Hs]. exists s. rewrite Hs. rewrite <- app_assoc. done.
    + intros H. apply H2. intros Hf. apply H. by constructor.
  - split; [intros H; inversion_clear H; cbn in *; congruence|]. intros _. by eexists.
Qed.

Lemma check_val {A} ty a (r : A) : type_key_test ty = a_kt a -> check_key_test ty a r = Val r.
Proof. intros H. unfold check_key_test. rewrite H, Nat.eqb_refl. done. Qed.
Lemma check_bad {A} ty a (r : A) : type_key_test ty <> a_kt a -> exists msg, check_key_test ty a r = Signal msg.
Proof. intros H. unfold check_key_test. replace (type_key_test ty =? a_kt a)%nat with false by lia. by eexists. Qed.

Definition converts (ty : ttype) (kt : nat) (kvs : list (key * value)) (r : outcome coll) : Prop :=
  (possible ty kt kvs -> exists c, r = Val c /\ has_type ty c /\ has_entries c kvs /\ wf_coll c) /\
  (~ possible ty kt kvs -> exists msg, r = Signal msg).

Lemma no_entries c : match c with CVec _ [] | CDeq _ [] | CList [] | CTab _ [] => True | _ => False end -> has_entries c [].
Proof.
  intros H k v. rewrite elem_of_nil. split; [|done]. destruct c as [? []|? []|[]|?|?|? []]; try done; cbn; destruct k; try done; destruct (decide _); try done;
    by rewrite lookup_nil.
Qed.

Lemma converts_empty ty kt a : a_kt a = kt -> converts ty kt [] (check_key_test ty a (make_empty ty)).
Proof.
  intros <-. split.
  - intros (H & _). exists (make_empty ty). rewrite check_val by done. split_and!; try done.
    + by destruct ty.
    + apply no_entries. by destruct ty.
    + destruct ty as [[]| | |]; cbn; try done; constructor.
  - intros H. apply check_bad. intros E. apply H. split; [done|]. split; intros; constructor.
Qed.

Lemma indexed_in_range kvs : indexed kvs -> Forall (in_range (length kvs)) kvs.
Proof.
  intros H. apply Forall_forall. intros [k v] Hin. apply elem_of_list_lookup in Hin as [i Hi]. exists (Z.of_nat i).
  split; [by eapply H|]. apply lookup_lt_Some in Hi. lia.
Qed.

Lemma storable_chars k (kvs : list (key * value)) : Forall (fun e => storable k e.2 = true) kvs <-> (k = VkString -> Forall (fun e => is_char e.2 = true) kvs).
Proof.
  split.
  - intros H ->. exact H.
  - intros H. destruct k; cbn; [by apply Forall_true|by apply H|by apply Forall_true].
Qed.

Lemma wf_vec k l : (k = VkString -> Forall (fun v => is_char v = true) l) -> wf_coll (CVec k l).
Proof. destruct k; cbn; auto. Qed.

Lemma indexed_nodup kvs : indexed kvs -> NoDup kvs.*1.
Proof.
  intros H. apply NoDup_alt. intros i j k Hi Hj. rewrite list_lookup_fmap in Hi, Hj.
  destruct (kvs !! i) as [[? ?]|] eqn:E1; [|done]. destruct (kvs !! j) as [[? ?]|] eqn:E2; [|done].
  cbn in Hi, Hj. injection Hi as ->. injection Hj as ->. apply H in E1, E2. rewrite E1 in E2. injection E2. lia.
Qed.

Lemma convert_ok ty keyed kt a kvs : adding keyed kt a kvs -> NoDup kvs.*1 ->
  (keyed = false -> indexed kvs /\ match ty with TVec _ | TTab _ => True | _ => False end) ->
  converts ty kt kvs (convert_accumulator ty a).
Proof.
  intros Ha Hnd Hix. unfold convert_accumulator. destruct (acc_size_ok _ _ _ _ Ha) as (a' & -> & Hi & Hk & Ht). cbn [obind].
  rewrite Hk, Nat2Z.id.
  assert (forall {R} (step : R -> key -> value -> outcome R) r, acc_for (length kvs) a' 0 step r = fold_out step r kvs) as Hfor.
  { intros R step r. rewrite <- (drop_0 kvs) at 2. apply (acc_for_ok keyed kt kvs step (fun E => proj1 (Hix E)) (length kvs) 0 a'); try done. rewrite Nat.mul_0_r. done. }
  destruct keyed.
  - destruct (type_is_sequence ty) eqn:Es.
    + destruct (Z.of_nat (length kvs) =? 0) eqn:E0.
      { destruct kvs; [|cbn in E0; lia]. by apply converts_empty. }
      rewrite Hfor. change (fold_out _ ?t kvs) with (fold_out (temp_step (length kvs)) t kvs).
      split; intros Hp.
      * destruct Hp as (P1 & P2 & P3). specialize (P2 Es).
        destruct (temp_fold_ok (length kvs) kvs (replicate (length kvs) VFalse)) as (t' & -> & Hl & H1 & _); [by rewrite replicate_length|done|done|].
        cbn [obind]. assert (forall i v, t' !! i = Some v <-> (KInt (Z.of_nat i), v) ∈ kvs) as Ht'.
        { intros i v. split; [|apply H1]. intros Hv. pose proof (lookup_lt_Some _ _ _ Hv) as Hlt.
          pose proof (keys_full kvs i P2 Hnd ltac:(lia)) as Hin. apply elem_of_list_fmap in Hin as ([k w] & E & Hin). cbn in E. subst k.
          rewrite (H1 _ _ Hin) in Hv. by injection Hv as <-. }
        assert (Forall (fun v => ty = TVec VkString -> is_char v = true) t') as Hch.
        { apply Forall_forall. intros v Hv Ety. apply elem_of_list_lookup in Hv as [i Hv]. apply Ht' in Hv. specialize (P3 Ety).
          rewrite Forall_forall in P3. by apply (P3 _ Hv). }
        assert (exists c, as_type ty t' = Val c /\ has_type ty c /\ has_entries c kvs /\ wf_coll c) as (c & -> & Hc).
        { assert (forall k v, (k, v) ∈ kvs -> exists i : nat, k = KInt (Z.of_nat i)) as Hks.
          { intros k v Hin. rewrite Forall_forall in P2. destruct (P2 _ Hin) as (z & E & Hz). cbn in E. exists (Z.to_nat z). rewrite E. f_equal. lia. }
          destruct ty as [k| | |]; try done; cbn [as_type].
          - rewrite (proj2 (forallb_forall _ _)).
            2: { intros v Hv. apply elem_of_list_In in Hv. rewrite Forall_forall in Hch. specialize (Hch v Hv). destruct k; cbn; auto. }
            eexists. split; [done|]. split; [done|]. split; [by apply (seq_entries _ t')|]. apply wf_vec. intros ->. eapply Forall_impl; [exact Hch|]. cbn. auto.
          - eexists. split; [done|]. split; [done|]. split; [by apply (seq_entries _ t')|done].
          - eexists. split; [done|]. split; [done|]. split; [by apply (seq_entries _ t')|done]. }
        cbn [obind]. rewrite check_val by congruence. by exists c.
      * destruct (decide (Forall (in_range (length kvs)) kvs)) as [Hr|Hr].
        2: { destruct (temp_fold_bad (length kvs) kvs (replicate (length kvs) VFalse)) as [msg ->]; [by rewrite replicate_length|done|]. by exists msg. }
        destruct (temp_fold_ok (length kvs) kvs (replicate (length kvs) VFalse)) as (t' & -> & Hl & H1 & _); [by rewrite replicate_length|done|done|].
        cbn [obind]. destruct (as_type ty t') as [c|msg| |] eqn:Ec; cbn [obind]; [|by exists msg|by destruct ty as [k| | |]; cbn in Ec; try done; destruct (forallb _ _)..].
        destruct (decide (type_key_test ty = a_kt a')) as [E|E]; [|by apply check_bad]. exfalso. apply Hp. split; [congruence|]. split; [done|].
        intros ->. cbn [as_type] in Ec. destruct (forallb (storable VkString) t') eqn:Ef; [|done]. apply Forall_forall. intros [k v] Hin.
        pose proof Hr as Hr'. rewrite Forall_forall in Hr'. destruct (Hr' _ Hin) as (z & Ez & Hz). cbn in Ez. subst k.
        replace z with (Z.of_nat (Z.to_nat z)) in Hin by lia. apply H1 in Hin. rewrite forallb_forall in Ef. apply (Ef v). apply elem_of_list_In. by eapply elem_of_list_lookup_2.
    + destruct ty as [| | |kt']; try done. destruct (decide (kt' = kt)) as [->|Hne].
      * rewrite check_val by done. cbn [obind]. rewrite Hfor. cbn [make_empty]. rewrite (tab_fold kt kvs []) by done. cbn [app]. split.
        -- intros _. eexists. split; [done|]. split; [done|]. split; [by apply tab_entries|done].
        -- intros H. exfalso. apply H. split; [done|]. split; [done|discriminate].
      * split; [intros (H & _); cbn in H; congruence|]. intros _. destruct (check_bad (TTab kt') a' (make_empty (TTab kt'))) as [msg ->]; [cbn; congruence|].
        by exists msg.
  - destruct (Hix eq_refl) as [Hi1 Hty]. destruct (Z.of_nat (length kvs) =? 0) eqn:E0.
    { destruct kvs; [|cbn in E0; lia]. by apply converts_empty. }
    destruct kvs as [|[k0 v0] kvs']; [cbn in E0; lia|]. set (kvs := (k0, v0) :: kvs') in *.
    assert (acc_elt a' = Val v0) as ->.
    { unfold acc_elt. destruct (i_pos _ _ _ Hi) as [P1 P2]; [cbn; lia|]. rewrite <- (Z.sub_0_r (a_index a')). change 0 with (Z.of_nat 0) at 1.
      rewrite (iter_read _ _ _ (WVal v0) 0 Hi); [done|cbn; lia|lia|done]. }
    cbn [obind]. destruct ty as [k| | |kt']; try done; cbn [make_filled type_is_sequence].
    + destruct (storable k v0) eqn:Es0; cbn [obind].
      2: { split; [|by eexists]. intros (_ & _ & P3). exfalso. pose proof (proj2 (storable_chars k kvs)) as Hs. 
           assert (Forall (fun e => storable k e.2 = true) kvs) as Hf; [apply Hs; intros ->; by apply P3|]. inversion_clear Hf. cbn in *. congruence. }
      destruct (decide (kt = 0%nat)) as [->|Hne].
      2: { split; [intros (P1 & _); by cbn in P1|]. intros _. destruct (check_bad (TVec k) a' (CVec k (replicate (length kvs) v0))) as [msg ->]; [cbn; congruence|]. by exists msg. }
      rewrite check_val by (cbn; congruence). cbn [obind]. rewrite Hfor.
      change (fold_out _ ?t kvs) with (fold_out (fill_step (fip_of (CVec k (replicate (length kvs) v0)))) t kvs).
      destruct (vec_fold k (fip_of (CVec k (replicate (length kvs) v0))) eq_refl eq_refl kvs [] (replicate (length kvs) v0)) as [V1 V2]; [by rewrite replicate_length|].
      cbn [app length] in V1, V2. change (SInt (Z.of_nat 0)) with (f_init (fip_of (CVec k (replicate (length kvs) v0)))) in V1, V2.
      split.
      * intros (_ & _ & P3). destruct V1 as [s ->]; [apply storable_chars; intros ->; by apply P3|]. cbn [obind].
        eexists. split; [done|]. split; [done|]. split; [by apply indexed_entries|]. apply wf_vec. intros ->. apply entries_chars. by apply P3.
      * intros Hp. destruct V2 as [msg ->]; [|by exists msg]. intros Hs. apply Hp. split; [done|]. split; [intros _; by apply indexed_in_range|].
        intros [= ->]. exact Hs.
    + cbn [obind]. destruct (decide (kt' = kt)) as [->|Hne].
      * rewrite check_val by done. cbn [obind]. rewrite Hfor. rewrite (tab_fold kt kvs []) by done. cbn [app]. split.
        -- intros _. eexists. split; [done|]. split; [done|]. split; [by apply tab_entries|done].
        -- intros H. exfalso. apply H. split; [done|]. split; [done|discriminate].
      * split; [intros (H & _); cbn in H; congruence|]. intros _. destruct (check_bad (TTab kt') a' (CTab kt' [])) as [msg ->]; [cbn; congruence|]. by exists msg.
Qed.

(** ** The loops *)

Section loops.
  Context {S : Type} (fn : S -> value -> S * value).

  Definition results (s : S) (args : list (key * value)) : list (key * value) := zip args.*1 (call_all fn s args.*2).2.

  Lemma call_all_length args : forall s, length (call_all fn s args).2 = length args.
  Proof. induction args as [|x args IH]; intros s; cbn; [done|]. destruct (fn s x) as [s' v]. specialize (IH s'). destruct (call_all fn s' args). cbn in *. by rewrite IH. Qed.

  Lemma results_length s args : length (results s args) = length args.
  Proof. unfold results. rewrite zip_with_length, call_all_length, !fmap_length. lia. Qed.

  Lemma results_keys s args : (results s args).*1 = args.*1.
  Proof. unfold results. apply fst_zip. by rewrite call_all_length, !fmap_length. Qed.

  Lemma results_values s args : (results s args).*2 = (call_all fn s args.*2).2.
  Proof. unfold results. apply snd_zip. by rewrite call_all_length, !fmap_length. Qed.

  Lemma results_indexed s args : indexed args -> indexed (results s args).
  Proof.
    intros H i k v Hi. assert ((results s args).*1 !! i = Some k) as Hk by (by rewrite list_lookup_fmap, Hi).
    rewrite results_keys, list_lookup_fmap in Hk. destruct (args !! i) as [[k' x]|] eqn:E; [|done]. cbn in Hk. injection Hk as <-. by eapply H.
  Qed.

  Lemma results_cons s k x args : results s ((k, x) :: args) = (k, (fn s x).2) :: results (fn s x).1 args.
  Proof. unfold results. cbn. destruct (fn s x) as [s' v]. cbn. by destruct (call_all fn s' args.*2). Qed.

  Lemma call_all_cons s x args : (call_all fn s (x :: args)).1 = (call_all fn (fn s x).1 args).1.
  Proof. cbn. destruct (fn s x) as [s' v]. cbn. by destruct (call_all fn s' args). Qed.

  Definition acc_step (keyed : bool) (r : outcome (S * acc)) (k : key) (e : value) : outcome (S * acc) :=
    do ' (s, a) <- r ;
    let '(s, v) := fn s e in
    do a <- (if keyed then acc_set a k v else acc_add a v) ;
    Val (s, a).

  Lemma accumulate keyed kt args : forall s a kvs, adding keyed kt a kvs ->
    exists a', fold_stop no_stop (acc_step keyed) (Val (s, a)) args = Val ((call_all fn s args.*2).1, a') /\ adding keyed kt a' (kvs ++ results s args).
  Proof.
    induction args as [|[k x] args IH]; intros s a kvs Ha.
    - exists a. unfold results. cbn. by rewrite app_nil_r.
    - cbn [fold_stop no_stop]. unfold acc_step at 2. cbn [obind]. destruct (fn s x) as [s' v] eqn:E.
      assert (exists a1, (if keyed then acc_set a k v else acc_add a v) = Val a1 /\ adding keyed kt a1 (kvs ++ [(k, v)])) as (a1 & -> & Ha1).
      { destruct keyed; [by apply acc_set_ok|by apply acc_add_ok]. }
      cbn [obind]. destruct (IH s' a1 _ Ha1) as (a' & -> & Ha'). exists a'. rewrite results_cons, E, <- app_assoc in *. split; [|done].
      rewrite fmap_cons. cbn [snd]. rewrite call_all_cons, E. done.
  Qed.

  Lemma list_loop args : forall s r, fold_stop no_stop (fun (r : S * list value) (_ : key) e =>
        let '(s, result) := r in let '(s, v) := fn s e in (s, v :: result)) (s, r) args =
      ((call_all fn s args.*2).1, rev (call_all fn s args.*2).2 ++ r).
  Proof.
    induction args as [|[k x] args IH]; intros s r; [done|]. cbn [fold_stop no_stop]. rewrite fmap_cons. cbn. destruct (fn s x) as [s' v].
    rewrite IH. destruct (call_all fn s' args.*2). cbn. by rewrite <- app_assoc.
  Qed.

  Lemma deque_loop args : forall s r, fold_stop no_stop (fun (r : S * list value) (_ : key) e =>
        let '(s, result) := r in let '(s, v) := fn s e in (s, result ++ [v])) (s, r) args =
      ((call_all fn s args.*2).1, r ++ (call_all fn s args.*2).2).
  Proof.
    induction args as [|[k x] args IH]; intros s r; [by rewrite app_nil_r|]. cbn [fold_stop no_stop]. rewrite fmap_cons. cbn. destruct (fn s x) as [s' v].
    rewrite IH. destruct (call_all fn s' args.*2). cbn. by rewrite <- app_assoc.
  Qed.

  Lemma array_loop_ok k k' : forall (todo done_ : list value) s pre rest, length pre = length done_ -> length rest = length todo ->
    let r := array_loop fn (length todo) s (CVec k' (done_ ++ todo)) (Z.of_nat (length pre)) (CVec k (pre ++ rest)) in
    (Forall (fun v => storable k v = true) (call_all fn s todo).2 -> r = Val ((call_all fn s todo).1, CVec k (pre ++ (call_all fn s todo).2))) /\
    (~ Forall (fun v => storable k v = true) (call_all fn s todo).2 -> exists msg, r = Signal msg).
  Proof.
    induction todo as [|x todo IH]; intros done_ s pre rest H1 H2; cbn zeta.
    { destruct rest; [|done]. split; [done|]. intros H. exfalso. apply H. constructor. }
    destruct rest as [|w rest]; [done|]. cbn [length array_loop array_read array_write].
    rewrite (zread_val _ _ x) by (try lia; rewrite Nat2Z.id, H1; by apply list_lookup_middle). cbn [obind]. cbn [call_all].
    destruct (fn s x) as [s' v]. destruct (storable k v) eqn:E.
    - rewrite zwrite_val by (rewrite ?app_length; cbn; lia). cbn [obind]. rewrite Nat2Z.id.
      replace (<[length pre:=v]> (pre ++ w :: rest)) with ((pre ++ [v]) ++ rest).
      2: { rewrite <- (Nat.add_0_r (length pre)). rewrite insert_app_r. by rewrite <- app_assoc. }
      replace (Z.of_nat (length pre) + 1) with (Z.of_nat (length (pre ++ [v]))) by (rewrite app_length; cbn; lia).
      replace (done_ ++ x :: todo) with ((done_ ++ [x]) ++ todo) by (by rewrite <- app_assoc).
      destruct (IH (done_ ++ [x]) s' (pre ++ [v]) rest) as [I1 I2]; [rewrite !app_length; cbn; lia|cbn in H2; lia|].
      destruct (call_all fn s' todo) as [s2 vs]. cbn [fst snd] in *. split.
      + intros H. inversion_clear H. rewrite I1 by done. by rewrite <- app_assoc.
      + intros H. apply I2. intros Hf. apply H. by constructor.
    - split; [|by eexists]. destruct (call_all fn s' todo) as [s2 vs]. cbn [fst snd]. intros H. inversion_clear H. congruence.
  Qed.
End loops.

(** ** map-as *)

Lemma seq_kt c : is_sequence c = true -> coll_key_test c = 0%nat.
Proof. by destruct c. Qed.

Lemma source_facts h a more cs src kt : Forall2 (fun a c => h !! a = Some c) (a :: more) cs -> Forall (fun c => coll_key_test c = kt) cs ->
  multiple_collection h a more = Val src ->
  src_key_test h src = Val kt /\ src_is_sequence h src = Val (forallb is_sequence cs) /\
  match src with One a' => a' = a /\ exists c, cs = [c] /\ h !! a = Some c | _ => True end.
Proof.
  intros Hh Hkt Hm. inversion Hh as [|? c ? cs' Hc Hr]; subst. inversion_clear Hkt as [|? ? Hk1 Hkr].
  destruct more as [|a2 more].
  - injection Hm as <-. inversion Hr; subst. cbn. rewrite (at_val _ _ _ Hc). cbn. rewrite andb_true_r. split_and!; try done. by exists c.
  - cbn [multiple_collection] in Hm. rewrite (at_val _ _ _ Hc) in Hm. cbn [obind] in Hm. rewrite (all_val _ _ _ Hr) in Hm. cbn [obind] in Hm.
    assert (forallb (fun c' => bool_decide (coll_key_test c' = coll_key_test c)) cs' = true) as E1.
    { apply forallb_forall. intros x Hx. rewrite Forall_forall in Hkr. apply elem_of_list_In, Hkr in Hx. apply bool_decide_eq_true. congruence. }
    rewrite E1 in Hm. cbn [negb] in Hm.
    destruct (forallb (fun c' => Bool.eqb (is_sequence c') (is_sequence c)) cs') eqn:E2; cbn [negb] in Hm.
    + destruct (is_sequence c) eqn:Es; injection Hm as <-; cbn [src_key_test src_is_sequence forallb].
      * rewrite Es. split_and!; try done; [by rewrite <- Hk1, seq_kt|]. cbn. f_equal. symmetry. rewrite forallb_forall in E2 |- *. intros x Hx. specialize (E2 x Hx). by destruct (is_sequence x).
      * rewrite Es. cbn [andb]. rewrite (all_val h (a :: a2 :: more) (c :: cs')) by (by constructor). cbn. split_and!; try done. by rewrite Hk1.
    + destruct (split_mixed 0 _) as [[[sas smap] eas] emap]. injection Hm as <-. cbn [src_key_test src_is_sequence].
      assert (exists c', c' ∈ cs' /\ is_sequence c' <> is_sequence c) as (c' & Hin & Hne).
      { clear -E2. induction cs' as [|x cs' IH]; [done|]. cbn in E2. apply andb_false_iff in E2 as [E|E].
        - exists x. split; [left|]. by destruct (is_sequence x), (is_sequence c).
        - destruct (IH E) as (c' & ? & ?). exists c'. split; [by right|done]. }
      rewrite Forall_forall in Hkr. pose proof (Hkr _ Hin) as Hk2. split_and!; try done.
      * f_equal. destruct (is_sequence c) eqn:Es; [by rewrite <- Hk1, seq_kt|]. destruct (is_sequence c') eqn:Es'; [|done]. by rewrite <- Hk2, seq_kt.
      * f_equal. symmetry. cbn [forallb]. destruct (is_sequence c) eqn:Es; [|done]. cbn. apply not_true_iff_false. rewrite forallb_forall. intros H.
        apply elem_of_list_In, H in Hin. congruence.
Qed.

Lemma vec_args k l out : visits [CVec k l] out -> (call_args out).*2 = l.
Proof.
  intros Hv. assert (indexed (call_args out)) as Hi by (apply (sequence_keys [CVec k l]); done).
  apply list_eq. intros i. apply option_eq. intros v.
  assert ((call_args out).*2 !! i = Some v <-> (KInt (Z.of_nat i), v) ∈ call_args out) as ->.
  { rewrite indexed_lookup by done. split; [eauto|]. intros (i' & E & H). injection E. intros. by replace i with i' by lia. }
  rewrite (call_args_in [CVec k l]) by done. unfold source_at, aligned. cbn [mapM]. rewrite value_at_nat by done. destruct (l !! i); cbn; done.
Qed.

Section top.
  Context {S : Type} (fn : S -> value -> S * value).

  Definition maps (ty : ttype) (kt : nat) (s : S) (args : list (key * value)) (r : outcome (S * coll)) : Prop :=
    (possible ty kt (results fn s args) -> exists c, r = Val ((call_all fn s args.*2).1, c) /\ has_type ty c /\ has_entries c (results fn s args) /\ wf_coll c) /\
    (~ possible ty kt (results fn s args) -> exists msg, r = Signal msg).

  Lemma maps_vec k s args : indexed args -> forall r,
    (Forall (fun v => storable k v = true) (call_all fn s args.*2).2 -> r = Val ((call_all fn s args.*2).1, CVec k (call_all fn s args.*2).2)) ->
    (~ Forall (fun v => storable k v = true) (call_all fn s args.*2).2 -> exists msg, r = Signal msg) -> maps (TVec k) 0 s args r.
  Proof.
    intros Hi r H1 H2. apply (results_indexed fn s) in Hi. assert (Forall (fun v => storable k v = true) (call_all fn s args.*2).2 <-> (k = VkString -> Forall (fun e => is_char e.2 = true) (results fn s args))) as Hst.
    { rewrite <- storable_chars. rewrite <- results_values. rewrite Forall_fmap. done. }
    split.
    - intros (_ & _ & P3). rewrite H1 by (apply Hst; intros ->; by apply P3). eexists. split; [done|]. split; [done|]. split.
      + apply indexed_entries; [done|]. by rewrite results_values.
      + apply wf_vec. intros ->. rewrite <- results_values. apply entries_chars. by apply P3.
    - intros Hp. apply H2. intros Hf. apply Hp. split; [done|]. split; [intros _; by apply indexed_in_range|]. intros [= ->]. by apply Hst.
  Qed.

  Lemma maps_seq ty s args c : indexed args -> ty = TList \/ ty = TDeq -> has_type ty c ->
    match c with CVec _ l' | CDeq _ l' | CList l' => l' = (call_all fn s args.*2).2 | _ => False end ->
    maps ty 0 s args (Val ((call_all fn s args.*2).1, c)).
  Proof.
    intros Hi Hty Ht Hc. apply (results_indexed fn s) in Hi. split.
    - intros _. exists c. split; [done|]. split; [done|]. split; [apply indexed_entries; [done|by rewrite results_values]|]. by destruct Hty as [-> | ->], c.
    - intros Hp. exfalso. apply Hp. split; [by destruct Hty as [-> | ->]|]. split; [intros _; by apply indexed_in_range|]. by destruct Hty as [-> | ->].
  Qed.

  Lemma map_as_ok h a more cs src kt s ty : Forall2 (fun a c => h !! a = Some c) (a :: more) cs -> Forall wf_coll cs -> bounded cs ->
    Forall (fun c => coll_key_test c = kt) cs -> multiple_collection h a more = Val src ->
    exists out, visits cs out /\ exists F, forall fuel, (F <= fuel)%nat -> maps ty kt s (call_args out) (map_as_one fn fuel s ty h src).
  Proof.
    intros Hh Hwf Hb Hkt Hm. destruct (source_yields _ _ _ _ _ Hh Hwf Hb Hm) as (B & f & st & out & Hs & Hy & Hv).
    exists out. split; [done|]. exists (Datatypes.S (B + length (call_args out))). intros fuel Hf.
    assert (forall {R} (step : R -> key -> value -> R) r, for_src fuel h src no_stop step r = Val (fold_stop no_stop step r (call_args out))) as Hfor.
    { intros R step r. unfold for_src. rewrite Hs by lia. cbn. eapply for_in_yields; [done|]. lia. }
    destruct (source_facts _ _ _ _ _ _ Hh Hkt Hm) as (Fk & Fs & F1).
    assert (cs <> []) as Hne by (inversion Hh; done).
    assert (Hix : forallb is_sequence cs = true -> indexed (call_args out)). { intros Hsq. by apply (sequence_keys cs). }
    assert (Hkt0 : forallb is_sequence cs = true -> kt = 0%nat).
    { destruct cs as [|c cs']; [done|]. intros Hsq. cbn in Hsq. apply andb_prop in Hsq as [Hsq _]. inversion_clear Hkt as [|? ? Hk _]. by rewrite <- Hk, seq_kt. }
    assert (Hnd : NoDup (results fn s (call_args out)).*1). { rewrite results_keys, call_args_keys. by apply visits_once in Hv. }
    (* the methods with an accumulator *)
    assert (Hacc : forall keyed, (keyed = false -> forallb is_sequence cs = true /\ match ty with TVec _ | TTab _ => True | _ => False end) ->
      maps ty kt s (call_args out) (map_as_acc fn fuel s ty h src keyed)).
    { intros keyed Hkeyed. unfold map_as_acc. rewrite Fk. cbn [obind]. rewrite Hfor. cbn [obind].
      change (fold_stop no_stop _ ?r ?l) with (fold_stop no_stop (acc_step fn keyed) r l).
      destruct (accumulate fn keyed kt (call_args out) s (acc_make keyed kt) []) as (a' & -> & Ha).
      { split; [|done]. apply building_make. }
      cbn [obind app] in *. destruct (convert_ok ty keyed kt a' _ Ha Hnd) as [C1 C2].
      { intros E. destruct (Hkeyed E) as [K1 K2]. split; [|done]. by apply results_indexed, Hix. }
      split.
      - intros Hp. destruct (C1 Hp) as (c & -> & Hc). cbn [obind]. by exists c.
      - intros Hp. destruct (C2 Hp) as [msg ->]. by exists msg. }
    assert (Hlist : forallb is_sequence cs = true -> maps TList kt s (call_args out) (map_as_list fn fuel s h src)).
    { intros Hsq. rewrite (Hkt0 Hsq). unfold map_as_list. rewrite Hfor. cbn [obind]. rewrite list_loop. apply maps_seq; [by apply Hix|by left|done|].
      by rewrite app_nil_r, rev_involutive. }
    assert (Hdeq : forallb is_sequence cs = true -> maps TDeq kt s (call_args out) (map_as_deque fn fuel s h src)).
    { intros Hsq. rewrite (Hkt0 Hsq). unfold map_as_deque. rewrite Hfor. cbn [obind]. rewrite deque_loop. apply maps_seq; [by apply Hix|by right|done|]. done. }
    unfold map_as_one. rewrite Fs. cbn [obind].
    assert (Hrest : maps ty kt s (call_args out)
       match ty with
       | TList => if forallb is_sequence cs then map_as_list fn fuel s h src else map_as_acc fn fuel s ty h src true
       | TDeq => if forallb is_sequence cs then map_as_deque fn fuel s h src else map_as_acc fn fuel s ty h src true
       | _ => map_as_acc fn fuel s ty h src (negb (forallb is_sequence cs))
       end).
    { destruct (forallb is_sequence cs) eqn:Esq; destruct ty; auto; apply Hacc; done. }
    destruct src as [a'| | |]; cbn [obind]; try (destruct ty; exact Hrest).
    destruct F1 as (-> & c & -> & Hc). rewrite (at_val _ _ _ Hc). cbn [obind].
    destruct c as [k l|first l|l|from by_ n|from by_|kt' t]; try (destruct ty; exact Hrest).
    2: { exfalso. destruct Hb as [Hb|[Hb|Hb]]; [by inversion_clear Hb| |done]. apply Exists_cons in Hb as [[_ []]|Hb]. by apply Exists_nil in Hb. }
    destruct ty as [k2| | |]; try (destruct k; exact Hrest). specialize (Hkt0 eq_refl). subst kt.
    specialize (Hix eq_refl). pose proof (vec_args _ _ _ Hv) as Hargs.
    assert (Harr : maps (TVec k2) 0 s (call_args out) (map_as_array fn s k2 (CVec k l))).
    { unfold map_as_array. cbn [coll_size obind]. apply maps_vec; [done| |]; rewrite Hargs.
      - destruct l as [|x l]; [done|]. cbn [length Nat.eqb]. cbn [call_all]. intros H.
        assert (element_nf (CVec k (x :: l)) (KInt 0) = Val (Some x)) as -> by (by destruct k). cbn [obind]. destruct (fn s x) as [s' v].
        destruct (array_loop_ok fn k2 k l [x] s' [v] (replicate (length l) v)) as [A1 _]; [done|by rewrite replicate_length|].
        destruct (call_all fn s' l) as [s2 vs]. cbn [fst snd] in *. inversion_clear H. cbn [make_filled]. rewrite H0. cbn [obind]. replace (Datatypes.S (length l) - 1)%nat with (length l) by lia. cbn [replicate length app] in *. exact (A1 H1).
      - destruct l as [|x l]; [intros H; exfalso; apply H; constructor|]. cbn [length Nat.eqb]. cbn [call_all]. intros H.
        assert (element_nf (CVec k (x :: l)) (KInt 0) = Val (Some x)) as -> by (by destruct k). cbn [obind]. destruct (fn s x) as [s' v].
        destruct (array_loop_ok fn k2 k l [x] s' [v] (replicate (length l) v)) as [_ A2]; [done|by rewrite replicate_length|].
        destruct (call_all fn s' l) as [s2 vs]. cbn [fst snd] in *. cbn [make_filled]. destruct (storable k2 v) eqn:E; [|by eexists]. cbn [obind].
        replace (Datatypes.S (length l) - 1)%nat with (length l) by lia. cbn [replicate length app] in *. apply A2. intros Hf'. apply H. by constructor. }
    destruct k; try exact Harr. destruct k2; try exact Harr.
    unfold map_as_vector. cbn [coll_size obind]. destruct (array_loop_ok fn VkObject VkObject l [] s [] (replicate (length l) VFalse)) as [A1 A2]; [done|by rewrite replicate_length|].
    apply maps_vec; [done| |]; rewrite Hargs; assumption.
  Qed.
End top.
