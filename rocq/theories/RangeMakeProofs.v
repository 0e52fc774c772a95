(** Proofs about making, comparing and changing ranges. *)
From Coq Require Import ZifyBool ZifyNat ZifyN Lia.
From stdpp Require Import list_numbers.
From Verif Require Import Base RangeModel RangeSpec RangeProofs.
Local Open Scope Z_scope.
Local Open Scope outcome_scope.

(** *** make *)
Lemma requested_fin f b to below above size n :
  (forall k : nat,
     ((forall j : nat, (j <= k)%nat -> respects b to below above (f + Z.of_nat j * b)) /\
      (forall m, size = Some m -> Z.of_nat k < m)) <-> Z.of_nat k < n) ->
  requested f b to below above size (progression f b (Some (Z.to_nat n))).
Proof.
  intros H k. cbv zeta. split; intros Hok; unfold progression.
  - apply H in Hok. by rewrite bool_decide_true by lia.
  - rewrite bool_decide_false; [done|]. intros Hk. apply Hok, H. lia.
Qed.
Lemma requested_inf f b to below above size :
  (forall k : nat,
     ((forall j : nat, (j <= k)%nat -> respects b to below above (f + Z.of_nat j * b)) /\
      (forall m, size = Some m -> Z.of_nat k < m))) ->
  requested f b to below above size (progression f b None).
Proof.
  intros H k. cbv zeta. split; intros Hok; unfold progression; [done|]. by destruct Hok.
Qed.

Lemma respects_none b x : respects b None None None x.
Proof. by repeat split. Qed.

Definition is_requested (f b : Z) (to below above size : option Z) : Prop :=
  exists r, make_range f b to below above size = Val r /\ wf_range r /\
    requested f b to below above size (denote r).

Lemma finish_sized f b to below above size n : b <> 0 -> 0 <= n ->
  (forall k : nat,
     ((forall j : nat, (j <= k)%nat -> respects b to below above (f + Z.of_nat j * b)) /\
      (forall m, size = Some m -> Z.of_nat k < m)) <-> Z.of_nat k < n) ->
  exists r, (if bool_decide (n = 0) then Val REmpty else Val (RFinite f b n)) = Val r /\ wf_range r /\
    requested f b to below above size (denote r).
Proof.
  intros Hb Hn H. pose proof (requested_fin f b to below above size n H) as R.
  case_bool_decide as E; eexists; (split; [reflexivity|]); (split; [cbn; lia || done|]).
  - subst. intros k. destruct (R k) as [R1 R2]. split.
    + intros Hok. exfalso. apply H in Hok. lia.
    + intros _. cbn [denote]. unfold progression. by rewrite bool_decide_false by lia.
  - done.
Qed.

Lemma make_unbounded f b : is_requested f b None None None None.
Proof.
  unfold is_requested, make_range. case_bool_decide as Hb.
  - subst. cbn [andb]. exists (RConst f None). split; [done|]. split; [done|].
    apply requested_inf. intros k. split; [intros; apply respects_none|done].
  - exists (RInfinite f b). split; [by destruct (bool_decide (b > 0))|]. split; [done|].
    apply requested_inf. intros k. split; [intros; apply respects_none|done].
Qed.

Lemma make_sized f b n : 0 <= n -> (b = 0 -> 1 <= n) -> is_requested f b None None None (Some n).
Proof.
  intros Hn Hb0. unfold is_requested, make_range. case_bool_decide as Hb.
  - subst. cbn [andb]. exists (RConst f (Some n)). split; [done|]. split; [cbn; lia|].
    apply requested_fin. intros k. split.
    + intros [_ H]. by apply H.
    + intros H. split; [intros; apply respects_none|]. by intros m [= <-].
  - assert (E : forall (A : Type) (x : A), (if bool_decide (b > 0) then x else x) = x) by (intros; by destruct (bool_decide _)).
    rewrite E. cbn [obind]. apply finish_sized; [done|lia|]. intros k. split.
    + intros [_ H]. by apply H.
    + intros H. split; [intros; apply respects_none|]. by intros m [= <-].
Qed.

Lemma floor_count f b t k : b <> 0 -> 
  k < floor_div (t + b - f) b <-> if bool_decide (b > 0) then k * b <= t - f else k * b >= t - f.
Proof.
  intros Hb. unfold floor_div. replace (t + b - f) with (t - f + 1 * b) by lia. rewrite Z.div_add by lia.
  pose proof (Z.div_mod (t - f) b Hb). set (q := (t - f) / b) in *. case_bool_decide.
  - pose proof (Z.mod_pos_bound (t - f) b ltac:(lia)). split; nia.
  - pose proof (Z.mod_neg_bound (t - f) b ltac:(lia)). split; nia.
Qed.
Lemma floor_count_nonneg f b t : b <> 0 -> (if bool_decide (b > 0) then f - b <= t else f - b >= t) ->
  0 <= floor_div (t + b - f) b.
Proof.
  intros Hb H. enough (-1 < floor_div (t + b - f) b) by lia. apply floor_count; [done|].
  case_bool_decide; lia.
Qed.

(** The prefix condition is a condition on the last term only. *)
Lemma monotone_prefix b (f : Z) (t : Z) k : b <> 0 ->
  (forall j : nat, (j <= k)%nat -> if bool_decide (b > 0) then f + Z.of_nat j * b <= t else f + Z.of_nat j * b >= t)
  <-> if bool_decide (b > 0) then Z.of_nat k * b <= t - f else Z.of_nat k * b >= t - f.
Proof.
  intros Hb. case_bool_decide.
  - split; [intros H1; specialize (H1 k ltac:(lia)); lia|]. intros H1 j Hj. nia.
  - split; [intros H1; specialize (H1 k ltac:(lia)); lia|]. intros H1 j Hj. nia.
Qed.

Lemma make_to f b t : b <> 0 -> (if bool_decide (b > 0) then f - b <= t else f - b >= t) ->
  is_requested f b (Some t) None None None.
Proof.
  intros Hb Ht. unfold is_requested, make_range. rewrite (bool_decide_false (b = 0)) by done.
  assert (E : forall (A : Type) (x : A), (if bool_decide (b > 0) then x else x) = x) by (intros; by destruct (bool_decide _)).
  rewrite E. cbn [obind]. apply finish_sized; [done|by apply floor_count_nonneg|].
  intros k. rewrite floor_count by done. rewrite <- monotone_prefix by done. split.
  - intros [H _] j Hj. destruct (H j Hj) as [H1 _]. by apply H1.
  - intros H. split; [|done]. intros j Hj. specialize (H j Hj). repeat split; try done.
    by intros ? [= <-].
Qed.

(** size: and to: together must agree. *)
Lemma make_to_sized f b t n : b <> 0 -> (if bool_decide (b > 0) then f - b <= t else f - b >= t) ->
  (if bool_decide (n = floor_div (t + b - f) b) then is_requested f b (Some t) None None (Some n)
   else make_range f b (Some t) None None (Some n) = Signal "range-size-mismatch-error"%string).
Proof.
  intros Hb Ht. unfold is_requested, make_range. rewrite (bool_decide_false (b = 0)) by done.
  assert (E : forall (A : Type) (x : A), (if bool_decide (b > 0) then x else x) = x) by (intros; by destruct (bool_decide _)).
  rewrite !E. destruct (decide (n = floor_div (t + b - f) b)) as [->|Hne].
  - rewrite (bool_decide_true (_ = _)) by done. rewrite (bool_decide_false (_ <> _)) by congruence. cbn [obind].
    apply finish_sized; [done|by apply floor_count_nonneg|].
    intros k. split.
    + intros [_ H]. by apply H.
    + intros H. split; [|by intros ? [= <-]]. rewrite floor_count, <- monotone_prefix in H by done.
      intros j Hj. specialize (H j Hj). repeat split; try done. by intros ? [= <-].
  - rewrite (bool_decide_false (n = _)) by done. by rewrite (bool_decide_true (_ <> _)) by done.
Qed.

(** below: (for a positive step) and above: (for a negative one), when the bound is a whole number
    of steps away; always so for steps of 1 and -1. *)
Lemma make_below f b bound : b > 0 -> f <= bound -> (b | bound - f) ->
  is_requested f b None (Some bound) None None.
Proof.
  intros Hb Hf [q Hq]. unfold is_requested, make_range. rewrite (bool_decide_false (b = 0)) by lia.
  rewrite (bool_decide_true (b > 0)) by lia. cbn [obind].
  apply finish_sized; [lia| |].
  - apply floor_count_nonneg; [lia|]. rewrite bool_decide_true by lia. lia.
  - intros k. rewrite floor_count by lia. rewrite bool_decide_true by lia. split.
    + intros [H _]. destruct (H k ltac:(lia)) as (_ & H1 & _). specialize (H1 _ eq_refl).
      assert (Z.of_nat k < q) by nia. nia.
    + intros H. split; [|done]. intros j Hj. repeat split; try done. intros ? [= <-]. nia.
Qed.
Lemma make_above f b bound : b < 0 -> bound <= f -> (b | bound - f) ->
  is_requested f b None None (Some bound) None.
Proof.
  intros Hb Hf [q Hq]. unfold is_requested, make_range. rewrite (bool_decide_false (b = 0)) by lia.
  rewrite (bool_decide_false (b > 0)) by lia. cbn [obind].
  apply finish_sized; [lia| |].
  - apply floor_count_nonneg; [lia|]. rewrite bool_decide_false by lia. lia.
  - intros k. rewrite floor_count by lia. rewrite bool_decide_false by lia. split.
    + intros [H _]. destruct (H k ltac:(lia)) as (_ & _ & H1). specialize (H1 _ eq_refl).
      assert (Z.of_nat k < q) by nia. nia.
    + intros H. split; [|done]. intros j Hj. repeat split; try done. intros ? [= <-]. nia.
Qed.

(** A constant range: the bounds either keep it whole or make it empty. *)
Lemma make_constant f below above size : (forall n, size = Some n -> 1 <= n) ->
  is_requested f 0 None below above size.
Proof.
  intros Hs. unfold is_requested, make_range. rewrite (bool_decide_true (0 = 0)) by done.
  set (c := (_ && _)). assert (Hc : c = true <-> respects 0 None below above f).
  { unfold c, respects. destruct above as [a|], below as [b|]; rewrite ?andb_true_iff, ?bool_decide_eq_true; split.
    all: intros H; repeat split; try done; destruct_and?; try (intros ? [= <-]); try lia; eauto. }
  destruct c.
  - eexists. split; [reflexivity|]. split; [cbn; destruct size; [by apply Hs|done]|].
    assert (Hr : forall j : nat, respects 0 None below above (f + Z.of_nat j * 0)).
    { intros j. replace (f + Z.of_nat j * 0) with f by lia. by apply Hc. }
    cbn [denote]. destruct size as [n|].
    + apply requested_fin. intros k. split; [intros [_ H]; by apply H|]. intros H. split; [done|by intros ? [= <-]].
    + apply requested_inf. intros k. done.
  - eexists. split; [reflexivity|]. split; [done|]. intros k. cbv zeta. split.
    + intros [H _]. specialize (H 0%nat ltac:(lia)). replace (f + Z.of_nat 0 * 0) with f in H by lia.
      apply Hc in H. done.
    + intros _. cbn [denote]. unfold progression. by rewrite bool_decide_false by lia.
Qed.

(** *** size, last, empty? *)
Lemma size_spec r : wf_range r ->
  match size_of r with
  | Some n => 0 <= n /\ forall k, is_Some (denote r k) <-> Z.of_nat k < n
  | None => forall k, is_Some (denote r k)
  end.
Proof.
  intros Hwf. destruct r as [|f [n|]|f b n|f b]; cbn [size_of denote wf_range] in *; unfold progression.
  - split; [lia|]. intros k. rewrite bool_decide_false by lia. split; [intros [? ?]; done|lia].
  - split; [lia|]. intros k. case_bool_decide; split; eauto; try lia. intros [? ?]; done.
  - eauto.
  - split; [lia|]. intros k. case_bool_decide; split; eauto; try lia. intros [? ?]; done.
  - eauto.
Qed.

Lemma last_spec r n : wf_range r -> size_of r = Some n ->
  match last r with
  | Val x => denote r (Z.to_nat (n - 1)) = Some x /\ 1 <= n
  | _ => n = 0
  end.
Proof.
  intros Hwf Hs. destruct r as [|f [m|]|f b m|f b]; cbn [size_of denote wf_range last] in *; try done; injection Hs as <-;
    unfold progression.
  - done.
  - rewrite bool_decide_true by lia. split; [f_equal; lia|lia].
  - rewrite bool_decide_true by lia. rewrite Z2Nat.id by lia. split; [f_equal; lia|lia].
Qed.

Lemma empty_spec r : wf_range r -> (empty_p r = true <-> forall k, denote r k = None).
Proof.
  intros Hwf. destruct r as [|f [n|]|f b n|f b]; cbn [empty_p denote wf_range] in *; unfold progression.
  - split; [|done]. intros _ k. by rewrite bool_decide_false by lia.
  - split; [done|]. intros H. specialize (H 0%nat). by rewrite bool_decide_true in H by lia.
  - split; [done|]. intros H. by specialize (H 0%nat).
  - split; [done|]. intros H. specialize (H 0%nat). by rewrite bool_decide_true in H by lia.
  - split; [done|]. intros H. by specialize (H 0%nat).
Qed.

(** *** = *)
Lemma equal_sound r1 r2 : range_equal r1 r2 = true -> forall k, denote r1 k = denote r2 k.
Proof.
  destruct r1, r2; cbn [range_equal]; try done;
    rewrite ?andb_true_iff, ?bool_decide_eq_true; intros; destruct_and?; by subst.
Qed.

Lemma fin_size_eq f b n f' b' m : 0 <= n -> 0 <= m ->
  (forall k, progression f b (Some (Z.to_nat n)) k = progression f' b' (Some (Z.to_nat m)) k) -> n = m.
Proof.
  intros Hn Hm H. unfold progression in H.
  destruct (Z_lt_le_dec n m) as [Hl|Hl].
  - specialize (H (Z.to_nat n)). rewrite (bool_decide_false (_ < Z.to_nat n)%nat), (bool_decide_true (_ < Z.to_nat m)%nat) in H by lia. done.
  - destruct (Z_lt_le_dec m n) as [Hl'|Hl']; [|lia].
    specialize (H (Z.to_nat m)). rewrite (bool_decide_true (_ < Z.to_nat n)%nat), (bool_decide_false (_ < Z.to_nat m)%nat) in H by lia. done.
Qed.
Lemma prog_two f b c f' b' c' :
  progression f b c 1%nat <> None ->
  (forall k, progression f b c k = progression f' b' c' k) -> f = f' /\ b = b'.
Proof.
  intros Hs H. pose proof (H 0%nat) as H0. pose proof (H 1%nat) as H1. rewrite H1 in Hs. rewrite H1 in H1 at 1.
  unfold progression in *. specialize (H 1%nat).
  destruct c, c'; repeat case_bool_decide; try done; try lia;
    injection H0 as H0; injection H as H; lia.
Qed.

Lemma equal_complete r1 r2 : wf_range r1 -> wf_range r2 ->
  (forall k, denote r1 k = denote r2 k) ->
  denote r1 1%nat <> None \/ denote r1 0%nat = None ->
  range_equal r1 r2 = true.
Proof.
  intros W1 W2 H [H1|H0].
  - assert (Htwo : range_from r1 = range_from r2 /\ range_by r1 = range_by r2).
    { destruct r1, r2; cbn [denote range_from range_by] in *; eapply prog_two; eauto. }
    destruct r1 as [|f1 s1|f1 b1 n1|f1 b1], r2 as [|f2 s2|f2 b2 n2|f2 b2];
      cbn [range_equal denote wf_range range_from range_by] in *; try done;
      destruct_and?; subst; try done; try lia;
      try (exfalso; apply H1; rewrite H; reflexivity);
      rewrite ?andb_true_iff, ?bool_decide_eq_true.
    + split; [done|]. destruct s1 as [n|], s2 as [m|]; try done.
      * f_equal. eapply fin_size_eq; [..|exact H]; lia.
      * specialize (H (Z.to_nat n)). unfold progression in H. by rewrite bool_decide_false in H by lia.
      * specialize (H (Z.to_nat m)). unfold progression in H. by rewrite bool_decide_false in H by lia.
    + split; [done|]. eapply fin_size_eq; [..|exact H]; lia.
    + specialize (H (Z.to_nat n1)). unfold progression in H. by rewrite bool_decide_false in H by lia.
    + specialize (H (Z.to_nat n2)). unfold progression in H. by rewrite bool_decide_false in H by lia.
    + done.
  - assert (E1 : empty_p r1 = true).
    { destruct r1 as [|f [n|]|f b n|f b]; cbn [denote wf_range] in *; unfold progression in *; try done.
      - by rewrite bool_decide_true in H0 by lia.
      - by rewrite bool_decide_true in H0 by lia. }
    assert (E2 : empty_p r2 = true).
    { rewrite H in H0. destruct r2 as [|f [n|]|f b n|f b]; cbn [denote wf_range] in *; unfold progression in *; try done.
      - by rewrite bool_decide_true in H0 by lia.
      - by rewrite bool_decide_true in H0 by lia. }
    by destruct r1, r2.
Qed.

(** *** add! and remove! *)
(** The members of a finite progression, as a list. *)
Definition prog_list (f b : Z) (n : nat) : list Z := map (fun k => f + Z.of_nat k * b) (seq 0 n).
Lemma prog_list_lookup f b n i : prog_list f b n !! i = progression f b (Some n) i.
Proof.
  unfold prog_list, progression. case_bool_decide as H.
  - rewrite list_lookup_fmap. by rewrite lookup_seq_lt by lia.
  - rewrite list_lookup_fmap. by rewrite lookup_seq_ge by lia.
Qed.
Lemma prog_list_unique f b n l : (forall i, progression f b (Some n) i = l !! i) -> l = prog_list f b n.
Proof. intros H. apply list_eq. intros i. by rewrite prog_list_lookup, H. Qed.
Lemma prog_list_snoc f b n : prog_list f b (S n) = prog_list f b n ++ [f + Z.of_nat n * b].
Proof. unfold prog_list. rewrite seq_S, map_app. done. Qed.
Lemma prog_list_cons f b n : prog_list f b (S n) = f :: prog_list (f + b) b n.
Proof.
  unfold prog_list. cbn [seq map]. f_equal; [lia|]. rewrite <- seq_shift, map_map.
  apply map_ext. intros. lia.
Qed.

Lemma list_count r l : wf_range r -> (forall i, denote r i = l !! i) -> count_of r (length l).
Proof.
  intros Hwf Hl. unfold count_of. pose proof (size_spec r Hwf) as H.
  destruct (size_of r) as [n|].
  - destruct H as [Hn H]. f_equal.
    pose proof (H (length l)) as H1. rewrite Hl, lookup_ge_None_2 in H1 by lia.
    destruct (decide (Z.of_nat (length l) < n)) as [Hlt|Hge].
    { apply H1 in Hlt as [? ?]. done. }
    destruct (decide (n = Z.of_nat (length l))) as [|Hne]; [done|].
    pose proof (H (Z.to_nat n)) as H2. rewrite Hl in H2.
    assert (is_Some (l !! Z.to_nat n)) by (apply lookup_lt_is_Some; lia).
    apply H2 in H0. lia.
  - exfalso. specialize (H (length l)). rewrite Hl, lookup_ge_None_2 in H by lia. by destruct H.
Qed.

Lemma shallow_list r l : wf_range r -> (forall i, denote r i = l !! i) -> shallow_copy r = Val l.
Proof.
  intros Hwf Hl. destruct (shallow_copy_spec r _ Hwf (list_count r l Hwf Hl)) as (l' & E & H).
  rewrite E. f_equal. apply list_eq. intros i. by rewrite H.
Qed.

Lemma add_spec r l elt : wf_range r -> (forall i, denote r i = l !! i) ->
  exists x l', add_bang r elt = Val x /\ holds x l' /\ l' ≡ₚ elt :: l.
Proof.
  intros Hwf Hl. destruct r as [|f [n|]|f b n|f b].
  - cbn [add_bang]. unfold make_range. rewrite (bool_decide_false (1 = 0)), (bool_decide_true (1 > 0)) by lia.
    cbn [obind]. rewrite (bool_decide_false (1 = 0)) by lia. cbn [obind].
    eexists _, [elt]. split; [done|]. split; [|cbn [denote] in Hl].
    + intros i. cbn [denote]. change (Z.to_nat 1) with 1%nat. rewrite <- prog_list_lookup.
      unfold prog_list. cbn [seq map]. by replace (elt + Z.of_nat 0 * 1) with elt by lia.
    + apply prog_list_unique in Hl. by rewrite Hl.
  - cbn [add_bang denote wf_range] in *. pose proof (shallow_list (RConst f (Some n)) l Hwf Hl) as Hsh.
    apply prog_list_unique in Hl.
    case_bool_decide as He.
    + subst. eexists _, _. split; [reflexivity|]. split.
      * intros i. cbn [denote]. symmetry. apply prog_list_lookup.
      * replace (Z.to_nat (n + 1)) with (S (Z.to_nat n)) by lia. rewrite prog_list_cons.
        by replace (f + 0) with f by lia.
    + case_bool_decide as Hn1.
      * injection Hn1 as ->. unfold make_range. rewrite (bool_decide_false (elt - f = 0)) by lia.
        assert (E : forall (A : Type) (x : A), (if bool_decide (elt - f > 0) then x else x) = x) by (intros; by destruct (bool_decide _)).
        rewrite E. cbn [obind]. rewrite (bool_decide_false (2 = 0)) by lia. cbn [obind].
        eexists _, _. split; [reflexivity|]. split.
        -- intros i. cbn [denote]. symmetry. apply prog_list_lookup.
        -- subst l. change (Z.to_nat 2) with 2%nat. change (Z.to_nat 1) with 1%nat. unfold prog_list. cbn [seq map].
           replace (f + Z.of_nat 1 * (elt - f)) with elt by lia.
           replace (f + Z.of_nat 0 * (elt - f)) with f by lia. replace (f + Z.of_nat 0 * 0) with f by lia.
           apply Permutation_swap.
      * rewrite Hsh. cbn [obind]. eexists _, (elt :: l). done.
  - exfalso. cbn [denote] in Hl. specialize (Hl (length l)). by rewrite lookup_ge_None_2 in Hl by lia.
  - cbn [add_bang denote wf_range] in *. pose proof (shallow_list (RFinite f b n) l Hwf Hl) as Hsh.
    apply prog_list_unique in Hl. destruct Hwf as [Hb Hn].
    case_bool_decide as He.
    + eexists _, _. split; [reflexivity|]. split.
      * intros i. cbn [denote]. symmetry. apply prog_list_lookup.
      * replace (Z.to_nat (n + 1)) with (S (Z.to_nat n)) by lia. rewrite prog_list_snoc, <- Hl.
        replace (f + Z.of_nat (Z.to_nat n) * b) with elt by (rewrite Z2Nat.id by lia; lia).
        symmetry. apply Permutation_cons_append.
    + case_bool_decide as He2.
      * eexists _, _. split; [reflexivity|]. split.
        -- intros i. cbn [denote]. symmetry. apply prog_list_lookup.
        -- replace (Z.to_nat (n + 1)) with (S (Z.to_nat n)) by lia. rewrite prog_list_cons.
           replace (f - b + b) with f by lia. by rewrite <- Hl, He2.
      * case_bool_decide as Hn1.
        -- subst n. change (Z.to_nat 1) with 1%nat in Hl. unfold prog_list in Hl. cbn [seq map] in Hl.
           replace (f + Z.of_nat 0 * b) with f in Hl by lia.
           case_bool_decide as He3.
           ++ unfold make_range. rewrite bool_decide_true by done. cbn [andb obind].
              eexists _, _. split; [reflexivity|]. split.
              ** intros i. cbn [denote]. symmetry. apply prog_list_lookup.
              ** subst. change (Z.to_nat 2) with 2%nat. unfold prog_list. cbn [seq map].
                 by replace (f + Z.of_nat 1 * 0) with f by lia; replace (f + Z.of_nat 0 * 0) with f by lia.
           ++ eexists _, _. split; [reflexivity|]. split.
              ** intros i. cbn [denote]. symmetry. apply prog_list_lookup.
              ** subst. change (Z.to_nat (1 + 1)) with 2%nat. unfold prog_list. cbn [seq map].
                 replace (f + Z.of_nat 1 * (elt - f)) with elt by lia.
                 replace (f + Z.of_nat 0 * (elt - f)) with f by lia. apply Permutation_swap.
        -- rewrite Hsh. cbn [obind]. eexists _, (elt :: l). done.
  - exfalso. cbn [denote] in Hl. specialize (Hl (length l)). by rewrite lookup_ge_None_2 in Hl by lia.
Qed.

(** An unending range only takes the one element that fits in front. *)
Lemma add_infinite f b elt : wf_range (RInfinite f b) ->
  match add_bang (RInfinite f b) elt with
  | Val (IsRange r) => denote r 0%nat = Some elt /\ forall k, denote r (S k) = denote (RInfinite f b) k
  | Val (IsList _) => False
  | o => o = Signal "incompatible-range-error"%string /\ elt <> f - b
  end.
Proof.
  intros Hwf. cbn [add_bang]. case_bool_decide as H; [done|]. cbn [denote]. unfold progression. split; [f_equal; lia|].
  intros k. f_equal. lia.
Qed.

Lemma prog_list_NoDup f b n : b <> 0 -> NoDup (prog_list f b n).
Proof.
  intros Hb. unfold prog_list. apply (NoDup_fmap_2_strong _ (seq 0 n)); [|apply NoDup_seq].
  intros x y _ _ H. assert (Z.of_nat x * b = Z.of_nat y * b) by lia. nia.
Qed.
Lemma prog_list_elem f b n x : x ∈ prog_list f b n <-> exists k : nat, (k < n)%nat /\ x = f + Z.of_nat k * b.
Proof.
  unfold prog_list. rewrite (elem_of_list_fmap (fun k => f + Z.of_nat k * b)). split.
  - intros (k & -> & Hk). rewrite elem_of_seq in Hk. exists k. split; [lia|done].
  - intros (k & Hk & ->). exists k. rewrite elem_of_seq. split; [done|lia].
Qed.

Lemma filter_id (l : list Z) elt : elt ∉ l -> filter (fun x => x <> elt) l = l.
Proof.
  induction l as [|x l IH]; intros H; [done|]. rewrite not_elem_of_cons in H. destruct H as [H1 H2].
  rewrite filter_cons_True by congruence. by rewrite IH.
Qed.

Lemma list_remove_filter l elt c : NoDup l -> (1 <= c)%nat ->
  list_remove l elt c = filter (fun x => x <> elt) l.
Proof.
  intros Hnd. revert c. induction Hnd as [|x l Hx Hnd IH]; intros c Hc; [done|].
  destruct c as [|c]; [lia|]. cbn [list_remove]. case_bool_decide as E.
  - subst. rewrite filter_cons_False by naive_solver. rewrite filter_id by done.
    destruct c as [|c]; [by destruct l|]. rewrite IH by lia. by apply filter_id.
  - rewrite filter_cons_True by done. f_equal. apply IH. lia.
Qed.

(** remove! on a finite range with a nonzero step: unless the element is strictly inside and no
    count is given. *)
Lemma remove_spec f b n l elt count :
  wf_range (RFinite f b n) -> (forall i, denote (RFinite f b n) i = l !! i) ->
  (forall c, count = Some c -> c > 0) ->
  (count = None -> elt ∈ l -> elt = f \/ elt = f + b * (n - 1)) ->
  exists x, remove_bang (RFinite f b n) elt count = Val x /\ holds x (filter (fun y => y <> elt) l).
Proof.
  intros Hwf Hl Hc Hin. pose proof (shallow_list _ l Hwf Hl) as Hsh.
  pose proof (member_spec elt _ Hwf) as Hm. cbn [remove_bang]. rewrite Hsh. cbn [obind].
  set (mem := member elt (RFinite f b n)) in *.
  assert (Hmem : mem = true <-> elt ∈ l).
  { rewrite Hm, elem_of_list_lookup. unfold in_seq. split; intros [k Hk]; exists k; by rewrite ?Hl in *. }
  clear Hm. clearbody mem. cbn [denote] in Hl. apply prog_list_unique in Hl. destruct Hwf as [Hb Hn].
  pose proof (prog_list_NoDup f b (Z.to_nat n) Hb) as Hnd. rewrite <- Hl in Hnd.
  assert (Hgo : match count with Some c => bool_decide (c > 0) | None => true end = true).
  { destruct count as [c|]; [|done]. rewrite bool_decide_eq_true. by apply Hc. }
  rewrite Hgo. clear Hgo.
  destruct (bool_decide (n = 1) && bool_decide (elt = f)) eqn:E1.
  - apply andb_true_iff in E1 as [E1 E2]. apply bool_decide_eq_true in E1. apply bool_decide_eq_true in E2. subst n elt.
    eexists. split; [reflexivity|]. subst l. change (Z.to_nat 1) with 1%nat. unfold prog_list. cbn [seq map].
    replace (f + Z.of_nat 0 * b) with f by lia. rewrite filter_cons_False by naive_solver.
    intros i. cbn [denote filter list_filter]. unfold progression. by rewrite bool_decide_false by lia.
  - apply andb_false_iff in E1. rewrite !bool_decide_eq_false in E1.
    case_bool_decide as E2.
    + assert (2 <= n). { destruct (decide (n = 1)); [|lia]. subst n. lia. }
      eexists. split; [reflexivity|]. intros i. cbn [denote].
      rewrite <- prog_list_lookup. f_equal.
      replace (Z.to_nat n) with (S (Z.to_nat (n - 1))) in Hl by lia. rewrite prog_list_snoc in Hl.
      replace (f + Z.of_nat (Z.to_nat (n - 1)) * b) with elt in Hl by (rewrite Z2Nat.id by lia; lia).
      subst l. rewrite filter_app, filter_cons_False, app_nil_r by naive_solver. symmetry. apply filter_id.
      apply NoDup_app in Hnd. intros H'. apply Hnd in H'. apply H'. left.
    + case_bool_decide as E3.
      * assert (2 <= n). { destruct (decide (n = 1)); [|lia]. subst n. lia. }
        eexists. split; [reflexivity|]. intros i. cbn [denote].
        rewrite <- prog_list_lookup. f_equal.
        replace (Z.to_nat n) with (S (Z.to_nat (n - 1))) in Hl by lia. rewrite prog_list_cons in Hl.
        subst l elt. rewrite filter_cons_False by naive_solver. symmetry. apply filter_id.
        by apply NoDup_cons in Hnd as [? _].
      * destruct count as [c|].
        -- rewrite bool_decide_true by (by apply Hc). cbn [andb]. destruct mem eqn:Emem.
           ++ eexists. split; [reflexivity|]. cbn [holds]. apply list_remove_filter; [done|].
              specialize (Hc c eq_refl). lia.
           ++ eexists. split; [reflexivity|]. intros i. cbn [denote]. rewrite filter_id.
              ** rewrite Hl. symmetry. apply prog_list_lookup.
              ** intros H'. apply Hmem in H'. done.
        -- cbn [andb]. eexists. split; [reflexivity|]. intros i. cbn [denote]. rewrite filter_id.
           ** rewrite Hl. symmetry. apply prog_list_lookup.
           ** intros H'. destruct (Hin eq_refl H'); done.
Qed.

Lemma list_remove_first l x : list_remove l x 1 = remove_first l x.
Proof.
  induction l as [|y l IH]; [done|]. cbn [list_remove remove_first]. case_bool_decide; [by destruct l|by rewrite IH].
Qed.

(** A constant range: count: 1 removes one occurrence. *)
Lemma remove_const f n l elt :
  wf_range (RConst f (Some n)) -> (forall i, denote (RConst f (Some n)) i = l !! i) ->
  elt = f \/ 2 <= n ->
  exists x, remove_bang (RConst f (Some n)) elt (Some 1) = Val x /\ holds x (remove_first l elt).
Proof.
  rewrite <- list_remove_first.
  intros Hwf Hl Hne. cbn [remove_bang wf_range denote] in *. rewrite (bool_decide_true (1 > 0)) by lia.
  apply prog_list_unique in Hl. case_bool_decide as E.
  - eexists. split; [reflexivity|]. intros i. cbn [denote]. rewrite <- prog_list_lookup. f_equal.
    replace (Z.to_nat n) with (S (Z.to_nat (n - 1))) in Hl by lia. rewrite prog_list_cons in Hl. subst l elt.
    cbn [list_remove]. rewrite bool_decide_true by done. replace (f + 0) with f by lia.
    by destruct (prog_list f 0 (Z.to_nat (n - 1))).
  - rewrite bool_decide_false by (intros [= ?]; lia).
    unfold member. cbn [find_key]. rewrite bool_decide_false by done.
    eexists. split; [reflexivity|]. intros i. cbn [denote]. rewrite <- prog_list_lookup. f_equal.
    rewrite <- Hl. symmetry.
    assert (Hall : Forall (fun x => x <> elt) l).
    { apply Forall_forall. intros x Hx. subst l. apply prog_list_elem in Hx as (k & _ & ->). lia. }
    clear -Hall. induction Hall as [|x l Hx Hall IH]; [done|]. cbn [list_remove].
    rewrite bool_decide_false by done. rewrite IH. done.
Qed.
