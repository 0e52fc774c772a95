(** Proofs about the calendar. *)
From Coq Require Import Bool Zbool ZArith Lia ZifyBool ZifyNat.
From Verif Require Import Base NumStrModel DateModel DateSpec.
Local Open Scope Z_scope.
Local Open Scope outcome_scope.
Ltac Zify.zify_post_hook ::= Z.div_mod_to_equations.

(** Closed forms. *)
Definition jan1 (y : Z) : Z := 365 * (y - 1900) + (y - 1) / 4 - (y - 1) / 100 + (y - 1) / 400 - 460.
Definition lp (y : Z) : Z := jan1 (y + 1) - jan1 y - 365.
Definition cum (m : Z) : Z := (367 * m - 362) / 12 - (if m >? 2 then 2 else 0).
Definition dimz (y m : Z) : Z := cum (m + 1) - cum m + (if m =? 2 then lp y else 0).
Definition dnum (y m d : Z) : Z := jan1 y + cum m + (if m >? 2 then lp y else 0) + d - 1.

Lemma step_div y n : 0 < n -> y / n = (y - 1) / n + (if y mod n =? 0 then 1 else 0).
Proof.
  intros Hn. pose proof (Z.div_mod y n) as He. pose proof (Z.mod_pos_bound y n Hn) as Hb.
  revert He Hb. generalize (y / n) (y mod n). intros q r He Hb.
  destruct (Z.eqb_spec r 0) as [->|Hr].
  - rewrite <- (Z.div_unique (y - 1) n (q - 1) (n - 1)); lia.
  - rewrite <- (Z.div_unique (y - 1) n q (r - 1)); lia.
Qed.
Lemma mod_100_4 y : y mod 100 = 0 -> y mod 4 = 0.
Proof.
  intros H. apply Z.mod_divide in H as [k ->]; [|lia]. apply Z.mod_divide; [lia|]. exists (k * 25). lia.
Qed.
Lemma mod_400_100 y : y mod 400 = 0 -> y mod 100 = 0.
Proof.
  intros H. apply Z.mod_divide in H as [k ->]; [|lia]. apply Z.mod_divide; [lia|]. exists (k * 4). lia.
Qed.
Lemma lp_eq y : lp y =
  (if y mod 4 =? 0 then 1 else 0) - (if y mod 100 =? 0 then 1 else 0) + (if y mod 400 =? 0 then 1 else 0).
Proof.
  unfold lp, jan1. replace (y + 1 - 1) with y by lia. rewrite (step_div y 4), (step_div y 100), (step_div y 400) by lia.
  destruct (y mod 4 =? 0), (y mod 100 =? 0), (y mod 400 =? 0);
  generalize ((y - 1) / 4) ((y - 1) / 100) ((y - 1) / 400); intros; lia.
Qed.
Lemma lp_01 y : lp y = 0 \/ lp y = 1.
Proof.
  rewrite lp_eq. pose proof (mod_100_4 y). pose proof (mod_400_100 y).
  destruct (Z.eqb_spec (y mod 4) 0), (Z.eqb_spec (y mod 100) 0), (Z.eqb_spec (y mod 400) 0); tauto || lia.
Qed.
Lemma leap_lp y : leap_year y = (lp y =? 1).
Proof.
  unfold leap_year. rewrite lp_eq. pose proof (mod_100_4 y) as H1. pose proof (mod_400_100 y) as H2.
  destruct (Z.eqb_spec (y mod 4) 0) as [E1|E1]; [rewrite (bool_decide_true (y mod 4 = 0)) by done|
    rewrite (bool_decide_false (y mod 4 = 0)) by done];
  (destruct (Z.eqb_spec (y mod 100) 0) as [E2|E2]; [rewrite (bool_decide_false (y mod 100 <> 0)) by tauto|
    rewrite (bool_decide_true (y mod 100 <> 0)) by done]);
  (destruct (Z.eqb_spec (y mod 400) 0) as [E3|E3]; [rewrite (bool_decide_true (y mod 400 = 0)) by done|
    rewrite (bool_decide_false (y mod 400 = 0)) by done]); try done; exfalso; tauto.
Qed.
Lemma gregorian_lp y : gregorian_leap y <-> lp y = 1.
Proof.
  assert (H4 : (4 | y) <-> y mod 4 = 0) by (symmetry; apply Z.mod_divide; lia).
  assert (H100 : (100 | y) <-> y mod 100 = 0) by (symmetry; apply Z.mod_divide; lia).
  assert (H400 : (400 | y) <-> y mod 400 = 0) by (symmetry; apply Z.mod_divide; lia).
  unfold gregorian_leap. rewrite H4, H100, H400. rewrite lp_eq.
  pose proof (mod_100_4 y) as H1. pose proof (mod_400_100 y) as H2. clear H4 H100 H400.
  destruct (Z.eqb_spec (y mod 4) 0), (Z.eqb_spec (y mod 100) 0), (Z.eqb_spec (y mod 400) 0);
    (split; [intros [??]; tauto || lia|intros; try discriminate; tauto]).
Qed.

Global Arguments lp : simpl never.
Global Arguments jan1 : simpl never.
Global Arguments cum : simpl never.
Ltac cums :=
  repeat match goal with
  | |- context [cum ?x] => let v := eval vm_compute in (cum x) in change (cum x) with v
  | H : context [cum ?x] |- _ => let v := eval vm_compute in (cum x) in change (cum x) with v in H
  end;
  repeat match goal with
  | |- context [?x >? 2] => let v := eval vm_compute in (x >? 2) in change (x >? 2) with v
  | H : context [?x >? 2] |- _ => let v := eval vm_compute in (x >? 2) in change (x >? 2) with v in H
  | |- context [?x =? 2] => let v := eval vm_compute in (x =? 2) in change (x =? 2) with v
  | H : context [?x =? 2] |- _ => let v := eval vm_compute in (x =? 2) in change (x =? 2) with v in H
  end; cbv iota in *.
Ltac months m :=
  let H := fresh in
  assert (H : m = 1 \/ m = 2 \/ m = 3 \/ m = 4 \/ m = 5 \/ m = 6 \/ m = 7 \/ m = 8 \/ m = 9 \/
    m = 10 \/ m = 11 \/ m = 12) by lia;
  destruct H as [->|[->|[->|[->|[->|[->|[->|[->|[->|[->|[->| ->]]]]]]]]]]].

Lemma month_element m : 1 <= m <= 12 -> checked_element month_days m = Val (cum (m + 1) - cum m).
Proof. intros Hm. months m; vm_compute; reflexivity. Qed.
Lemma month_before m : 1 <= m <= 12 -> exists l, copy_to month_days m = Val l /\ sum1 l = Val (cum m).
Proof. intros Hm. months m; vm_compute; eexists; split; reflexivity. Qed.
Lemma month_rest m : 1 <= m <= 12 ->
  exists l, copy_from month_days (m + 1) = Val l /\ sum1 l = Val (365 - cum (m + 1)).
Proof. intros Hm. months m; vm_compute; eexists; split; reflexivity. Qed.

Lemma days_in_month_spec y m : 1 <= m <= 12 -> days_in_month y m = Val (dimz y m).
Proof.
  intros Hm. unfold days_in_month. rewrite leap_lp, month_element by done. cbn [obind]. pose proof (lp_01 y).
  f_equal. unfold dimz. destruct (decide (m = 2)).
  - rewrite (bool_decide_true (m = 2)) by done. rewrite andb_true_r.
    destruct (lp y =? 1) eqn:E1, (m =? 2) eqn:E2; lia.
  - rewrite (bool_decide_false (m = 2)) by done. rewrite andb_false_r. destruct (m =? 2) eqn:E2; lia.
Qed.
Lemma dimz_range y m : 1 <= m <= 12 -> 28 <= dimz y m <= 31.
Proof. intros Hm. pose proof (lp_01 y). months m; unfold dimz; cums; lia. Qed.

Lemma days_since_1900_spec y m d : 1 <= m <= 12 -> days_since_1900 y m d = Val (dnum y m d).
Proof.
  intros Hm. unfold days_since_1900. rewrite leap_lp.
  pose proof (lp_01 y) as Hl.
  case_bool_decide as Hy.
  - rewrite days_in_month_spec by done. cbn [obind].
    assert (Hq : - Z.quot (1899 - y) 4 + Z.quot (1899 - y) 100 - Z.quot (1899 + 100 - y) 400 =
      jan1 (y + 1) - 365 * (y + 1 - 1900)).
    { rewrite !Z.quot_div_nonneg by lia. unfold jan1. lia. }
    unfold dnum, dimz. assert (Hj : jan1 y = jan1 (y + 1) - 365 - lp y) by (unfold lp; lia). rewrite Hj. clear Hj.
    destruct (month_rest m Hm) as (l & -> & Hl'). cbn [obind]. rewrite Hl'. cbn [obind].
    revert Hq Hl. generalize (lp y) (jan1 (y + 1)) (cum m) (cum (m + 1)). intros L J c c' Hq Hl.
    f_equal. destruct (decide (m < 2)).
    + rewrite (bool_decide_true (m < 2)) by done. rewrite andb_true_r.
      destruct (L =? 1) eqn:E, (m =? 2) eqn:E2, (m >? 2) eqn:E3; lia.
    + rewrite (bool_decide_false (m < 2)) by done. rewrite andb_false_r.
      destruct (m =? 2) eqn:E2, (m >? 2) eqn:E3; lia.
  - assert (Hq : Z.quot (y - 1901) 4 - Z.quot (y - 1901) 100 + Z.quot (y - 1901 + 300) 400 =
      jan1 y - 365 * (y - 1900)).
    { destruct (decide (y = 1900)) as [->|]; [done|].
      rewrite !Z.quot_div_nonneg by lia. unfold jan1.
      assert ((y - 1) / 4 = (y - 1901) / 4 + 475) by (rewrite <- Z.div_add by lia; f_equal; lia).
      assert ((y - 1) / 100 = (y - 1901) / 100 + 19) by (rewrite <- Z.div_add by lia; f_equal; lia).
      assert ((y - 1) / 400 = (y - 1901 + 300) / 400 + 4) by (rewrite <- Z.div_add by lia; f_equal; lia).
      lia. }
    destruct (month_before m Hm) as (l & -> & Hl'). cbn [obind]. rewrite Hl'. cbn [obind].
    unfold dnum. revert Hq Hl. generalize (lp y) (jan1 y) (cum m). intros L J c Hq Hl.
    f_equal. destruct (decide (m > 2)).
    + rewrite (bool_decide_true (m > 2)) by done. rewrite andb_true_r.
      destruct (L =? 1) eqn:E, (m >? 2) eqn:E3; lia.
    + rewrite (bool_decide_false (m > 2)) by done. rewrite andb_false_r.
      destruct (m >? 2) eqn:E3; lia.
Qed.

Lemma month_length_iff y m n : month_length y m n <-> 1 <= m <= 12 /\ n = dimz y m.
Proof.
  pose proof (lp_01 y) as Hl. pose proof (gregorian_lp y) as Hg. split.
  - intros [m' Hm|m' Hm|Hy|Hy]; (split; [lia|]).
    + destruct Hm as [->|[->|[->|[->|[->|[->| ->]]]]]]; unfold dimz; cums; lia.
    + destruct Hm as [->|[->|[->| ->]]]; unfold dimz; cums; lia.
    + apply Hg in Hy. unfold dimz; cums; lia.
    + unfold dimz; cums. destruct Hl as [Hl|Hl]; [lia|]. exfalso. apply Hy, Hg, Hl.
  - intros [Hm ->].
    assert (Hb : 1 <= m <= 12) by lia.
    destruct (decide (m = 2)) as [->|].
    + destruct Hl as [Hl|Hl]; unfold dimz; cums; rewrite Hl.
      * apply ml_28. rewrite Hg. lia.
      * apply ml_29. by apply Hg.
    + destruct (decide (m = 4 \/ m = 6 \/ m = 9 \/ m = 11)) as [H|H].
      * replace (dimz y m) with 30; [by apply ml_30|].
        destruct H as [->|[->|[->| ->]]]; unfold dimz; cums; lia.
      * replace (dimz y m) with 31; [apply ml_31; lia|].
        months m; try lia; unfold dimz; cums; lia.
Qed.

Lemma valid_ymd_iff y m d : valid_ymd (y, m, d) <-> 1 <= m <= 12 /\ 1 <= d <= dimz y m.
Proof.
  unfold valid_ymd. split.
  - intros (n & Hn & Hd). apply month_length_iff in Hn as [Hm ->]. done.
  - intros [Hm Hd]. exists (dimz y m). split; [|done]. by apply month_length_iff.
Qed.

Lemma dimz_12 y : dimz y 12 = 31.
Proof. unfold dimz; cums; lia. Qed.

Definition dn (x : ymd) : Z := let '(y, m, d) := x in dnum y m d.

Lemma next_day_valid x x' : next_day x x' -> valid_ymd x /\ valid_ymd x'.
Proof.
  intros [y m d n Hn Hd|y m n Hn Hm|y]; rewrite !valid_ymd_iff.
  - apply month_length_iff in Hn as [Hm ->]. lia.
  - apply month_length_iff in Hn as [Hm' ->].
    pose proof (dimz_range y m). pose proof (dimz_range y (m + 1)). lia.
  - rewrite dimz_12. pose proof (dimz_range (y + 1) 1). lia.
Qed.

Lemma dn_next x x' : next_day x x' -> dn x' = dn x + 1.
Proof.
  intros [y m d n Hn Hd|y m n Hn Hm|y]; cbn [dn]; unfold dnum.
  - lia.
  - apply month_length_iff in Hn as [Hm' ->]. unfold dimz. pose proof (lp_01 y).
    destruct (m >? 2) eqn:E1, (m + 1 >? 2) eqn:E2, (m =? 2) eqn:E3; lia.
  - assert (jan1 (y + 1) = jan1 y + 365 + lp y) by (unfold lp; lia). cums. lia.
Qed.

Lemma jan1_mono y y' : y < y' -> jan1 (y + 1) <= jan1 y'.
Proof. intros H. unfold jan1. lia. Qed.
Lemma dnum_year y m d : 1 <= m <= 12 -> 1 <= d <= dimz y m -> jan1 y <= dnum y m d < jan1 (y + 1).
Proof.
  intros Hm Hd. pose proof (lp_01 y).
  assert (jan1 (y + 1) = jan1 y + 365 + lp y) by (unfold lp; lia). unfold dnum, dimz in *.
  revert Hd. generalize dependent (jan1 (y + 1)). generalize dependent (jan1 y).
  generalize dependent (lp y). intros L HL J J' HJ Hd.
  months m; cums; lia.
Qed.

(** The numbering is strictly increasing in the lexicographic order. *)
Lemma dnum_month y m m' d d' :
  1 <= m <= 12 -> 1 <= m' <= 12 -> 1 <= d <= dimz y m -> 1 <= d' <= dimz y m' -> m < m' ->
  dnum y m d < dnum y m' d'.
Proof.
  intros Hm Hm' Hd Hd' Hlt. unfold dnum, dimz in *. pose proof (lp_01 y). unfold cum in *.
  destruct (m >? 2) eqn:E1, (m + 1 >? 2) eqn:E2, (m =? 2) eqn:E3, (m' >? 2) eqn:E4; lia.
Qed.
Lemma dnum_inj y m d y' m' d' :
  valid_ymd (y, m, d) -> valid_ymd (y', m', d') -> dnum y m d = dnum y' m' d' ->
  y = y' /\ m = m' /\ d = d'.
Proof.
  rewrite !valid_ymd_iff. intros [Hm Hd] [Hm' Hd'] He.
  pose proof (dnum_year _ _ _ Hm Hd). pose proof (dnum_year _ _ _ Hm' Hd').
  assert (y = y') as <-.
  { destruct (Z.lt_trichotomy y y') as [Hl|[?|Hl]]; [|done|];
      apply jan1_mono in Hl; lia. }
  assert (m = m') as <-.
  { destruct (Z.lt_trichotomy m m') as [Hl|[?|Hl]]; [|done|].
    - pose proof (dnum_month y m m' d d'). lia.
    - pose proof (dnum_month y m' m d' d). lia. }
  unfold dnum in He. lia.
Qed.
Lemma dn_inj x x' : valid_ymd x -> valid_ymd x' -> dn x = dn x' -> x = x'.
Proof.
  destruct x as [[y m] d], x' as [[y' m'] d']. cbn [dn]. intros Hx Hx' He.
  destruct (dnum_inj _ _ _ _ _ _ Hx Hx' He) as (-> & -> & ->). done.
Qed.

Lemma next_exists x : valid_ymd x -> exists x', next_day x x'.
Proof.
  destruct x as [[y m] d]. rewrite valid_ymd_iff. intros [Hm Hd].
  destruct (decide (d = dimz y m)) as [->|].
  - destruct (decide (m = 12)) as [->|].
    + exists (y + 1, 1, 1). rewrite dimz_12. constructor.
    + exists (y, m + 1, 1). apply next_month; [|lia]. by apply month_length_iff.
  - exists (y, m, d + 1). apply (next_in_month _ _ _ (dimz y m)); [|lia]. by apply month_length_iff.
Qed.
Lemma prev_exists x : valid_ymd x -> exists x', next_day x' x.
Proof.
  destruct x as [[y m] d]. rewrite valid_ymd_iff. intros [Hm Hd].
  destruct (decide (d = 1)) as [->|].
  - destruct (decide (m = 1)) as [->|].
    + exists (y - 1, 12, 31). replace (y, 1, 1) with (y - 1 + 1, 1, 1) by (repeat f_equal; lia). constructor.
    + exists (y, m - 1, dimz y (m - 1)).
      replace (y, m, 1) with (y, m - 1 + 1, 1) by (repeat f_equal; lia).
      apply next_month; [|lia]. apply month_length_iff. split; [lia|done].
  - exists (y, m, d - 1). replace (y, m, d) with (y, m, d - 1 + 1) by (repeat f_equal; lia).
    apply (next_in_month _ _ _ (dimz y m)); [|lia]. by apply month_length_iff.
Qed.

Lemma valid_epoch : valid_ymd (1900, 1, 1).
Proof. apply valid_ymd_iff. vm_compute. split; split; discriminate. Qed.

Lemma day_is_dn n x : day_is n x -> valid_ymd x /\ dn x = n.
Proof.
  induction 1 as [|n x x' _ [_ IH] Hn|n x x' _ [_ IH] Hn].
  - split; [apply valid_epoch|done].
  - split; [apply (next_day_valid _ _ Hn)|]. apply dn_next in Hn. lia.
  - split; [apply (next_day_valid _ _ Hn)|]. apply dn_next in Hn. lia.
Qed.

Lemma day_exists n : exists x, day_is n x.
Proof.
  assert (Hp : forall k : nat, exists x, day_is (Z.of_nat k) x).
  { induction k as [|k (x & IH)]; [exists (1900, 1, 1); constructor|].
    destruct (next_exists x) as (x' & Hx'); [apply (day_is_dn _ _ IH)|].
    exists x'. replace (Z.of_nat (S k)) with (Z.of_nat k + 1) by lia. by eapply day_succ. }
  assert (Hm : forall k : nat, exists x, day_is (- Z.of_nat k) x).
  { induction k as [|k (x & IH)]; [exists (1900, 1, 1); constructor|].
    destruct (prev_exists x) as (x' & Hx'); [apply (day_is_dn _ _ IH)|].
    exists x'. apply (day_pred _ x' x); [|done].
    replace (- Z.of_nat (S k) + 1) with (- Z.of_nat k) by lia. done. }
  destruct (decide (0 <= n)).
  - destruct (Hp (Z.to_nat n)) as (x & Hx). exists x. rewrite Z2Nat.id in Hx by lia. done.
  - destruct (Hm (Z.to_nat (- n))) as (x & Hx). exists x. rewrite Z2Nat.id in Hx by lia.
    by rewrite Z.opp_involutive in Hx.
Qed.

Lemma day_is_iff n x : day_is n x <-> valid_ymd x /\ dn x = n.
Proof.
  split; [apply day_is_dn|]. intros [Hv He].
  destruct (day_exists n) as (x' & Hx'). pose proof (day_is_dn _ _ Hx') as [Hv' He'].
  rewrite (dn_inj x x'); [done|done|done|lia].
Qed.

Lemma days_since_1900_day y m d n :
  valid_ymd (y, m, d) -> (days_since_1900 y m d = Val n <-> day_is n (y, m, d)).
Proof.
  intros Hv. rewrite day_is_iff. pose proof Hv as Hv'. apply valid_ymd_iff in Hv' as [Hm _].
  rewrite days_since_1900_spec by done. cbn [dn]. split; [intros [= <-]; done|intros [_ <-]; done].
Qed.

(** *** Instants *)
Definition seconds_of (d : date) : Z :=
  dnum (date_year d) (date_month d) (date_day d) * 86400 + date_hours d * 3600 +
  date_minutes d * 60 + date_seconds d - date_zone d * 60.
Definition micros_of (d : date) : Z := seconds_of d * 1000000 + date_microseconds d.

Lemma micros_eq y m d h mi s us z :
  micros_of (Date y m d h mi s us z) =
  (dnum y m d * 86400 + h * 3600 + mi * 60 + s - z * 60) * 1000000 + us.
Proof. reflexivity. Qed.
Lemma micros_split d : micros_of d = seconds_of d * 1000000 + date_microseconds d.
Proof. reflexivity. Qed.
Lemma micros_inj d d' :
  0 <= date_microseconds d < 1000000 -> 0 <= date_microseconds d' < 1000000 -> micros_of d = micros_of d' ->
  date_microseconds d = date_microseconds d' /\ seconds_of d = seconds_of d'.
Proof.
  rewrite !micros_split. generalize (seconds_of d) (seconds_of d') (date_microseconds d) (date_microseconds d').
  intros. lia.
Qed.
Lemma second_of_iff d s :
  valid_ymd (date_year d, date_month d, date_day d) -> (second_of d s <-> s = seconds_of d).
Proof.
  intros Hv. unfold second_of. split.
  - intros (n & Hn & ->). apply day_is_iff in Hn as [_ Hn]. cbn [dn] in Hn. unfold seconds_of. by rewrite Hn.
  - intros ->. eexists. split; [apply day_is_iff; done|]. done.
Qed.
Lemma instant_of_iff d i :
  valid_ymd (date_year d, date_month d, date_day d) -> (instant_of d i <-> i = micros_of d).
Proof.
  intros Hv. unfold instant_of. split.
  - intros (s & Hs & ->). apply second_of_iff in Hs; [|done]. unfold micros_of. by rewrite Hs.
  - intros ->. exists (seconds_of d). split; [by apply second_of_iff|done].
Qed.

Lemma universal_spec d :
  1 <= date_month d <= 12 ->
  exists ud ut, universal d = Val (ud, ut) /\ 0 <= ut < 86400 /\ ud * 86400 + ut = seconds_of d.
Proof.
  intros Hm. unfold universal, compute_universal_time. rewrite days_since_1900_spec by done. cbn [obind].
  unfold seconds_of. generalize (dnum (date_year d) (date_month d) (date_day d)). intros n.
  set (u := date_seconds d + 60 * (date_minutes d + 60 * date_hours d) - (60 * date_zone d) mod 86400).
  assert (Hu : u = date_seconds d + 60 * (date_minutes d + 60 * date_hours d) - (60 * date_zone d) mod 86400) by done.
  clearbody u.
  destruct (decide (-1 < u /\ u < 86400)) as [Hr|Hr].
  - rewrite !bool_decide_true by lia. cbn [andb]. do 2 eexists. split; [done|]. lia.
  - replace (bool_decide (-1 < u) && bool_decide (u < 86400)) with false.
    2: { symmetry. apply andb_false_iff. destruct (decide (-1 < u)).
         - right. apply bool_decide_false. lia.
         - left. apply bool_decide_false. lia. }
    do 2 eexists. split; [done|]. lia.
Qed.

(** *** Canonicalisation *)
Lemma days_down_spec fuel : forall y m d,
  1 <= m <= 12 -> d <= Z.of_nat fuel ->
  exists y' m' d', days_down fuel y m d = Val (y', m', d') /\ 1 <= m' <= 12 /\ d' <= dimz y' m' /\
    dnum y' m' d' = dnum y m d /\ (1 <= d -> 1 <= d') /\ (d < 1 -> d' = d).
Proof.
  induction fuel as [|fuel IH]; intros y m d Hm Hf; cbn [days_down];
    rewrite days_in_month_spec by done; cbn [obind]; pose proof (dimz_range y m Hm) as Hr;
    destruct (decide (d > dimz y m)) as [Hgt|Hgt].
  - lia.
  - rewrite bool_decide_false by done. exists y, m, d. repeat split; try done; lia.
  - rewrite bool_decide_true by done.
    destruct (decide (m = 12)) as [->|Hne].
    + rewrite bool_decide_true by done. rewrite dimz_12 in *.
      destruct (IH (y + 1) 1 (d - 31)) as (y' & m' & d' & H1 & H2 & H3 & H4 & H5 & H6); [lia|lia|].
      exists y', m', d'. split; [done|]. split; [done|]. split; [done|]. split; [|lia].
      rewrite H4. pose proof (dn_next _ _ (next_year y)) as Hn. cbn [dn] in Hn.
      unfold dnum in *. lia.
    + rewrite bool_decide_false by done.
      destruct (IH y (m + 1) (d - dimz y m)) as (y' & m' & d' & H1 & H2 & H3 & H4 & H5 & H6); [lia|lia|].
      exists y', m', d'. split; [done|]. split; [done|]. split; [done|]. split; [|lia].
      rewrite H4.
      assert (Hml : month_length y m (dimz y m)) by (apply month_length_iff; done).
      assert (Hlt : m < 12) by lia.
      pose proof (dn_next _ _ (next_month _ _ _ Hml Hlt)) as Hn. cbn [dn] in Hn.
      unfold dnum in *. lia.
  - rewrite bool_decide_false by done. exists y, m, d. repeat split; try done; lia.
Qed.

Lemma days_up_spec fuel : forall y m d,
  1 <= m <= 12 -> d <= dimz y m -> 1 - d <= Z.of_nat fuel ->
  exists y' m' d', days_up fuel y m d = Val (y', m', d') /\ 1 <= m' <= 12 /\ 1 <= d' <= dimz y' m' /\
    dnum y' m' d' = dnum y m d.
Proof.
  induction fuel as [|fuel IH]; intros y m d Hm Hd Hf; cbn [days_up];
    destruct (decide (d < 1)) as [Hlt|Hlt].
  - lia.
  - rewrite bool_decide_false by done. exists y, m, d. repeat split; try done; lia.
  - rewrite bool_decide_true by done.
    destruct (decide (m = 1)) as [->|Hne].
    + rewrite bool_decide_true by done. rewrite days_in_month_spec by lia. cbn [obind]. rewrite dimz_12.
      destruct (IH (y - 1) 12 (d + 31)) as (y' & m' & d' & H1 & H2 & H3 & H4); [lia|rewrite dimz_12; lia|lia|].
      exists y', m', d'. split; [done|]. split; [done|]. split; [done|].
      rewrite H4. pose proof (dn_next _ _ (next_year (y - 1))) as Hn. cbn [dn] in Hn.
      replace (y - 1 + 1) with y in Hn by lia. unfold dnum in *. lia.
    + rewrite bool_decide_false by done. rewrite days_in_month_spec by lia. cbn [obind].
      pose proof (dimz_range y (m - 1)).
      destruct (IH y (m - 1) (d + dimz y (m - 1))) as (y' & m' & d' & H1 & H2 & H3 & H4); [lia|lia|lia|].
      exists y', m', d'. split; [done|]. split; [done|]. split; [done|].
      rewrite H4.
      assert (Hml : month_length y (m - 1) (dimz y (m - 1))) by (apply month_length_iff; split; [lia|done]).
      assert (Hlt' : m - 1 < 12) by lia.
      pose proof (dn_next _ _ (next_month _ _ _ Hml Hlt')) as Hn. cbn [dn] in Hn.
      replace (m - 1 + 1) with m in Hn by lia. unfold dnum in *. lia.
  - rewrite bool_decide_false by done. exists y, m, d. repeat split; try done; lia.
Qed.

Lemma carry_spec v b : 0 < b -> exists r c, carry v b = (r, c) /\ 0 <= r < b /\ c * b + r = v.
Proof.
  intros Hb. unfold carry.
  destruct (decide (-1 < v /\ v < b)) as [[H1 H2]|H].
  - rewrite !bool_decide_true by lia. exists v, 0. split; [done|]. lia.
  - replace (bool_decide (-1 < v) && bool_decide (v < b)) with false.
    2: { symmetry. apply andb_false_iff. destruct (decide (-1 < v)).
         - right. apply bool_decide_false. lia.
         - left. apply bool_decide_false. lia. }
    do 2 eexists. split; [done|]. pose proof (Z.mod_pos_bound v b Hb). pose proof (Z.div_mod v b). lia.
Qed.

Lemma canonicalize_spec d :
  1 <= date_month d <= 12 ->
  exists d', canonicalize_date d = Val d' /\ valid_date d' /\ micros_of d' = micros_of d /\
    date_zone d' = date_zone d.
Proof.
  intros Hm. unfold canonicalize_date.
  destruct (carry_spec (date_microseconds d) 1000000) as (us & c1 & -> & Hus & Hc1); [lia|].
  destruct (carry_spec (date_seconds d + c1) 60) as (sec & c2 & -> & Hsec & Hc2); [lia|].
  destruct (carry_spec (date_minutes d + c2) 60) as (mi & c3 & -> & Hmi & Hc3); [lia|].
  destruct (carry_spec (date_hours d + c3) 24) as (h & c4 & -> & Hh & Hc4); [lia|].
  destruct (days_down_spec (Z.to_nat (date_day d + c4)) (date_year d) (date_month d) (date_day d + c4))
    as (y1 & m1 & d1 & -> & Hm1 & Hd1 & Hn1 & _); [done|lia|]. cbn [obind].
  destruct (days_up_spec (Z.to_nat (1 - d1)) y1 m1 d1) as (y2 & m2 & d2 & -> & Hm2 & Hd2 & Hn2); [done|done|lia|].
  cbn [obind]. eexists. split; [done|]. unfold valid_date, micros_of, seconds_of. cbn -[Z.mul Z.add Z.sub dnum valid_ymd].
  split; [split; [by apply valid_ymd_iff|repeat split; lia]|].
  split; [|done]. rewrite Hn2, Hn1. unfold dnum. lia.
Qed.

Lemma set_zone_spec d z :
  1 <= date_month d <= 12 ->
  exists d', set_zone d z = Val d' /\ valid_date d' /\ micros_of d' = micros_of d /\ date_zone d' = z.
Proof.
  intros Hm. unfold set_zone.
  destruct (canonicalize_spec (Date (date_year d) (date_month d) (date_day d)
    (date_hours d + (z - date_zone d) / 60) (date_minutes d + (z - date_zone d) mod 60)
    (date_seconds d) (date_microseconds d) (date_zone d))) as (d' & -> & Hv & Hi & Hz); [done|].
  destruct d as [y m dd h mi s us z0], d' as [y' m' dd' h' mi' s' us' z0'].
  cbn [obind date_year date_month date_day date_hours date_minutes date_seconds date_microseconds date_zone] in *.
  eexists. split; [reflexivity|]. split; [exact Hv|]. split; [|reflexivity].
  rewrite micros_eq in Hi. rewrite micros_eq in Hi. rewrite micros_eq. rewrite micros_eq. subst z0'.
  pose proof (Z.div_mod (z - z0) 60) as Hd. revert Hi Hd.
  generalize (dnum y m dd) (dnum y' m' dd') ((z - z0) / 60) ((z - z0) mod 60). intros n n' q r Hi Hd. lia.
Qed.

Lemma make_date_spec d :
  clone_date d = Val d <-> makeable d.
Proof.
  unfold clone_date, make_date, makeable, valid_date.
  destruct (decide (1800 <= date_year d < 2200)) as [Hy|Hy].
  2: { rewrite (bool_decide_false _ Hy). split; [discriminate|]. intros (_ & ? & _). lia. }
  rewrite (bool_decide_true _ Hy). cbn [negb].
  destruct (decide (1 <= date_month d <= 12)) as [Hm|Hm].
  2: { rewrite (bool_decide_false _ Hm). split; [discriminate|]. intros ((Hv & _) & _).
       apply valid_ymd_iff in Hv as [? _]. done. }
  rewrite (bool_decide_true _ Hm). cbn [negb]. rewrite days_in_month_spec by done. cbn [obind].
  rewrite valid_ymd_iff.
  destruct (decide (1 <= date_day d <= dimz (date_year d) (date_month d))) as [Hd|Hd].
  2: { rewrite (bool_decide_false _ Hd). split; [discriminate|]. tauto. }
  rewrite (bool_decide_true _ Hd). cbn [negb].
  destruct (decide (0 <= date_hours d < 24)) as [Hh|Hh].
  2: { rewrite (bool_decide_false _ Hh). split; [discriminate|]. tauto. }
  rewrite (bool_decide_true _ Hh). cbn [negb].
  destruct (decide (0 <= date_minutes d < 60)) as [Hmi|Hmi].
  2: { rewrite (bool_decide_false _ Hmi). split; [discriminate|]. tauto. }
  rewrite (bool_decide_true _ Hmi). cbn [negb].
  destruct (decide (0 <= date_seconds d < 60)) as [Hs|Hs].
  2: { rewrite (bool_decide_false _ Hs). split; [discriminate|]. tauto. }
  rewrite (bool_decide_true _ Hs). cbn [negb].
  destruct (decide (0 <= date_microseconds d < 1000000)) as [Hu|Hu].
  2: { rewrite (bool_decide_false _ Hu). split; [discriminate|]. tauto. }
  rewrite (bool_decide_true _ Hu). cbn [negb].
  destruct (decide (-1440 <= date_zone d <= 1440)) as [Hz|Hz].
  2: { rewrite (bool_decide_false _ Hz). split; [discriminate|]. tauto. }
  rewrite (bool_decide_true _ Hz). cbn [negb].
  split; [tauto|]. intros _. by destruct d.
Qed.

(** Valid dates in the same zone with the same instant have the same fields. *)
Lemma valid_unique d d' :
  valid_date d -> valid_date d' -> micros_of d = micros_of d' -> date_zone d = date_zone d' -> d = d'.
Proof.
  destruct d as [y m dd h mi s us z], d' as [y' m' dd' h' mi' s' us' z'].
  intros (Hv & Hh & Hm & Hs & Hu) (Hv' & Hh' & Hm' & Hs' & Hu') He Hz.
  cbn [date_year date_month date_day date_hours date_minutes date_seconds date_microseconds date_zone] in *.
  rewrite !micros_eq in He. subst z'.
  assert (dnum y m dd = dnum y' m' dd') as Hn.
  { clear Hv Hv'. revert He. generalize (dnum y m dd) (dnum y' m' dd'). intros. lia. }
  destruct (dnum_inj _ _ _ _ _ _ Hv Hv' Hn) as (Ey & Em & Ed).
  rewrite Hn in He. revert He. generalize (dnum y' m' dd'). intros n He. clear Hn Hv Hv'. subst.
  assert (us = us') by lia. assert (s = s') by lia. assert (mi = mi') by lia. assert (h = h') by lia. by subst.
Qed.

Lemma valid_month d : valid_date d -> 1 <= date_month d <= 12.
Proof. intros [Hv _]. apply valid_ymd_iff in Hv. tauto. Qed.

Lemma month_year_id a d : valid_date d -> canonicalize_month_year a d = Val d.
Proof.
  intros Hv. pose proof (valid_month _ Hv) as Hm. destruct Hv as [Hv _].
  apply valid_ymd_iff in Hv as [_ Hd].
  unfold canonicalize_month_year. rewrite !bool_decide_true by lia. cbn [andb].
  rewrite days_in_month_spec by done. cbn [obind]. rewrite bool_decide_true by lia. by destruct d.
Qed.

Lemma add_spec a d x :
  makeable d -> dur_months x = 0 ->
  exists d', add_to_date a d x = Val d' /\ valid_date d' /\ date_zone d' = date_zone d /\
    micros_of d' = micros_of d + dur_length x.
Proof.
  intros Hmk Hx. unfold add_to_date. rewrite (proj2 (make_date_spec d) Hmk). cbn [obind].
  rewrite Hx, Z.add_0_r. destruct Hmk as (Hv & _).
  replace (Date (date_year d) (date_month d) (date_day d) (date_hours d) (date_minutes d) (date_seconds d)
    (date_microseconds d) (date_zone d)) with d by (by destruct d).
  rewrite month_year_id by done. cbn [obind].
  match goal with |- exists d', canonicalize_date ?D = _ /\ _ => destruct (canonicalize_spec D) as (d' & -> & Hv' & Hi & Hz) end.
  { exact (valid_month _ Hv). }
  exists d'. split; [done|]. split; [done|]. split; [done|]. rewrite Hi.
  destruct d as [y m dd h mi s us z], x as [c mo da se mu].
  cbn [date_year date_month date_day date_hours date_minutes date_seconds date_microseconds date_zone
    dur_days dur_seconds dur_microseconds]. rewrite !micros_eq. unfold dur_length.
  cbn [dur_days dur_seconds dur_microseconds]. unfold dnum. clear. lia.
Qed.
Lemma subtract_spec a d x :
  makeable d -> dur_months x = 0 ->
  exists d', subtract_from_date a d x = Val d' /\ valid_date d' /\ date_zone d' = date_zone d /\
    micros_of d' = micros_of d - dur_length x.
Proof.
  intros Hmk Hx. unfold subtract_from_date. rewrite (proj2 (make_date_spec d) Hmk). cbn [obind].
  rewrite Hx, Z.sub_0_r. destruct Hmk as (Hv & _).
  replace (Date (date_year d) (date_month d) (date_day d) (date_hours d) (date_minutes d) (date_seconds d)
    (date_microseconds d) (date_zone d)) with d by (by destruct d).
  rewrite month_year_id by done. cbn [obind].
  match goal with |- exists d', canonicalize_date ?D = _ /\ _ => destruct (canonicalize_spec D) as (d' & -> & Hv' & Hi & Hz) end.
  { exact (valid_month _ Hv). }
  exists d'. split; [done|]. split; [done|]. split; [done|]. rewrite Hi.
  destruct d as [y m dd h mi s us z], x as [c mo da se mu].
  cbn [date_year date_month date_day date_hours date_minutes date_seconds date_microseconds date_zone
    dur_days dur_seconds dur_microseconds]. rewrite !micros_eq. unfold dur_length.
  cbn [dur_days dur_seconds dur_microseconds]. unfold dnum. clear. lia.
Qed.

(** *** Durations *)
Lemma fold_field nb b v w : nb = - b -> 0 < b -> exists v' w',
  (if bool_decide (nb < v) && bool_decide (v < b) then (v, w) else (v mod b, w + v / b)) = (v', w') /\
  w' * b + v' = w * b + v /\ - b < v' < b.
Proof.
  intros -> Hb. destruct (decide (- b < v)) as [H1|H1], (decide (v < b)) as [H2|H2].
  1: rewrite !bool_decide_true by done; cbn [andb]; exists v, w; split; [reflexivity|lia].
  all: match goal with |- context [if ?c then _ else _] => assert (c = false) as -> by
    (apply andb_false_iff; (left; apply bool_decide_false; lia) || (right; apply bool_decide_false; lia)) end;
    exists (v mod b), (w + v / b); split; [reflexivity|];
    pose proof (Z.div_mod v b); pose proof (Z.mod_pos_bound v b Hb); lia.
Qed.
Lemma fix_sign b v w : 0 < b -> - b < v < b -> exists w' v',
  (if same_negative v w || bool_decide (v = 0) || bool_decide (w = 0) then (w, v)
   else if bool_decide (v < 0) then (w - 1, v + b) else (w + 1, v - b)) = (w', v') /\
  w' * b + v' = w * b + v /\ - b < v' < b /\
  (w' = 0 \/ v' = 0 \/ (0 < w' /\ 0 < v') \/ (w' < 0 /\ v' < 0)) /\
  (w = w' \/ (0 < w /\ 0 <= w' < w) \/ (w < 0 /\ w < w' <= 0)) /\
  (w' = 0 -> (w = 0 /\ v' = v) \/ (0 < w /\ 0 < v') \/ (w < 0 /\ v' < 0)).
Proof.
  intros Hb Hv. unfold same_negative.
  destruct (decide (v = 0)) as [E0|E0].
  { rewrite (bool_decide_true (v = 0)) by done. rewrite orb_true_r. cbn [orb].
    exists w, v. split; [reflexivity|]. lia. }
  rewrite (bool_decide_false (v = 0)) by done. rewrite orb_false_r.
  destruct (decide (w = 0)) as [E1|E1].
  { rewrite (bool_decide_true (w = 0)) by done. rewrite orb_true_r.
    exists w, v. split; [reflexivity|]. lia. }
  rewrite (bool_decide_false (w = 0)) by done. rewrite orb_false_r.
  destruct (decide (v < 0)) as [E2|E2]; [rewrite (bool_decide_true (v < 0)) by done|rewrite (bool_decide_false (v < 0)) by done];
  (destruct (decide (w < 0)) as [E3|E3]; [rewrite (bool_decide_true (w < 0)) by done|rewrite (bool_decide_false (w < 0)) by done]);
  cbn [eqb].
  - exists w, v. split; [reflexivity|]. lia.
  - exists (w - 1), (v + b). split; [reflexivity|]. lia.
  - exists (w + 1), (v - b). split; [reflexivity|]. lia.
  - exists w, v. split; [reflexivity|]. lia.
Qed.

(** What canonicalize-duration establishes; the only failure of [canonical] is a zero seconds field
    with days and microseconds of opposite signs. *)
Lemma canonicalize_duration_spec x :
  dur_length (canonicalize_duration x) = dur_length x /\
  dur_class (canonicalize_duration x) = dur_class x /\ dur_months (canonicalize_duration x) = dur_months x /\
  (canonical (canonicalize_duration x) \/
   (dur_seconds (canonicalize_duration x) = 0 /\
    (0 < dur_days (canonicalize_duration x) /\ -1000000 < dur_microseconds (canonicalize_duration x) < 0 \/
     dur_days (canonicalize_duration x) < 0 /\ 0 < dur_microseconds (canonicalize_duration x) < 1000000))).
Proof.
  destruct x as [c mo da se us]. unfold canonicalize_duration.
  cbn [dur_class dur_months dur_days dur_seconds dur_microseconds].
  destruct (fold_field (-1000000) 1000000 us se) as (us1 & se1 & -> & E1 & B1); [reflexivity|lia|].
  destruct (fold_field (-86400) 86400 se1 da) as (se2 & da2 & -> & E2 & B2); [reflexivity|lia|].
  destruct (fix_sign 86400 se2 da2) as (da3 & se3 & -> & E3 & B3 & S3 & _); [lia|lia|].
  destruct (fix_sign 1000000 us1 se3) as (se4 & us4 & -> & E4 & B4 & S4 & M4 & Z4); [lia|lia|].
  unfold canonical, dur_length. cbn [dur_class dur_months dur_days dur_seconds dur_microseconds].
  split; [lia|]. split; [reflexivity|]. split; [reflexivity|]. lia.
Qed.
