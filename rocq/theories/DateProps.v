(** C25, C26 and C29: dates, date arithmetic and durations. *)
From Coq Require Import Bool Zbool ZArith Lia ZifyBool ZifyNat.
From Verif Require Import Base NumStrModel DateModel DateSpec DateProofs.
Local Open Scope Z_scope.
Local Open Scope outcome_scope.

Lemma make_day_time_length da h mi s us :
  dur_length (make_day_time da h mi s us) = (da * 86400 + h * 3600 + mi * 60 + s) * 1000000 + us.
Proof.
  unfold make_day_time.
  destruct (canonicalize_duration_spec (Duration DayTime 0 da (s + 60 * (mi + 60 * h)) us)) as [-> _].
  unfold dur_length. cbn [dur_days dur_seconds dur_microseconds]. lia.
Qed.

(** *** C25 *)

(** make(<date>) accepts exactly the calendar dates of 1800 to 2199 with clock fields in range and a
    zone of at most a day, and gives the date with those fields. *)
Theorem C25_make d : clone_date d = Val d <-> makeable d.
Proof. exact (make_date_spec d). Qed.

(** The day number of a calendar date is its distance from 1 January 1900 in steps of one day. *)
Theorem C25_day_number y m d n :
  valid_ymd (y, m, d) -> (days_since_1900 y m d = Val n <-> day_is n (y, m, d)).
Proof. exact (days_since_1900_day y m d n). Qed.

(** Every integer is the number of exactly one calendar date and every date has exactly one number. *)
Theorem C25_one_to_one :
  (forall n, exists x, day_is n x) /\
  (forall n x x', day_is n x -> day_is n x' -> x = x') /\
  (forall x, valid_ymd x -> exists n, day_is n x) /\
  (forall x n n', day_is n x -> day_is n' x -> n = n').
Proof.
  split; [exact day_exists|]. split; [|split].
  - intros n x x' H H'. apply day_is_iff in H as [Hv E], H' as [Hv' E']. apply dn_inj; [done|done|lia].
  - intros x Hv. exists (dn x). by apply day_is_iff.
  - intros x n n' H H'. apply day_is_iff in H as [_ E], H' as [_ E']. lia.
Qed.

(** Later dates have larger numbers. *)
Theorem C25_calendar_order y m d y' m' d' n n' :
  day_is n (y, m, d) -> day_is n' (y', m', d') ->
  (n < n' <-> y < y' \/ (y = y' /\ (m < m' \/ (m = m' /\ d < d')))).
Proof.
  intros H H'. apply day_is_iff in H as [Hv <-], H' as [Hv' <-]. cbn [dn].
  apply valid_ymd_iff in Hv as [Hm Hd], Hv' as [Hm' Hd'].
  pose proof (dnum_year _ _ _ Hm Hd). pose proof (dnum_year _ _ _ Hm' Hd').
  destruct (Z.lt_trichotomy y y') as [Hl|[<-|Hl]].
  - pose proof (jan1_mono _ _ Hl). split; [tauto|]. intros _. lia.
  - destruct (Z.lt_trichotomy m m') as [Hl|[<-|Hl]].
    + pose proof (dnum_month y m m' d d' Hm Hm' Hd Hd' Hl). lia.
    + unfold dnum. lia.
    + pose proof (dnum_month y m' m d' d Hm' Hm Hd' Hd Hl). lia.
  - pose proof (jan1_mono _ _ Hl). split; [lia|]. intros [?|[? _]]; lia.
Qed.

(** The universal date and time name the instant. *)
Theorem C25_universal d :
  valid_date d ->
  exists ud ut, universal d = Val (ud, ut) /\ 0 <= ut < 86400 /\ second_of d (ud * 86400 + ut).
Proof.
  intros Hv. destruct (universal_spec d (valid_month _ Hv)) as (ud & ut & H1 & H2 & H3).
  exists ud, ut. split; [done|]. split; [done|]. apply second_of_iff; [apply Hv|done].
Qed.

(** The day of the week: 1 January 1900 is a Monday and each day is followed by the next week day. *)
Theorem C25_day_of_week_epoch h mi s us z : day_of_week (Date 1900 1 1 h mi s us z) = Val 1.
Proof. reflexivity. Qed.
Theorem C25_day_of_week_next d d' :
  next_day (date_year d, date_month d, date_day d) (date_year d', date_month d', date_day d') ->
  exists w, day_of_week d = Val w /\ 0 <= w < 7 /\ day_of_week d' = Val ((w + 1) mod 7).
Proof.
  intros Hn. pose proof (next_day_valid _ _ Hn) as [Hv Hv']. pose proof (dn_next _ _ Hn) as He. cbn [dn] in He.
  apply valid_ymd_iff in Hv as [Hm _], Hv' as [Hm' _].
  unfold day_of_week. rewrite !days_since_1900_spec by done. cbn [obind]. rewrite He.
  eexists. split; [reflexivity|]. split; [apply Z.mod_pos_bound; lia|].
  f_equal. rewrite <- Z.add_mod_idemp_l by lia. reflexivity.
Qed.

(** Changing the zone of a date keeps the instant (so remembered universal slots stay right), gives
    valid fields, and changing it back gives the date back. *)
Theorem C25_zone d z i :
  valid_date d -> instant_of d i ->
  exists d', set_zone d z = Val d' /\ valid_date d' /\ date_zone d' = z /\ instant_of d' i /\
    universal d' = universal d /\ set_zone d' (date_zone d) = Val d.
Proof.
  intros Hv Hi. apply instant_of_iff in Hi; [|apply Hv]. subst i.
  destruct (set_zone_spec d z (valid_month _ Hv)) as (d' & H1 & H2 & H3 & H4).
  exists d'. split; [done|]. split; [done|]. split; [done|].
  pose proof (micros_inj d' d (proj2 (proj2 (proj2 (proj2 H2)))) (proj2 (proj2 (proj2 (proj2 Hv)))) H3) as Hu.
  split; [apply instant_of_iff; [apply H2|done]|]. split.
  - destruct (universal_spec d (valid_month _ Hv)) as (a & b & -> & Hb & Hs).
    destruct (universal_spec d' (valid_month _ H2)) as (a' & b' & -> & Hb' & Hs').
    destruct Hu as [_ Hu]. assert (a' = a /\ b' = b) as [-> ->]; [lia|done].
  - destruct (set_zone_spec d' (date_zone d) (valid_month _ H2)) as (d2 & -> & Hv2 & Hi2 & Hz2).
    f_equal. apply valid_unique; [done|done|congruence|done].
Qed.

(** Counting n days from 1 January 1900 gives the date numbered n. *)
Theorem C25_from_day_number n :
  exists d, add_to_date Decline (Date 1900 1 1 0 0 0 0 0) (make_day_time n 0 0 0 0) = Val d /\
    day_is n (date_year d, date_month d, date_day d) /\
    (date_hours d, date_minutes d, date_seconds d, date_microseconds d) = (0, 0, 0, 0).
Proof.
  destruct (add_spec Decline (Date 1900 1 1 0 0 0 0 0) (make_day_time n 0 0 0 0)) as (d & H1 & H2 & H3 & H4).
  { apply make_date_spec. reflexivity. }
  { unfold make_day_time. by destruct (canonicalize_duration_spec (Duration DayTime 0 n (0 + 60 * (0 + 60 * 0)) 0)) as (_ & _ & -> & _). }
  exists d. split; [exact H1|]. rewrite make_day_time_length in H4. clear H1.
  destruct d as [y m dd h mi s us z]. rewrite !micros_eq in H4. cbn in H3. subst z.
  destruct H2 as (Hv & Hh & Hmi & Hs & Hu).
  cbn [date_year date_month date_day date_hours date_minutes date_seconds date_microseconds] in *.
  change (dnum 1900 1 1) with 0 in H4.
  assert (E : dnum y m dd = n /\ h = 0 /\ mi = 0 /\ s = 0 /\ us = 0).
  { clear Hv. revert H4. generalize (dnum y m dd). intros. lia. }
  destruct E as (E & -> & -> & -> & ->). split; [|done]. apply day_is_iff. split; [done|exact E].
Qed.

(** *** C26 *)

(** Adding a day/time duration moves the instant by its length and keeps the zone; the result has valid
    fields (its year may be outside the range that make accepts). *)
Theorem C26_add a d x i :
  makeable d -> day_time x -> instant_of d i ->
  exists d', add_to_date a d x = Val d' /\ valid_date d' /\ date_zone d' = date_zone d /\
    instant_of d' (i + dur_length x).
Proof.
  intros Hd [_ Hx] Hi. pose proof (proj1 Hd) as Hv. apply instant_of_iff in Hi; [|apply Hv]. subst i.
  destruct (add_spec a d x Hd Hx) as (d' & H1 & H2 & H3 & H4).
  exists d'. split; [done|]. split; [done|]. split; [done|]. apply instant_of_iff; [apply H2|done].
Qed.
Theorem C26_subtract a d x i :
  makeable d -> day_time x -> instant_of d i ->
  exists d', subtract_from_date a d x = Val d' /\ valid_date d' /\ date_zone d' = date_zone d /\
    instant_of d' (i - dur_length x).
Proof.
  intros Hd [_ Hx] Hi. pose proof (proj1 Hd) as Hv. apply instant_of_iff in Hi; [|apply Hv]. subst i.
  destruct (subtract_spec a d x Hd Hx) as (d' & H1 & H2 & H3 & H4).
  exists d'. split; [done|]. split; [done|]. split; [done|]. apply instant_of_iff; [apply H2|done].
Qed.

(** (d + x) - x = d and (d - x) + x = d, whenever the intermediate date is in the range of years. *)
Theorem C26_add_subtract a d x d' :
  makeable d -> day_time x -> add_to_date a d x = Val d' -> 1800 <= date_year d' < 2200 ->
  subtract_from_date a d' x = Val d.
Proof.
  intros Hd [_ Hx] Ha Hy. destruct (add_spec a d x Hd Hx) as (d1 & H1 & H2 & H3 & H4).
  rewrite Ha in H1. injection H1 as <-.
  assert (Hd' : makeable d') by (split; [done|]; split; [done|]; rewrite H3; apply Hd).
  destruct (subtract_spec a d' x Hd' Hx) as (d2 & -> & Hv2 & Hz2 & Hi2).
  f_equal. apply valid_unique; [done|apply Hd| |congruence]. rewrite Hi2, H4.
  generalize (micros_of d) (dur_length x). intros. lia.
Qed.
Theorem C26_subtract_add a d x d' :
  makeable d -> day_time x -> subtract_from_date a d x = Val d' -> 1800 <= date_year d' < 2200 ->
  add_to_date a d' x = Val d.
Proof.
  intros Hd [_ Hx] Ha Hy. destruct (subtract_spec a d x Hd Hx) as (d1 & H1 & H2 & H3 & H4).
  rewrite Ha in H1. injection H1 as <-.
  assert (Hd' : makeable d') by (split; [done|]; split; [done|]; rewrite H3; apply Hd).
  destruct (add_spec a d' x Hd' Hx) as (d2 & -> & Hv2 & Hz2 & Hi2).
  f_equal. apply valid_unique; [done|apply Hd| |congruence]. rewrite Hi2, H4.
  generalize (micros_of d) (dur_length x). intros. lia.
Qed.

(** The difference of two dates is the distance of their instants. *)
Theorem C26_difference x y i j :
  valid_date x -> valid_date y -> instant_of x i -> instant_of y j ->
  exists t, subtract_dates x y = Val t /\ day_time t /\ dur_length t = i - j.
Proof.
  intros Hx Hy Hi Hj. apply instant_of_iff in Hi; [|apply Hx]. apply instant_of_iff in Hj; [|apply Hy]. subst i j.
  unfold subtract_dates.
  destruct (universal_spec x (valid_month _ Hx)) as (a & b & -> & _ & Hs). cbn [obind].
  destruct (universal_spec y (valid_month _ Hy)) as (a' & b' & -> & _ & Hs'). cbn [obind].
  eexists. split; [reflexivity|]. split.
  - unfold make_day_time, day_time.
    destruct (canonicalize_duration_spec (Duration DayTime 0 (a - a') (b - b' + 60 * (0 + 60 * 0))
      (date_microseconds x - date_microseconds y))) as (_ & -> & -> & _). done.
  - rewrite make_day_time_length. rewrite !micros_split, <- Hs, <- Hs'. clear. lia.
Qed.

(** (d + x) - d has the length of x; it is = to x when x is in canonical form. *)
Theorem C26_add_difference a d x d' :
  makeable d -> day_time x -> add_to_date a d x = Val d' ->
  exists t, subtract_dates d' d = Val t /\ day_time t /\ dur_length t = dur_length x.
Proof.
  intros Hd Hx Ha. pose proof (proj1 Hd) as Hv.
  destruct (C26_add a d x (micros_of d) Hd Hx) as (d1 & H1 & H2 & H3 & H4).
  { apply instant_of_iff; [apply Hv|done]. }
  rewrite Ha in H1. injection H1 as <-.
  destruct (C26_difference d' d (micros_of d + dur_length x) (micros_of d)) as (t & -> & Ht & Hl); [done|done|done| |].
  { apply instant_of_iff; [apply Hv|done]. }
  exists t. split; [done|]. split; [done|]. rewrite Hl. generalize (micros_of d) (dur_length x). intros. lia.
Qed.

(** = and < compare instants to the second: full statement (with microseconds) refuted below. *)
Theorem C26_order_partial x y s t :
  valid_date x -> valid_date y -> second_of x s -> second_of y t ->
  date_equal x y = Val (bool_decide (s = t)) /\ date_less x y = Val (bool_decide (s < t)).
Proof.
  intros Hx Hy Hs Ht. apply second_of_iff in Hs; [|apply Hx]. apply second_of_iff in Ht; [|apply Hy]. subst s t.
  unfold date_equal, date_less.
  destruct (universal_spec x (valid_month _ Hx)) as (a & b & -> & Hb & Hs). cbn [obind].
  destruct (universal_spec y (valid_month _ Hy)) as (a' & b' & -> & Hb' & Hs'). cbn [obind].
  rewrite <- Hs, <- Hs'. clear - Hb Hb'. rewrite <- bool_decide_and, <- bool_decide_and, <- bool_decide_or.
  split; f_equal; apply bool_decide_ext; lia.
Qed.
(** Hence dates with equal microseconds are compared by instant. *)
Theorem C26_order_same_microseconds x y i j :
  valid_date x -> valid_date y -> instant_of x i -> instant_of y j ->
  date_microseconds x = date_microseconds y ->
  date_equal x y = Val (bool_decide (i = j)) /\ date_less x y = Val (bool_decide (i < j)).
Proof.
  intros Hx Hy (s & Hs & ->) (t & Ht & ->) E. destruct (C26_order_partial _ _ _ _ Hx Hy Hs Ht) as [-> ->].
  rewrite E. split; f_equal; apply bool_decide_ext; lia.
Qed.

(** Refuted in full: two dates at different instants are =, and their difference is not zero. *)
Theorem C26_microseconds_refuted :
  ~ (forall x y i j, makeable x -> makeable y -> instant_of x i -> instant_of y j ->
       date_equal x y = Val true -> i = j).
Proof.
  intros H.
  set (x := Date 2000 1 1 0 0 0 0 0). set (y := Date 2000 1 1 0 0 0 1 0).
  assert (Hx : makeable x) by (by apply make_date_spec). assert (Hy : makeable y) by (by apply make_date_spec).
  specialize (H x y (micros_of x) (micros_of y) Hx Hy).
  rewrite !instant_of_iff in H by (apply Hx || apply Hy).
  specialize (H eq_refl eq_refl eq_refl). discriminate H.
Qed.

(** Refuted: (d + x) - d = x, for a duration of one day less five microseconds. *)
Theorem C26_add_difference_equal_refuted :
  ~ (forall d x d' t, makeable d -> (exists da h mi s us, x = make_day_time da h mi s us) ->
       add_to_date Decline d x = Val d' -> subtract_dates d' d = Val t -> duration_equal t x = true).
Proof.
  intros H.
  specialize (H (Date 2000 1 1 0 0 0 0 0) (make_day_time 1 0 0 0 (-5)) (Date 2000 1 1 23 59 59 999995 0)
    (Duration DayTime 0 0 86399 999995)).
  assert (false = true); [|discriminate]. apply H.
  - by apply make_date_spec.
  - by exists 1, 0, 0, 0, (-5).
  - vm_compute. reflexivity.
  - vm_compute. reflexivity.
Qed.

(** Adding months: the month moves by that many months and everything else stays, if that month has
    such a day; otherwise the outcome depends on the handler. *)
Theorem C26_add_months a d x y' m' n :
  makeable d -> year_month x ->
  12 * y' + m' = 12 * date_year d + date_month d + dur_months x -> month_length y' m' n ->
  add_to_date a d x =
    if bool_decide (date_day d <= n) then
      Val (Date y' m' (date_day d) (date_hours d) (date_minutes d) (date_seconds d) (date_microseconds d) (date_zone d))
    else match a with
      | Decline => Signal "date-arithmetic-invalid-day"%string
      | UseLast =>
          Val (Date y' m' n (date_hours d) (date_minutes d) (date_seconds d) (date_microseconds d) (date_zone d))
      | Return =>
          Val (Date y' (m' + 1) (date_day d - n) (date_hours d) (date_minutes d) (date_seconds d)
                 (date_microseconds d) (date_zone d))
      end.
Proof.
  intros Hmk (_ & Hda & Hse & Hus) He Hn. apply month_length_iff in Hn as [Hm' ->].
  pose proof (proj1 Hmk) as Hv. pose proof (valid_month _ Hv) as Hm.
  unfold add_to_date. rewrite (proj2 (make_date_spec d) Hmk). cbn [obind]. rewrite Hda, Hse, Hus.
  unfold canonicalize_month_year. cbn [date_year date_month date_day date_hours date_minutes date_seconds date_microseconds date_zone].
  assert (Hmy : (if bool_decide (-1 < date_month d + dur_months x - 1) && bool_decide (date_month d + dur_months x - 1 < 12)
     then (date_month d + dur_months x, date_year d)
     else ((date_month d + dur_months x - 1) mod 12 + 1, date_year d + (date_month d + dur_months x - 1) / 12)) = (m', y')).
  { destruct (decide (-1 < date_month d + dur_months x - 1)), (decide (date_month d + dur_months x - 1 < 12)).
    1: rewrite !bool_decide_true by done; cbn [andb]; f_equal; lia.
    all: match goal with |- context [if ?c then _ else _] => assert (c = false) as -> by
      (apply andb_false_iff; (left; apply bool_decide_false; lia) || (right; apply bool_decide_false; lia)) end;
      replace (date_month d + dur_months x - 1) with (m' - 1 + (y' - date_year d) * 12) by lia;
      rewrite Z.mod_add, Z.div_add, Z.mod_small, Z.div_small by lia; f_equal; lia. }
  rewrite Hmy. rewrite days_in_month_spec by done. cbn [obind].
  destruct Hv as (Hymd & Hclock). apply valid_ymd_iff in Hymd as [_ Hday].
  assert (Hid : forall y m dd, valid_ymd (y, m, dd) ->
    canonicalize_date (Date y m dd (date_hours d) (date_minutes d) (date_seconds d) (date_microseconds d) (date_zone d)) =
    Val (Date y m dd (date_hours d) (date_minutes d) (date_seconds d) (date_microseconds d) (date_zone d))).
  { intros y m dd Hval. pose proof Hval as Hval'. apply valid_ymd_iff in Hval' as [Hmm _].
    destruct (canonicalize_spec (Date y m dd (date_hours d) (date_minutes d) (date_seconds d) (date_microseconds d) (date_zone d)))
      as (d' & -> & H1 & H2 & H3); [done|]. f_equal. apply valid_unique; [done| |done|done].
    split; [done|]. done. }
  destruct (decide (date_day d <= dimz y' m')) as [Hle|Hgt].
  { rewrite !(bool_decide_true _ Hle). cbn [obind date_year date_month date_day date_hours date_minutes date_seconds date_microseconds date_zone].
    rewrite !Z.add_0_r. apply Hid. apply valid_ymd_iff. lia. }
  rewrite !(bool_decide_false _ Hgt). pose proof (dimz_range y' m' Hm') as Hr. destruct a; cbn [obind].
  - reflexivity.
  - cbn [date_year date_month date_day date_hours date_minutes date_seconds date_microseconds date_zone].
    rewrite !Z.add_0_r. apply Hid. apply valid_ymd_iff. lia.
  - cbn [date_year date_month date_day date_hours date_minutes date_seconds date_microseconds date_zone].
    rewrite !Z.add_0_r.
    pose proof (dimz_range (date_year d) (date_month d) Hm) as Hr0.
    assert (Hlt : m' < 12). { assert (m' <> 12); [|lia]. intros ->. rewrite dimz_12 in Hgt. lia. }
    destruct (canonicalize_spec (Date y' m' (date_day d) (date_hours d) (date_minutes d) (date_seconds d) (date_microseconds d) (date_zone d)))
      as (d' & -> & H1 & H2 & H3); [done|]. f_equal.
    pose proof (dimz_range y' (m' + 1)) as Hr2.
    apply valid_unique; [done| | |done].
    + split; [|done]. apply valid_ymd_iff. cbn. lia.
    + rewrite H2, !micros_eq.
      assert (Hml : month_length y' m' (dimz y' m')) by (apply month_length_iff; done).
      pose proof (dn_next _ _ (next_month _ _ _ Hml Hlt)) as Hnx. cbn [dn] in Hnx.
      assert (E : dnum y' (m' + 1) (date_day d - dimz y' m') = dnum y' m' (date_day d)).
      { unfold dnum in *. lia. }
      rewrite E. reflexivity.
Qed.

(** *** C29 *)

(** Making a duration, and every operation, agrees with the arithmetic of lengths. *)
Theorem C29_make da h mi s us :
  day_time (make_day_time da h mi s us) /\
  dur_length (make_day_time da h mi s us) = (da * 86400 + h * 3600 + mi * 60 + s) * 1000000 + us.
Proof.
  split; [|apply make_day_time_length].
  unfold make_day_time, day_time.
  destruct (canonicalize_duration_spec (Duration DayTime 0 da (s + 60 * (mi + 60 * h)) us)) as (_ & -> & -> & _). done.
Qed.
Lemma clone_day_time x : day_time x -> day_time (clone_duration x) /\ dur_length (clone_duration x) = dur_length x.
Proof.
  intros [Hc Hm]. unfold clone_duration. rewrite Hc.
  destruct (C29_make (dur_days x) 0 0 (dur_seconds x) (dur_microseconds x)) as [H1 H2].
  split; [done|]. rewrite H2. unfold dur_length. clear. lia.
Qed.
Theorem C29_add x y :
  day_time x -> day_time y ->
  exists t, add_durations x y = Val t /\ day_time t /\ dur_length t = dur_length x + dur_length y.
Proof.
  intros Hx Hy. unfold add_durations, same_class. rewrite (proj1 Hx), (proj1 Hy).
  destruct (clone_day_time x Hx) as [[Hc Hm] Hl]. rewrite Hc, Hm, (proj2 Hy).
  eexists. split; [reflexivity|].
  match goal with |- context [canonicalize_duration ?D] => destruct (canonicalize_duration_spec D) as (H1 & H2 & H3 & _) end.
  split; [split; [rewrite H2|rewrite H3]; reflexivity|]. rewrite H1, <- Hl. unfold dur_length.
  cbn [dur_days dur_seconds dur_microseconds]. clear. lia.
Qed.
Theorem C29_subtract x y :
  day_time x -> day_time y ->
  exists t, subtract_durations x y = Val t /\ day_time t /\ dur_length t = dur_length x - dur_length y.
Proof.
  intros Hx Hy. unfold subtract_durations, same_class. rewrite (proj1 Hx), (proj1 Hy).
  destruct (clone_day_time x Hx) as [[Hc Hm] Hl]. rewrite Hc, Hm, (proj2 Hy).
  eexists. split; [reflexivity|].
  match goal with |- context [canonicalize_duration ?D] => destruct (canonicalize_duration_spec D) as (H1 & H2 & H3 & _) end.
  split; [split; [rewrite H2|rewrite H3]; reflexivity|]. rewrite H1, <- Hl. unfold dur_length.
  cbn [dur_days dur_seconds dur_microseconds]. clear. lia.
Qed.
Theorem C29_multiply x k :
  day_time x -> day_time (scale_duration x k) /\ dur_length (scale_duration x k) = k * dur_length x.
Proof.
  intros Hx. unfold scale_duration.
  destruct (clone_day_time x Hx) as [[Hc Hm] Hl]. rewrite Hc, Hm, Z.mul_0_r.
  match goal with |- context [canonicalize_duration ?D] => destruct (canonicalize_duration_spec D) as (H1 & H2 & H3 & _) end.
  split; [split; [rewrite H2|rewrite H3]; reflexivity|]. rewrite H1, <- Hl. unfold dur_length.
  cbn [dur_days dur_seconds dur_microseconds]. clear. lia.
Qed.
(** Year/month durations count months. *)
Theorem C29_year_month ys ms ys' ms' k :
  let x := make_year_month ys ms in let y := make_year_month ys' ms' in
  year_month x /\ dur_months x = 12 * ys + ms /\
  (exists t, add_durations x y = Val t /\ year_month t /\ dur_months t = dur_months x + dur_months y) /\
  (exists t, subtract_durations x y = Val t /\ year_month t /\ dur_months t = dur_months x - dur_months y) /\
  (year_month (scale_duration x k) /\ dur_months (scale_duration x k) = k * dur_months x) /\
  duration_equal x y = bool_decide (dur_months x = dur_months y) /\
  duration_less x y = Val (bool_decide (dur_months x < dur_months y)) /\
  (let '(a, b) := decode_year_month x in dur_months x = 12 * a + b /\ Z.abs b < 12).
Proof.
  cbn zeta. split; [done|]. split; [done|]. split; [|split; [|split; [|split; [|split]]]].
  - eexists. split; [reflexivity|]. split; [repeat split|]. reflexivity.
  - eexists. split; [reflexivity|]. split; [repeat split|]. reflexivity.
  - unfold scale_duration, clone_duration. cbn [dur_class make_year_month dur_months dur_days dur_seconds dur_microseconds].
    rewrite !Z.mul_0_r. split; [repeat split|]. reflexivity.
  - unfold duration_equal. cbn. by rewrite !andb_true_r.
  - reflexivity.
  - unfold decode_year_month. cbn [dur_months make_year_month].
    pose proof (Z.quot_rem' (12 * ys + ms) 12) as H. split; [exact H|].
    pose proof (Z.rem_bound_abs (12 * ys + ms) 12). lia.
Qed.

(** Decoding gives five fields that encode the same duration again. *)
Theorem C29_decode x :
  day_time x ->
  let '(da, h, mi, s, us) := decode_day_time x in
  dur_length x = (da * 86400 + h * 3600 + mi * 60 + s) * 1000000 + us /\ Z.abs mi < 60 /\ Z.abs s < 60.
Proof.
  intros _. unfold decode_day_time, dur_length.
  pose proof (Z.quot_rem' (dur_seconds x) 60) as H1. pose proof (Z.rem_bound_abs (dur_seconds x) 60) as H2.
  pose proof (Z.quot_rem' (Z.quot (dur_seconds x) 60) 60) as H3.
  pose proof (Z.rem_bound_abs (Z.quot (dur_seconds x) 60) 60) as H4.
  lia.
Qed.

(** The fields have one sign and are in range, except when the seconds are zero. *)
Theorem C29_canonical_partial da h mi s us :
  let x := make_day_time da h mi s us in dur_seconds x <> 0 -> canonical x.
Proof.
  cbn zeta. unfold make_day_time.
  match goal with |- context [canonicalize_duration ?D] => destruct (canonicalize_duration_spec D) as (_ & _ & _ & [H|[H _]]) end;
  [done|]. rewrite H. done.
Qed.
(** On canonical durations = and < compare lengths. *)
Theorem C29_order_partial x y :
  day_time x -> day_time y -> canonical x -> canonical y ->
  duration_equal x y = bool_decide (dur_length x = dur_length y) /\
  duration_less x y = Val (bool_decide (dur_length x < dur_length y)).
Proof.
  destruct x as [c mo da se us], y as [c' mo' da' se' us'].
  intros [Hc Hm] [Hc' Hm']. unfold canonical, dur_length, duration_equal, duration_less.
  cbn [dur_class dur_months dur_days dur_seconds dur_microseconds] in *. subst.
  intros Hx Hy. rewrite <- !bool_decide_and, <- !bool_decide_or, <- !bool_decide_and, <- !bool_decide_or.
  split; [|f_equal]; apply bool_decide_ext; lia.
Qed.

(** Refuted in full: two durations of the same length that are not =. *)
Theorem C29_equal_refuted :
  ~ (forall da h mi s us da' h' mi' s' us',
       let x := make_day_time da h mi s us in let y := make_day_time da' h' mi' s' us' in
       dur_length x = dur_length y -> duration_equal x y = true).
Proof.
  intros H. specialize (H 1 0 0 0 (-5) 0 23 59 59 999995). cbv zeta in H.
  assert (E : duration_equal (make_day_time 1 0 0 0 (-5)) (make_day_time 0 23 59 59 999995) = false)
    by (vm_compute; reflexivity).
  rewrite E in H. discriminate H. rewrite !make_day_time_length. reflexivity.
Qed.
(** Refuted: < orders lengths.  One day less five microseconds is not less than itself written as
    23:59:59.999996. *)
Theorem C29_less_refuted :
  ~ (forall da h mi s us da' h' mi' s' us',
       let x := make_day_time da h mi s us in let y := make_day_time da' h' mi' s' us' in
       dur_length x < dur_length y -> duration_less x y = Val true).
Proof.
  intros H. specialize (H 1 0 0 0 (-5) 0 23 59 59 999996). cbv zeta in H.
  assert (E : duration_less (make_day_time 1 0 0 0 (-5)) (make_day_time 0 23 59 59 999996) = Val false)
    by (vm_compute; reflexivity).
  rewrite E in H. discriminate H. rewrite !make_day_time_length. reflexivity.
Qed.
(** Refuted: dividing by an integer divides the length.  Half of a day is nothing. *)
Theorem C29_divide_refuted :
  ~ (forall x k t, day_time x -> k <> 0 -> divide_duration x k = Val t ->
       2 * Z.abs (k * dur_length t - dur_length x) <= Z.abs k).
Proof.
  intros H. specialize (H (make_day_time 1 0 0 0 0) 2 (Duration DayTime 0 0 0 0)).
  assert (E : 2 * Z.abs (2 * dur_length (Duration DayTime 0 0 0 0) - dur_length (make_day_time 1 0 0 0 0)) <= Z.abs 2).
  { apply H; [by apply C29_make|done|vm_compute; reflexivity]. }
  vm_compute in E. by apply E.
Qed.

(** *** Concrete cases *)
Example date_makeable_case : makeable (Date 2024 2 29 23 59 59 999999 (-300)).
Proof. by apply C25_make. Qed.
Example date_refused_case : clone_date (Date 2023 2 29 0 0 0 0 0) = Signal "day of the month"%string.
Proof. reflexivity. Qed.
Example day_number_case : days_since_1900 2000 1 1 = Val 36524.
Proof. reflexivity. Qed.
Example day_number_before_case : days_since_1900 1899 12 31 = Val (-1) /\ days_since_1900 1800 1 1 = Val (-36524).
Proof. done. Qed.
Example add_case :
  add_to_date Decline (Date 2024 2 28 23 59 59 999999 0) (make_day_time 1 0 0 0 1) = Val (Date 2024 3 1 0 0 0 0 0).
Proof. vm_compute. reflexivity. Qed.
Example add_month_case :
  add_to_date UseLast (Date 2024 1 31 0 0 0 0 0) (make_year_month 1 1) = Val (Date 2025 2 28 0 0 0 0 0).
Proof. vm_compute. reflexivity. Qed.
Example canonical_case : day_time (make_day_time (-1) 5 0 0 7) /\ canonical (make_day_time (-1) 5 0 0 7).
Proof. vm_compute. split; [done|]. split; [split; reflexivity|]. split; [split; reflexivity|]. right. repeat split; discriminate. Qed.
Example zone_case : set_zone (Date 2024 3 1 0 10 0 0 0) (-30) = Val (Date 2024 2 29 23 40 0 0 (-30)).
Proof. vm_compute. reflexivity. Qed.

Print Assumptions C25_make.
Print Assumptions C25_day_number.
Print Assumptions C25_one_to_one.
Print Assumptions C25_calendar_order.
Print Assumptions C25_universal.
Print Assumptions C25_day_of_week_epoch.
Print Assumptions C25_day_of_week_next.
Print Assumptions C25_zone.
Print Assumptions C25_from_day_number.
Print Assumptions C26_add.
Print Assumptions C26_subtract.
Print Assumptions C26_add_subtract.
Print Assumptions C26_subtract_add.
Print Assumptions C26_difference.
Print Assumptions C26_add_difference.
Print Assumptions C26_order_partial.
Print Assumptions C26_order_same_microseconds.
Print Assumptions C26_microseconds_refuted.
Print Assumptions C26_add_difference_equal_refuted.
Print Assumptions C26_add_months.
Print Assumptions C29_make.
Print Assumptions C29_add.
Print Assumptions C29_subtract.
Print Assumptions C29_multiply.
Print Assumptions C29_year_month.
Print Assumptions C29_decode.
Print Assumptions C29_canonical_partial.
Print Assumptions C29_order_partial.
Print Assumptions C29_equal_refuted.
Print Assumptions C29_less_refuted.
Print Assumptions C29_divide_refuted.
