(** C27 and C28: printing and parsing dates. *)
From Coq Require Import Bool ZArith Lia ZifyBool ZifyNat.
From Verif Require Import Base NumStrModel DateModel DateSpec DateProofs DateStrModel DateStrSpec DateStrProofs DateIsoProofs.
Local Open Scope Z_scope.
Local Open Scope outcome_scope.

(** *** C27 *)

(** What as-iso8601-string prints. *)
Theorem C27_print d : makeable d -> as_iso8601_string d = Val (iso_text d 0 0).
Proof. exact (as_iso_ok d). Qed.

(** The parser reads a complete ISO 8601 text, with a fraction of up to six digits, into the date with
    those fields; strict or not. *)
Theorem C27_parse strict d k f :
  makeable d -> (k <= 6)%nat -> 0 <= f < 10 ^ Z.of_nat k ->
  date_microseconds d = f * 10 ^ (6 - Z.of_nat k) ->
  parse_iso8601_string strict (iso_text d k f) = Val d.
Proof.
  intros Hd Hk Hf Hu. rewrite parse_iso_ok by done. rewrite <- Hu. by apply make_date_spec.
Qed.

(** The strict parser accepts exactly the ISO 8601 texts of a date that can be made, and returns that
    date. *)
Theorem C27_strict s d : parse_iso8601_string true s = Val d <-> iso_strict s d /\ makeable d.
Proof. exact (parse_iso_strict s d). Qed.

(** The round trip for every date without microseconds. *)
Theorem C27_round_trip strict d :
  makeable d -> date_microseconds d = 0 ->
  exists s, as_iso8601_string d = Val s /\ parse_iso8601_string strict s = Val d.
Proof.
  intros Hd Hu. exists (iso_text d 0 0). split; [by apply C27_print|]. apply C27_parse; [done|lia|done|lia].
Qed.
(** Microseconds are lost. *)
Theorem C27_microseconds strict d :
  makeable d ->
  exists s, as_iso8601_string d = Val s /\
    parse_iso8601_string strict s =
    Val (Date (date_year d) (date_month d) (date_day d) (date_hours d) (date_minutes d) (date_seconds d) 0 (date_zone d)).
Proof.
  intros Hd. exists (iso_text d 0 0). split; [by apply C27_print|].
  rewrite parse_iso_ok by (done || lia). cbn [Z.of_nat]. rewrite Z.mul_0_l.
  pose proof (proj2 (make_date_spec (Date (date_year d) (date_month d) (date_day d) (date_hours d) (date_minutes d)
    (date_seconds d) 0 (date_zone d)))) as H. apply H.
  destruct Hd as ((Hv & Hh & Hm & Hs & _) & Hy & Hz). repeat split; cbn; try done; lia.
Qed.

(** *** C28 *)

(** What format-date prints for a format of these parts. *)
Theorem C28_print d ps :
  makeable d -> Forall good_part ps ->
  format_date (format_of ps) d = Val (concat (map (part_out d) ps)).
Proof. intros Hd Hps. unfold format_date. by rewrite format_parts. Qed.

(** Without a zone directive: every field printed is read back, the others are those of midnight,
    1 January 1970, zone 0. *)
Theorem C28_fields_partial d ps s :
  makeable d -> Forall good_part ps -> forallb (fun p => negb (is_zone_part p)) ps = true ->
  format_date (format_of ps) d = Val s ->
  exists r, parse_date_string s (format_of ps) = Val r /\
    (PYear ∈ ps -> date_year r = date_year d) /\
    (PMonth ∈ ps \/ PMonthName ∈ ps -> date_month r = date_month d) /\
    (PDay ∈ ps \/ PDaySpace ∈ ps -> date_day r = date_day d) /\
    (PHours ∈ ps \/ PHoursSpace ∈ ps -> date_hours r = date_hours d) /\
    (PMinutes ∈ ps -> date_minutes r = date_minutes d) /\
    (PSeconds ∈ ps -> date_seconds r = date_seconds d) /\
    date_microseconds r = 0 /\ date_zone r = 0.
Proof.
  intros Hd Hps Hz. rewrite C28_print by done. intros [= <-].
  unfold parse_date_string. change (make_date 1970 1 1 0 0 0 0 0) with (Val (Date 1970 1 1 0 0 0 0 0)).
  cbn [obind]. rewrite <- (app_nil_r (concat (map (part_out d) ps))). rewrite parse_parts by done.
  rewrite apply_fields by done. eexists. split; [reflexivity|].
  cbn [date_year date_month date_day date_hours date_minutes date_seconds date_microseconds date_zone].
  assert (H : forall p q, q ∈ ps -> (match p, q with
    | PYear, PYear | PMonth, (PMonth | PMonthName) | PDay, (PDay | PDaySpace) | PHours, (PHours | PHoursSpace)
    | PMinutes, PMinutes | PSeconds, PSeconds => true | _, _ => false end) = true -> has ps p = true).
  { intros p q Hin He. unfold has. apply existsb_exists. exists q. split; [by apply elem_of_list_In|done]. }
  split; [intros Hi; by rewrite (H PYear _ Hi)|].
  split; [intros [Hi|Hi]; by rewrite (H PMonth _ Hi)|].
  split; [intros [Hi|Hi]; by rewrite (H PDay _ Hi)|].
  split; [intros [Hi|Hi]; by rewrite (H PHours _ Hi)|].
  split; [intros Hi; by rewrite (H PMinutes _ Hi)|].
  split; [intros Hi; by rewrite (H PSeconds _ Hi)|]. done.
Qed.
(** Hence a date with zone 0 and no microseconds is read back from any format that prints all fields. *)
Theorem C28_round_trip_partial d ps :
  makeable d -> date_microseconds d = 0 -> date_zone d = 0 ->
  Forall good_part ps -> forallb (fun p => negb (is_zone_part p)) ps = true -> prints_all ps ->
  exists s, format_date (format_of ps) d = Val s /\ parse_date_string s (format_of ps) = Val d.
Proof.
  intros Hd Hu Hz Hps Hnz (H1 & H2 & H3 & H4 & H5 & H6). eexists. split; [by apply C28_print|].
  destruct (C28_fields_partial d ps (concat (map (part_out d) ps))) as (r & -> & R1 & R2 & R3 & R4 & R5 & R6 & R7 & R8);
    [done|done|done|by apply C28_print|].
  f_equal. destruct r, d; cbn in *. f_equal; auto; congruence.
Qed.

(** With the zone printed before all the fields, provided the zone is not negative or is a whole number
    of hours. *)
Theorem C28_zone_first_partial d pre zp post :
  makeable d -> date_microseconds d = 0 -> (0 <= date_zone d \/ date_zone d mod 60 = 0) ->
  Forall good_part pre -> Forall good_part post -> (zp = PZone \/ zp = PZoneColon) ->
  forallb (fun p => negb (is_zone_part p)) pre = true -> forallb (fun p => negb (is_zone_part p)) post = true ->
  prints_all post ->
  exists s, format_date (format_of (pre ++ zp :: post)) d = Val s /\
    parse_date_string s (format_of (pre ++ zp :: post)) = Val d.
Proof.
  intros Hd Hu Hz Hpre Hpost Hzp Hnz1 Hnz2 Hall.
  assert (Hps : Forall good_part (pre ++ zp :: post)).
  { apply Forall_app_2; [done|]. constructor; [by destruct Hzp as [-> | ->]|done]. }
  eexists. split; [by apply C28_print|].
  unfold parse_date_string. change (make_date 1970 1 1 0 0 0 0 0) with (Val (Date 1970 1 1 0 0 0 0 0)).
  cbn [obind]. rewrite <- (app_nil_r (concat (map (part_out d) _))). rewrite parse_parts by done.
  rewrite apply_app, apply_fields by done. cbn [obind apply_parts].
  assert (Hzr : zone_read (date_zone d) = date_zone d).
  { unfold zone_read. destruct (bool_decide (date_zone d < 0)) eqn:E; [|done].
    apply bool_decide_eq_true in E. destruct Hz as [Hz|Hz]; [lia|].
    apply Z.mod_divide in Hz as [k Hk]; [|lia]. rewrite Hk. rewrite Z.abs_mul, (Z.abs_eq 60) by lia.
    rewrite Z.div_mul, Z.mod_mul by lia. lia. }
  assert (Ha : forall cur, apply_part d zp cur = set_zone cur (date_zone d)).
  { intros cur. destruct Hzp as [-> | ->]; cbn [apply_part]; by rewrite Hzr. }
  rewrite Ha.
  pose proof (valid_fields d Hd) as (Hmo & _).
  match goal with |- context [set_zone ?C _] => destruct (set_zone_spec C (date_zone d)) as (c & -> & Hv & Hi & Hzc) end.
  { cbn. destruct (has pre PMonth); [done|lia]. }
  cbn [obind]. rewrite apply_fields by done.
  destruct (has_all post Hall) as (-> & -> & -> & -> & -> & ->).
  apply micros_inj in Hi as [Huc _]; [|apply Hv|cbn; lia].
  cbn [date_microseconds] in Huc. rewrite Huc, Hzc. destruct d; cbn in *. by subst.
Qed.

(** Refuted in general: with the zone at the end the fields are shifted. *)
Theorem C28_zone_last_refuted :
  exists d s r, makeable d /\ date_microseconds d = 0 /\
    format_date (codes "%Y-%m-%d %H:%M:%S %z") d = Val s /\
    parse_date_string s (codes "%Y-%m-%d %H:%M:%S %z") = Val r /\
    (date_hours r, date_zone r) = (date_hours d + 1, date_zone d).
Proof.
  exists (Date 2000 1 1 10 0 0 0 60), (codes "2000-01-01 10:00:00 +0100"), (Date 2000 1 1 11 0 0 0 60).
  split; [by apply make_date_spec|]. repeat split; vm_compute; reflexivity.
Qed.
(** Refuted: a negative zone with minutes is misread even when printed first. *)
Theorem C28_negative_zone_refuted :
  exists d s r, makeable d /\ date_microseconds d = 0 /\
    format_date (codes "%z %Y-%m-%d %H:%M:%S") d = Val s /\
    parse_date_string s (codes "%z %Y-%m-%d %H:%M:%S") = Val r /\
    date_zone d = -330 /\ date_zone r = -270.
Proof.
  exists (Date 2000 1 1 10 0 0 0 (-330)), (codes "-0530 2000-01-01 10:00:00"), (Date 2000 1 1 10 0 0 0 (-270)).
  split; [by apply make_date_spec|]. repeat split; vm_compute; reflexivity.
Qed.
(** Refuted: a full month name at the end of the text, a time printed with %T, a two-digit year. *)
Theorem C28_directives_refuted :
  exists d, makeable d /\ date_microseconds d = 0 /\ date_zone d = 0 /\
    (exists s, format_date (codes "%Y-%d %H:%M:%S %B") d = Val s /\
       parse_date_string s (codes "%Y-%d %H:%M:%S %B") = Signal "incomplete-read"%string) /\
    (exists s r, format_date (codes "%Y-%m-%d %T") d = Val s /\
       parse_date_string s (codes "%Y-%m-%d %T") = Val r /\ date_hours d = 10 /\ date_hours r = 0) /\
    (exists s r, format_date (codes "%y-%m-%d %H:%M:%S") d = Val s /\
       parse_date_string s (codes "%y-%m-%d %H:%M:%S") = Val r /\ date_year d = 1950 /\ date_year r = 2050) /\
    (exists s, format_date (codes "%F") (Date 1950 5 1 10 0 0 999600 0) = Val s /\ s = codes "000").
Proof.
  exists (Date 1950 5 1 10 0 0 0 0). split; [by apply make_date_spec|]. split; [done|]. split; [done|].
  split; [|split; [|split]].
  - exists (codes "1950-01 10:00:00 May"). split; vm_compute; reflexivity.
  - exists (codes "1950-05-01 10:00:00"), (Date 1950 5 1 0 0 0 0 0). repeat split; vm_compute; reflexivity.
  - exists (codes "50-05-01 10:00:00"), (Date 2050 5 1 10 0 0 0 0). repeat split; vm_compute; reflexivity.
  - exists (codes "000"). split; vm_compute; reflexivity.
Qed.

(** Day and month names, and the two standard formats built from them.  The number of the day
    is characterized by C25_day_of_week_epoch and C25_day_of_week_next. *)
Definition day_name (short : bool) (w : Z) : list Z :=
  let n := match w with
    | 0 => "Sunday" | 1 => "Monday" | 2 => "Tuesday" | 3 => "Wednesday" | 4 => "Thursday"
    | 5 => "Friday" | 6 => "Saturday" | _ => "" end%string in
  if short then take 3 (codes n) else codes n.
Definition month_name (short : bool) (m : Z) : list Z :=
  let n := match m with
    | 1 => "January" | 2 => "February" | 3 => "March" | 4 => "April" | 5 => "May" | 6 => "June"
    | 7 => "July" | 8 => "August" | 9 => "September" | 10 => "October" | 11 => "November"
    | 12 => "December" | _ => "" end%string in
  if short then take 3 (codes n) else codes n.

Lemma day_names_ok w : 0 <= w < 7 ->
  checked_element day_names w = Val (day_name false w) /\ checked_element short_day_names w = Val (day_name true w).
Proof.
  intros Hw.
  assert (w = 0 \/ w = 1 \/ w = 2 \/ w = 3 \/ w = 4 \/ w = 5 \/ w = 6) as H by lia.
  repeat destruct H as [-> |H]; try (subst w); vm_compute; done.
Qed.
Lemma month_names_ok m : 1 <= m <= 12 ->
  checked_element month_names (m - 1) = Val (month_name false m) /\
  checked_element short_month_names (m - 1) = Val (month_name true m).
Proof. intros Hm. months m; vm_compute; done. Qed.
Lemma day_of_week_ok d : makeable d -> exists w, day_of_week d = Val w /\ 0 <= w < 7.
Proof.
  intros Hd. destruct (valid_fields d Hd) as (Hm & _). unfold day_of_week.
  rewrite days_since_1900_spec by done. cbn [obind]. eexists. split; [done|]. apply Z.mod_pos_bound. lia.
Qed.

(** The directives that print names, the time and fractions. *)
Theorem C28_print_names d : makeable d ->
  exists w, day_of_week d = Val w /\ 0 <= w < 7 /\
    format_date (codes "%A") d = Val (day_name false w) /\
    format_date (codes "%a") d = Val (day_name true w) /\
    format_date (codes "%B") d = Val (month_name false (date_month d)) /\
    format_date (codes "%b") d = Val (month_name true (date_month d)) /\
    format_date (codes "%y") d = Val (digits 2 (date_year d mod 100)) /\
    format_date (codes "%f") d = Val (digits 6 (date_microseconds d)) /\
    format_date (codes "%T") d =
      Val (digits 2 (date_hours d) ++ [58] ++ digits 2 (date_minutes d) ++ [58] ++ digits 2 (date_seconds d)).
Proof.
  intros Hd. destruct (day_of_week_ok d Hd) as (w & Hw & Hr). exists w. split; [done|]. split; [done|].
  pose proof (valid_fields d Hd) as (Hmo & Hda & Hh & Hmi & Hs & Hy & Hz).
  destruct (day_names_ok w Hr) as [D1 D2]. destruct (month_names_ok _ Hmo) as [M1 M2].
  unfold format_date. cbn -[format_directive].
  unfold format_directive. cbn -[day_of_week checked_element day_names short_day_names month_names short_month_names
    wrap day_name month_name digits].
  rewrite Hw. cbn [obind]. rewrite D1, D2, M1, M2, !wrap_zero by lia. cbn [obind].
  split; [done|]. split; [done|]. split; [done|]. split; [done|].
  split; [|split; [|done]].
  - generalize (date_year d). intros y.
    assert (H1 : (y mod 100) mod 10 = y mod 10).
    { pose proof (Z.div_mod y 100 ltac:(lia)) as E.
      apply (Z.mod_unique _ _ (y / 100 * 10 + (y mod 100) / 10)).
      - left. apply Z.mod_pos_bound. lia.
      - pose proof (Z.div_mod (y mod 100) 10 ltac:(lia)). lia. }
    assert (H2 : ((y mod 100) / 10) mod 10 = (y / 10) mod 10).
    { replace (y / 10) with ((y mod 100) / 10 + (y / 100) * 10) by (rewrite <- Z.div_add by lia; f_equal;
        pose proof (Z.div_mod y 100 ltac:(lia)); lia). by rewrite Z.mod_add. }
    cbn [format_integer digits app]. by rewrite H1, H2.
  - done.
Qed.

Lemma format_parts_app d ps fmt : makeable d -> Forall good_part ps ->
  forall out, format_loop d (format_of ps ++ fmt) false false out =
    format_loop d fmt false false (out ++ concat (map (part_out d) ps)).
Proof.
  intros Hd. unfold format_of. induction 1 as [|p ps Hp _ IH]; intros out; cbn [map concat app].
  - by rewrite app_nil_r.
  - rewrite <- app_assoc, format_part by done. rewrite IH. by rewrite <- app_assoc.
Qed.

(** RFC 1123: "Thu, 29 Feb 2024 03:04:05 +0100"; RFC 822: the same with a two-digit year. *)
Theorem C28_rfc d : makeable d ->
  let rest := [32] ++ digits 2 (date_hours d) ++ [58] ++ digits 2 (date_minutes d) ++ [58] ++
     digits 2 (date_seconds d) ++ [32] ++ [if bool_decide (date_zone d < 0) then 45 else 43] ++
     digits 2 (Z.abs (date_zone d) / 60) ++ digits 2 (Z.abs (date_zone d) mod 60) in
  exists w, day_of_week d = Val w /\ 0 <= w < 7 /\
    as_rfc1123_string d =
      Val (day_name true w ++ [44; 32] ++ digits 2 (date_day d) ++ [32] ++ month_name true (date_month d) ++
           [32] ++ digits 4 (date_year d) ++ rest) /\
    as_rfc822_string d =
      Val (day_name true w ++ [44; 32] ++ digits 2 (date_day d) ++ [32] ++ month_name true (date_month d) ++
           [32] ++ digits 2 (date_year d) ++ rest).
Proof.
  intros Hd rest. subst rest. destruct (day_of_week_ok d Hd) as (w & Hw & Hr). exists w. split; [done|]. split; [done|].
  pose proof (valid_fields d Hd) as (Hmo & Hda & Hh & Hmi & Hs & Hy & Hz).
  destruct (day_names_ok w Hr) as [_ D2]. destruct (month_names_ok _ Hmo) as [_ M2].
  assert (M3 : default [] (short_month_names !! Z.to_nat (date_month d - 1)) = month_name true (date_month d)).
  { pose proof (month_name_ok _ Hmo) as M3. rewrite M2 in M3.
    assert (V : forall A (a b : A), Val a = Val b -> b = a) by congruence. by apply V. }
  assert (Ha : forall fmt out, format_loop d (37 :: 97 :: fmt) false false out =
                 format_loop d fmt false false (out ++ day_name true w)).
  { intros fmt out. cbn -[format_directive format_loop]. cbn [format_loop].
    replace (format_directive d false 97) with (Val (day_name true w)); [done|].
    unfold format_directive. cbn -[day_of_week checked_element short_day_names day_name].
    rewrite Hw. cbn [obind]. by rewrite D2. }
  assert (Hb : forall fmt out, format_loop d (37 :: 121 :: fmt) false false out =
                 format_loop d fmt false false (out ++ digits 2 (date_year d))).
  { done. }
  unfold as_rfc1123_string, as_rfc822_string, format_date. split.
  - change (codes "%a, %d %b %Y %H:%M:%S %z") with (37 :: 97 :: format_of ([Literal 44; Literal 32; PDay; Literal 32;
      PMonthName; Literal 32; PYear; Literal 32; PHours; Literal 58; PMinutes; Literal 58; PSeconds; Literal 32; PZone])).
    rewrite Ha, format_parts; [|done|repeat constructor; cbn; lia].
    cbn [map concat part_out]. rewrite M3. unfold sign_char.
    repeat (rewrite <- app_assoc || cbn [app]). rewrite ?app_nil_r. reflexivity.
  - change (codes "%a, %d %b %y %H:%M:%S %z") with (37 :: 97 :: format_of ([Literal 44; Literal 32; PDay; Literal 32;
      PMonthName; Literal 32]) ++ 37 :: 121 :: format_of [Literal 32; PHours; Literal 58; PMinutes; Literal 58; PSeconds; Literal 32; PZone]).
    rewrite Ha, format_parts_app, Hb, format_parts; [|done|repeat constructor; cbn; lia|done|repeat constructor; cbn; lia].
    cbn [map concat part_out]. rewrite M3. unfold sign_char.
    repeat (rewrite <- app_assoc || cbn [app]). rewrite ?app_nil_r. reflexivity.
Qed.

(** *** Concrete cases *)
Example iso_case :
  as_iso8601_string (Date 2024 2 29 3 4 5 678 (-330)) = Val (codes "2024-02-29T03:04:05-05:30").
Proof. vm_compute. reflexivity. Qed.
Example iso_fraction_case :
  parse_iso8601_string true (codes "1997-07-16T19:20:30.45+01:00") = Val (Date 1997 7 16 19 20 30 450000 60) /\
  iso_text (Date 1997 7 16 19 20 30 450000 60) 2 45 = codes "1997-07-16T19:20:30.45+01:00" /\
  parse_iso8601_string false (codes "19970716 192030 Z") = Val (Date 1997 7 16 19 20 30 0 0).
Proof. vm_compute. done. Qed.
Example rfc1123_case :
  as_rfc1123_string (Date 2024 2 29 3 4 5 0 60) = Val (codes "Thu, 29 Feb 2024 03:04:05 +0100").
Proof. vm_compute. reflexivity. Qed.
Example parts_case :
  let ps := [PDaySpace; Literal 32; PMonthName; PPercent; PYear; PNewline; PHours; Literal 58; PMinutes; PSeconds] in
  Forall good_part ps /\ prints_all ps /\ format_of ps = codes "%e %b%%%Y%n%H:%M%S".
Proof.
  cbn zeta. split; [repeat constructor; cbn; lia|]. split; [|reflexivity].
  unfold prints_all. split; [(rewrite !elem_of_cons; tauto)|]. split; [right; (rewrite !elem_of_cons; tauto)|]. split; [right; (rewrite !elem_of_cons; tauto)|].
  split; [left; (rewrite !elem_of_cons; tauto)|]. split; (rewrite !elem_of_cons; tauto).
Qed.

Print Assumptions C27_print.
Print Assumptions C27_parse.
Print Assumptions C27_round_trip.
Print Assumptions C27_microseconds.
Print Assumptions C28_print.
Print Assumptions C28_fields_partial.
Print Assumptions C28_round_trip_partial.
Print Assumptions C28_zone_first_partial.
Print Assumptions C28_zone_last_refuted.
Print Assumptions C28_negative_zone_refuted.
Print Assumptions C28_directives_refuted.
Print Assumptions C28_print_names.
Print Assumptions C28_rfc.
Print Assumptions C27_strict.
