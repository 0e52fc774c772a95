(** Proofs about date printing and parsing. *)
From Coq Require Import Bool ZArith Lia ZifyBool ZifyNat.
From Verif Require Import Base NumStrModel DateModel DateSpec DateProofs DateStrModel DateStrSpec.
Local Open Scope Z_scope.
Local Open Scope outcome_scope.
Ltac Zify.zify_post_hook ::= idtac.

(** *** Enumerated facts *)
Definition range_check (lo : Z) (n : nat) (f : Z -> bool) : bool :=
  forallb (fun k => f (lo + Z.of_nat k)) (seq 0 n).
Lemma range_check_spec lo n f v :
  range_check lo n f = true -> lo <= v < lo + Z.of_nat n -> f v = true.
Proof.
  unfold range_check. rewrite forallb_forall. intros H Hv.
  replace v with (lo + Z.of_nat (Z.to_nat (v - lo))) by lia. apply H. apply in_seq. lia.
Qed.
Definition is_val_text (o : outcome text) (t : text) : bool :=
  match o with Val x => bool_decide (x = t) | _ => false end.
Definition is_val_z (o : outcome Z) (v : Z) : bool := match o with Val x => bool_decide (x = v) | _ => false end.
Lemma is_val_text_spec o t : is_val_text o t = true -> o = Val t.
Proof. destruct o; cbn; try discriminate. intros H%bool_decide_eq_true. by subst. Qed.
Lemma is_val_z_spec o v : is_val_z o v = true -> o = Val v.
Proof. destruct o; cbn; try discriminate. intros H%bool_decide_eq_true. by subst. Qed.

Lemma enum_100 :
  range_check 0 100 (fun v => is_val_text (wrap 48 v) (digits 2 v) && is_val_text (wrap 32 v) (blank2 v) &&
    is_val_z (parse_integer (digits 2 v)) v && is_val_z (parse_integer (blank2 v)) v) = true.
Proof. vm_compute. reflexivity. Qed.
Lemma enum_years :
  range_check 1800 400 (fun v => is_val_text (print_integer v) (digits 4 v) &&
    is_val_z (parse_integer (digits 4 v)) v) = true.
Proof. vm_compute. reflexivity. Qed.

Lemma wrap_zero v : 0 <= v < 100 -> wrap 48 v = Val (digits 2 v).
Proof.
  intros Hv. pose proof (range_check_spec _ _ _ v enum_100 ltac:(lia)) as H.
  rewrite !andb_true_iff in H. destruct H as [[[H _] _] _]. by apply is_val_text_spec.
Qed.
Lemma wrap_blank v : 0 <= v < 100 -> wrap 32 v = Val (blank2 v).
Proof.
  intros Hv. pose proof (range_check_spec _ _ _ v enum_100 ltac:(lia)) as H.
  rewrite !andb_true_iff in H. destruct H as [[[_ H] _] _]. by apply is_val_text_spec.
Qed.
Lemma parse_digits2 v : 0 <= v < 100 -> parse_integer (digits 2 v) = Val v.
Proof.
  intros Hv. pose proof (range_check_spec _ _ _ v enum_100 ltac:(lia)) as H.
  rewrite !andb_true_iff in H. destruct H as [[[_ _] H] _]. by apply is_val_z_spec.
Qed.
Lemma parse_blank2 v : 0 <= v < 100 -> parse_integer (blank2 v) = Val v.
Proof.
  intros Hv. pose proof (range_check_spec _ _ _ v enum_100 ltac:(lia)) as H.
  rewrite !andb_true_iff in H. destruct H as [_ H]. by apply is_val_z_spec.
Qed.
Lemma print_year v : 1800 <= v < 2200 -> print_integer v = Val (digits 4 v).
Proof.
  intros Hv. pose proof (range_check_spec _ _ _ v enum_years ltac:(lia)) as H.
  rewrite !andb_true_iff in H. destruct H as [H _]. by apply is_val_text_spec.
Qed.
Lemma parse_year v : 1800 <= v < 2200 -> parse_integer (digits 4 v) = Val v.
Proof.
  intros Hv. pose proof (range_check_spec _ _ _ v enum_years ltac:(lia)) as H.
  rewrite !andb_true_iff in H. destruct H as [_ H]. by apply is_val_z_spec.
Qed.

Lemma digits_length n : forall v, length (digits n v) = n.
Proof. induction n as [|n IH]; intros v; cbn [digits]; [done|]. rewrite app_length, IH. cbn. lia. Qed.
Lemma blank2_length v : length (blank2 v) = 2%nat.
Proof. unfold blank2. destruct (bool_decide (v < 10)); [done|apply digits_length]. Qed.
Lemma format_integer_digits n : forall v, format_integer n v = digits n v.
Proof. induction n as [|n IH]; intros v; cbn; [done|]. by rewrite IH. Qed.

(** *** ISO 8601 parsing *)
Lemma read_integer_snoc n : forall acc s,
  read_integer (S n) acc s = do ' (v, s) <- read_integer n acc s; read_integer 1 v s.
Proof.
  induction n as [|n IH]; intros acc s; [done|].
  cbn [read_integer] in IH |- *. destruct s as [|c s]; [done|].
  destruct (bool_decide (c < 48) || bool_decide (c > 57)); [done|]. apply IH.
Qed.
Lemma read_digits_ok n : forall acc v s,
  0 <= v < 10 ^ Z.of_nat n -> read_integer n acc (digits n v ++ s) = Val (acc * 10 ^ Z.of_nat n + v, s).
Proof.
  induction n as [|n IH]; intros acc v s Hv.
  - cbn in *. do 2 f_equal. lia.
  - rewrite Nat2Z.inj_succ, Z.pow_succ_r in * by lia.
    rewrite read_integer_snoc. cbn [digits]. rewrite <- app_assoc.
    pose proof (Z.mod_pos_bound v 10 ltac:(lia)) as Hm. pose proof (Z.div_mod v 10 ltac:(lia)) as Hd.
    rewrite IH by lia. cbn [obind app read_integer].
    rewrite (bool_decide_false (48 + v mod 10 < 48)), (bool_decide_false (48 + v mod 10 > 57)) by lia. cbn [orb].
    do 2 f_equal. lia.
Qed.

Lemma peek_cons x s c : peek_is (x :: s) c = bool_decide (x = c).
Proof. done. Qed.
Lemma digits_head n v s : exists c t, digits (S n) v ++ s = c :: t /\ 48 <= c <= 57.
Proof.
  revert v s. induction n as [|n IH]; intros v s.
  - cbn. eexists _, _. split; [reflexivity|]. pose proof (Z.mod_pos_bound v 10). lia.
  - cbn [digits]. rewrite <- app_assoc. apply IH.
Qed.
Lemma maybe_skip_ok strict c s : maybe_skip strict c (c :: s) = Val s.
Proof. unfold maybe_skip. rewrite peek_cons, bool_decide_true by done. done. Qed.

Lemma is_zone_digit strict c s : 48 <= c <= 57 -> is_zone strict (c :: s) = (false, c :: s).
Proof.
  intros Hc. unfold is_zone. rewrite peek_cons, (bool_decide_false (c = 32)) by lia. rewrite andb_false_r.
  rewrite !peek_cons, !bool_decide_false by lia. done.
Qed.
Lemma is_zone_other strict c s : c = 58 \/ c = 46 -> is_zone strict (c :: s) = (false, c :: s).
Proof.
  intros Hc. unfold is_zone. rewrite peek_cons, (bool_decide_false (c = 32)) by lia. rewrite andb_false_r.
  rewrite !peek_cons, !bool_decide_false by lia. done.
Qed.
Lemma is_zone_sign strict c s : c = 43 \/ c = 45 -> is_zone strict (c :: s) = (true, c :: s).
Proof.
  intros Hc. unfold is_zone. rewrite peek_cons, (bool_decide_false (c = 32)) by lia. rewrite andb_false_r.
  rewrite !peek_cons. destruct Hc as [-> | ->]; done.
Qed.

Lemma sign_char_cases z : sign_char z = 43 \/ sign_char z = 45.
Proof. unfold sign_char. destruct (bool_decide (z < 0)); auto. Qed.

Lemma read_fraction_ok strict fuel : forall k us p f z s,
  (k <= fuel)%nat -> 0 <= p -> p + Z.of_nat k <= 6 -> 0 <= f < 10 ^ Z.of_nat k ->
  read_fraction fuel strict us p (digits k f ++ sign_char z :: s) =
  Val (us * 10 ^ Z.of_nat k + f, p + Z.of_nat k, sign_char z :: s).
Proof.
  (* the digits are read from the front: generalise over a list of digits with its value *)
  assert (Hgen : forall fuel l us p z s, (length l <= fuel)%nat -> Forall (fun c => 48 <= c <= 57) l ->
    0 <= p -> p + Z.of_nat (length l) <= 6 ->
    read_fraction fuel strict us p (l ++ sign_char z :: s) =
    Val (fold_left (fun a c => 10 * a + c - 48) l us, p + Z.of_nat (length l), sign_char z :: s)).
  { clear. induction fuel as [|fuel IH]; intros l us p z s Hl Hd Hp Hk; destruct l as [|c l]; cbn [length] in *.
    - cbn [read_fraction app]. rewrite is_zone_sign by apply sign_char_cases. cbn. do 3 f_equal. lia.
    - lia.
    - cbn [read_fraction app]. rewrite is_zone_sign by apply sign_char_cases. cbn. do 3 f_equal. lia.
    - inversion Hd as [|? ? Hc Hd']; subst. cbn [read_fraction app]. rewrite is_zone_digit by done.
      rewrite (bool_decide_false (c < 48)), (bool_decide_false (c > 57)), (bool_decide_false (p + 1 > 6)) by lia.
      cbn [orb]. rewrite IH; [|lia|done|lia|lia]. cbn [fold_left]. do 3 f_equal. lia. }
  intros k us p f z s Hk Hp Hp6 Hf.
  rewrite Hgen.
  - rewrite digits_length. do 3 f_equal.
    clear - Hf. revert us f Hf. induction k as [|k IH]; intros us f Hf.
    + cbn in *. lia.
    + rewrite Nat2Z.inj_succ, Z.pow_succ_r in * by lia.
      pose proof (Z.mod_pos_bound f 10 ltac:(lia)) as Hm. pose proof (Z.div_mod f 10 ltac:(lia)) as Hd.
      cbn [digits]. rewrite fold_left_app, IH by lia. cbn [fold_left]. lia.
  - rewrite digits_length. done.
  - clear. revert f. induction k as [|k IH]; intros f; cbn [digits]; [constructor|].
    apply Forall_app_2; [apply IH|]. repeat constructor; pose proof (Z.mod_pos_bound f 10); lia.
  - done.
  - rewrite digits_length. done.
Qed.

Lemma split_zone_ok strict z :
  -1440 <= z <= 1440 ->
  split_zone strict (sign_char z :: digits 2 (Z.abs z / 60) ++ [58] ++ digits 2 (Z.abs z mod 60)) = Val z.
Proof.
  intros Hz. unfold split_zone. rewrite is_zone_sign by apply sign_char_cases. cbn [negb].
  rewrite (bool_decide_false (sign_char z = 122)), (bool_decide_false (sign_char z = 90)) by
    (destruct (sign_char_cases z) as [-> | ->]; lia). cbn [orb].
  pose proof (Z.mod_pos_bound (Z.abs z) 60 ltac:(lia)) as Hm. pose proof (Z.div_mod (Z.abs z) 60 ltac:(lia)) as Hd.
  rewrite read_digits_ok by (cbn; lia). cbn [obind app]. rewrite maybe_skip_ok. cbn [obind].
  rewrite <- (app_nil_r (digits 2 (Z.abs z mod 60))). rewrite read_digits_ok by (cbn; lia). cbn [obind].
  f_equal. unfold sign_char. destruct (decide (z < 0)) as [H|H].
  - rewrite (bool_decide_true _ H), bool_decide_true by done. lia.
  - rewrite (bool_decide_false _ H), bool_decide_false by done. lia.
Qed.

Lemma valid_fields d : makeable d ->
  1 <= date_month d <= 12 /\ 1 <= date_day d <= 31 /\ 0 <= date_hours d < 24 /\ 0 <= date_minutes d < 60 /\
  0 <= date_seconds d < 60 /\ 1800 <= date_year d < 2200 /\ -1440 <= date_zone d <= 1440.
Proof.
  intros ((Hv & Hh & Hm & Hs & _) & Hy & Hz). apply valid_ymd_iff in Hv as [Hmo Hd].
  pose proof (dimz_range (date_year d) (date_month d) Hmo). lia.
Qed.

Lemma parse_iso_ok strict d k f :
  makeable d -> (k <= 6)%nat -> 0 <= f < 10 ^ Z.of_nat k ->
  parse_iso8601_string strict (iso_text d k f) =
  make_date (date_year d) (date_month d) (date_day d) (date_hours d) (date_minutes d) (date_seconds d)
    (f * 10 ^ (6 - Z.of_nat k)) (date_zone d).
Proof.
  intros Hd Hk Hf. pose proof (valid_fields d Hd) as (Hmo & Hda & Hh & Hmi & Hs & Hy & Hz).
  unfold parse_iso8601_string, iso_text.
  rewrite read_digits_ok by (cbn; lia). cbn [obind app]. rewrite maybe_skip_ok. cbn [obind].
  rewrite read_digits_ok by (cbn; lia). cbn [obind app]. rewrite maybe_skip_ok. cbn [obind].
  rewrite read_digits_ok by (cbn; lia). cbn [obind app].
  rewrite (bool_decide_true (84 = 84)) by done. cbn [orb]. unfold split_time.
  rewrite read_digits_ok by (cbn; lia). cbn [obind app]. rewrite maybe_skip_ok. cbn [obind].
  rewrite read_digits_ok by (cbn; lia). cbn [obind app]. rewrite is_zone_other by lia.
  rewrite maybe_skip_ok. cbn [obind].
  rewrite read_digits_ok by (cbn; lia). cbn [obind].
  change (if bool_decide (date_zone d < 0) then 45 else 43) with (sign_char (date_zone d)).
  destruct k as [|k].
  - rewrite (bool_decide_true (0%nat = 0%nat)) by done. cbn [app]. rewrite peek_cons.
    rewrite (bool_decide_false (sign_char _ = 46)) by (destruct (sign_char_cases (date_zone d)) as [-> | ->]; lia).
    cbn [obind]. change (58 :: digits 2 (Z.abs (date_zone d) mod 60)) with ([58] ++ digits 2 (Z.abs (date_zone d) mod 60)).
    rewrite split_zone_ok by done. cbn [obind]. f_equal. cbn in Hf. lia.
  - rewrite (bool_decide_false (S k = 0%nat)) by done. cbn [app]. rewrite peek_cons, bool_decide_true by done.
    cbn [tail].
    change (([sign_char (date_zone d)] ++ digits 2 (Z.abs (date_zone d) / 60) ++ [58] ++ digits 2 (Z.abs (date_zone d) mod 60)))
      with (sign_char (date_zone d) :: digits 2 (Z.abs (date_zone d) / 60) ++ [58] ++ digits 2 (Z.abs (date_zone d) mod 60)).
    rewrite read_fraction_ok; [|cbn [length]; rewrite !app_length, digits_length; lia|lia|lia|done].
    cbn [obind]. rewrite split_zone_ok by done. cbn [obind]. do 2 f_equal.
Qed.

(** *** Formats *)
Lemma month_name_ok m : 1 <= m <= 12 ->
  checked_element short_month_names (m - 1) = Val (default [] (short_month_names !! Z.to_nat (m - 1))).
Proof. intros Hm. months m; vm_compute; reflexivity. Qed.

Lemma zone_parts z : -1440 <= z <= 1440 -> 0 <= Z.abs z / 60 < 100 /\ 0 <= Z.abs z mod 60 < 100.
Proof.
  intros Hz. pose proof (Z.mod_pos_bound (Z.abs z) 60 ltac:(lia)). pose proof (Z.div_mod (Z.abs z) 60 ltac:(lia)). lia.
Qed.

Lemma format_part d p fmt out :
  makeable d -> good_part p ->
  format_loop d (part_text p ++ fmt) false false out = format_loop d fmt false false (out ++ part_out d p).
Proof.
  intros Hd Hp. pose proof (valid_fields d Hd) as (Hmo & Hda & Hh & Hmi & Hs & Hy & Hz).
  pose proof (zone_parts _ Hz) as [Hz1 Hz2].
  destruct p; cbn [part_text app format_loop part_out good_part] in *;
    try (rewrite (bool_decide_false (c = 37)), andb_false_r by done; done);
    rewrite (bool_decide_true (37 = 37)) by done; cbn [andb negb]; unfold format_directive;
    repeat match goal with
      | |- context [bool_decide (?a = ?b)] =>
          (rewrite (bool_decide_true (a = b)) by reflexivity) || (rewrite (bool_decide_false (a = b)) by discriminate)
      end; cbn [andb negb];
    rewrite ?wrap_zero, ?wrap_blank, ?print_year, ?month_name_ok by (done || lia); cbn [obind]; try reflexivity.
Qed.

Lemma format_parts d ps : makeable d -> Forall good_part ps ->
  forall out, format_loop d (format_of ps) false false out = Val (out ++ concat (map (part_out d) ps)).
Proof.
  intros Hd. unfold format_of. induction 1 as [|p ps Hp _ IH]; intros out; cbn [map concat].
  - cbn. by rewrite app_nil_r.
  - rewrite format_part by done. rewrite IH. by rewrite app_assoc.
Qed.

Definition iso_parts : list part :=
  [PYear; Literal 45; PMonth; Literal 45; PDay; Literal 84; PHours; Literal 58; PMinutes; Literal 58; PSeconds; PZoneColon].
Lemma as_iso_ok d : makeable d -> as_iso8601_string d = Val (iso_text d 0 0).
Proof.
  intros Hd. unfold as_iso8601_string, format_date.
  change (codes "%Y-%m-%dT%H:%M:%S%:z") with (format_of iso_parts).
  rewrite format_parts; [|done|repeat constructor; cbn; lia].
  reflexivity.
Qed.

(** *** parse-date-string *)
Lemma read_app t s : read (t ++ s) (length t) = Val (t, s).
Proof.
  unfold read. rewrite bool_decide_true by (rewrite app_length; lia).
  by rewrite take_app, drop_app.
Qed.
Lemma read_n n t s : length t = n -> read (t ++ s) n = Val (t, s).
Proof. intros <-. apply read_app. Qed.
Lemma read_number_ok n t v s : length t = n -> parse_integer t = Val v -> read_number (t ++ s) n = Val (v, s).
Proof. intros Hl Hp. unfold read_number. rewrite read_n by done. cbn [obind]. rewrite Hp. done. Qed.

Lemma parse_month_ok names : forall k i t s,
  NoDup names -> Forall (fun n => length n = length t) names -> names !! k = Some t ->
  parse_month names i (t ++ s) = Val (i + Z.of_nat k + 1, s).
Proof.
  induction names as [|n names IH]; intros k i t s Hnd Hl Hk; [done|].
  apply NoDup_cons in Hnd as [Hni Hnd]. inversion Hl as [|? ? Hn Hl']; subst. cbn [parse_month].
  rewrite read_n by done. cbn [obind]. destruct k as [|k].
  - cbn in Hk. injection Hk as ->. rewrite bool_decide_true by done. do 2 f_equal. lia.
  - cbn in Hk. rewrite bool_decide_false.
    + rewrite (IH k) by done. do 2 f_equal. lia.
    + intros ->. apply Hni. by eapply elem_of_list_lookup_2.
Qed.
Lemma short_names_nodup : NoDup short_month_names.
Proof. apply (bool_decide_unpack (NoDup short_month_names)). vm_compute. exact I. Qed.
Lemma short_names_length : Forall (fun n => length n = 3%nat) short_month_names.
Proof. repeat constructor. Qed.

(** The zone that %z reads back: the minutes are added also when the sign is negative. *)
Definition zone_read (z : Z) : Z := if bool_decide (z < 0) then - (Z.abs z / 60) * 60 + Z.abs z mod 60 else z.

Definition apply_part (d : date) (p : part) (cur : date) : outcome date :=
  match p with
  | PYear => Val (set_year (date_year d) cur)
  | PMonth | PMonthName => Val (set_month (date_month d) cur)
  | PDay | PDaySpace => Val (set_day (date_day d) cur)
  | PHours | PHoursSpace => Val (set_hours (date_hours d) cur)
  | PMinutes => Val (set_minutes (date_minutes d) cur)
  | PSeconds => Val (set_seconds (date_seconds d) cur)
  | PZone | PZoneColon => set_zone cur (zone_read (date_zone d))
  | Literal _ | PNewline | PPercent => Val cur
  end.

Lemma zone_value z : -1440 <= z <= 1440 ->
  exists sg, parse_integer ([sign_char z] ++ [49]) = Val sg /\
    sg * (Z.abs z / 60) * 60 + Z.abs z mod 60 = zone_read z.
Proof.
  intros Hz. unfold sign_char, zone_read. pose proof (Z.div_mod (Z.abs z) 60 ltac:(lia)).
  destruct (bool_decide (z < 0)) eqn:E.
  - exists (-1). split; [vm_compute; reflexivity|]. lia.
  - apply bool_decide_eq_false in E. exists 1. split; [vm_compute; reflexivity|]. lia.
Qed.

Lemma parse_part d p fmt cur s :
  makeable d -> good_part p ->
  parse_loop cur (part_text p ++ fmt) false false (part_out d p ++ s) =
  do cur' <- apply_part d p cur; parse_loop cur' fmt false false s.
Proof.
  intros Hd Hp. pose proof (valid_fields d Hd) as (Hmo & Hda & Hh & Hmi & Hs & Hy & Hz).
  pose proof (zone_parts _ Hz) as [Hz1 Hz2].
  assert (Hname : exists t, short_month_names !! Z.to_nat (date_month d - 1) = Some t /\ length t = 3%nat).
  { destruct (lookup_lt_is_Some_2 short_month_names (Z.to_nat (date_month d - 1))) as [t Ht]; [cbn; lia|].
    exists t. split; [done|]. pose proof short_names_length as Hf. rewrite Forall_lookup in Hf. by eapply Hf. }
  destruct Hname as (t & Ht & Htl).
  destruct p; cbn [part_text app parse_loop part_out good_part apply_part] in *;
    try (rewrite (bool_decide_false (c = 37)), andb_false_r by done; reflexivity);
    rewrite (bool_decide_true (37 = 37)) by done; cbn [andb negb]; unfold parse_directive;
    repeat match goal with
      | |- context [bool_decide (?a = ?b)] =>
          (rewrite (bool_decide_true (a = b)) by reflexivity) || (rewrite (bool_decide_false (a = b)) by discriminate)
      end; cbn [andb negb orb].
  - by rewrite (read_number_ok 4 _ (date_year d)) by (apply digits_length || by apply parse_year).
  - by rewrite (read_number_ok 2 _ (date_month d)) by (apply digits_length || (apply parse_digits2; lia)).
  - rewrite Ht. cbn [from_option]. unfold id. rewrite (parse_month_ok _ (Z.to_nat (date_month d - 1))).
    + cbn [obind]. by replace (0 + Z.of_nat (Z.to_nat (date_month d - 1)) + 1) with (date_month d) by lia.
    + apply short_names_nodup.
    + rewrite Htl. apply short_names_length.
    + done.
  - by rewrite (read_number_ok 2 _ (date_day d)) by (apply digits_length || (apply parse_digits2; lia)).
  - by rewrite (read_number_ok 2 _ (date_day d)) by (apply blank2_length || (apply parse_blank2; lia)).
  - by rewrite (read_number_ok 2 _ (date_hours d)) by (apply digits_length || (apply parse_digits2; lia)).
  - by rewrite (read_number_ok 2 _ (date_hours d)) by (apply blank2_length || (apply parse_blank2; lia)).
  - by rewrite (read_number_ok 2 _ (date_minutes d)) by (apply digits_length || (apply parse_digits2; lia)).
  - by rewrite (read_number_ok 2 _ (date_seconds d)) by (apply digits_length || (apply parse_digits2; lia)).
  - reflexivity.
  - reflexivity.
  - destruct (zone_value _ Hz) as (sg & Hsg & Hv).
    change (sign_char (date_zone d) :: (digits 2 (Z.abs (date_zone d) / 60) ++ digits 2 (Z.abs (date_zone d) mod 60)) ++ s)
      with ([sign_char (date_zone d)] ++ (digits 2 (Z.abs (date_zone d) / 60) ++ digits 2 (Z.abs (date_zone d) mod 60)) ++ s).
    rewrite read_n by done. cbn [obind]. rewrite <- app_assoc. rewrite read_n by apply digits_length. cbn [obind].
    rewrite read_n by apply digits_length. cbn [obind]. rewrite Hsg. cbn [obind].
    rewrite !parse_digits2 by lia. cbn [obind]. rewrite Hv.
    destruct (set_zone cur (zone_read (date_zone d))); reflexivity.
  - destruct (zone_value _ Hz) as (sg & Hsg & Hv).
    change (sign_char (date_zone d) :: (digits 2 (Z.abs (date_zone d) / 60) ++ 58 :: digits 2 (Z.abs (date_zone d) mod 60)) ++ s)
      with ([sign_char (date_zone d)] ++ (digits 2 (Z.abs (date_zone d) / 60) ++ [58] ++ digits 2 (Z.abs (date_zone d) mod 60)) ++ s).
    rewrite read_n by done. cbn [obind]. rewrite <- !app_assoc. rewrite read_n by apply digits_length. cbn [obind].
    rewrite (read_n 1 [58]) by done. cbn [obind].
    rewrite read_n by apply digits_length. cbn [obind]. rewrite Hsg. cbn [obind].
    rewrite !parse_digits2 by lia. cbn [obind]. rewrite Hv.
    destruct (set_zone cur (zone_read (date_zone d))); reflexivity.
Qed.

Fixpoint apply_parts (d : date) (ps : list part) (cur : date) : outcome date :=
  match ps with [] => Val cur | p :: ps => do cur <- apply_part d p cur; apply_parts d ps cur end.

Lemma parse_parts d ps : makeable d -> Forall good_part ps ->
  forall cur s, parse_loop cur (format_of ps) false false (concat (map (part_out d) ps) ++ s) = apply_parts d ps cur.
Proof.
  intros Hd. unfold format_of. induction 1 as [|p ps Hp _ IH]; intros cur s; cbn [map concat apply_parts]; [done|].
  rewrite <- app_assoc, parse_part by done. destruct (apply_part d p cur); cbn [obind]; apply IH || reflexivity.
Qed.

(** Without a zone: each field is the one printed, if any. *)
Definition has (ps : list part) (p : part) : bool := existsb (fun q => match p, q with
  | PYear, PYear | PMonth, (PMonth | PMonthName) | PDay, (PDay | PDaySpace) | PHours, (PHours | PHoursSpace)
  | PMinutes, PMinutes | PSeconds, PSeconds => true | _, _ => false end) ps.
Lemma apply_fields d ps : forall cur, forallb (fun p => negb (is_zone_part p)) ps = true ->
  apply_parts d ps cur = Val (Date
    (if has ps PYear then date_year d else date_year cur)
    (if has ps PMonth then date_month d else date_month cur)
    (if has ps PDay then date_day d else date_day cur)
    (if has ps PHours then date_hours d else date_hours cur)
    (if has ps PMinutes then date_minutes d else date_minutes cur)
    (if has ps PSeconds then date_seconds d else date_seconds cur)
    (date_microseconds cur) (date_zone cur)).
Proof.
  induction ps as [|p ps IH]; intros cur Hz; [by destruct cur|].
  cbn [forallb] in Hz. apply andb_true_iff in Hz as [Hp Hz].
  destruct p; try discriminate Hp; cbn [apply_parts apply_part obind]; rewrite IH by done; unfold has; cbn;
    repeat match goal with |- context [if existsb ?f ps then _ else _] => destruct (existsb f ps) end; reflexivity.
Qed.
Lemma has_all ps : prints_all ps ->
  has ps PYear = true /\ has ps PMonth = true /\ has ps PDay = true /\ has ps PHours = true /\
  has ps PMinutes = true /\ has ps PSeconds = true.
Proof.
  assert (H : forall p q, q ∈ ps -> (match p, q with
    | PYear, PYear | PMonth, (PMonth | PMonthName) | PDay, (PDay | PDaySpace) | PHours, (PHours | PHoursSpace)
    | PMinutes, PMinutes | PSeconds, PSeconds => true | _, _ => false end) = true -> has ps p = true).
  { intros p q Hin He. unfold has. apply existsb_exists. exists q. split; [by apply elem_of_list_In|done]. }
  intros (H1 & H2 & H3 & H4 & H5 & H6). repeat split.
  - by apply (H _ _ H1).
  - by destruct H2 as [H2|H2]; apply (H _ _ H2).
  - by destruct H3 as [H3|H3]; apply (H _ _ H3).
  - by destruct H4 as [H4|H4]; apply (H _ _ H4).
  - by apply (H _ _ H5).
  - by apply (H _ _ H6).
Qed.
Lemma apply_app d ps qs cur :
  apply_parts d (ps ++ qs) cur = do cur <- apply_parts d ps cur; apply_parts d qs cur.
Proof.
  revert cur. induction ps as [|p ps IH]; intros cur; [done|]. cbn [app apply_parts].
  destruct (apply_part d p cur); cbn [obind]; apply IH || reflexivity.
Qed.
