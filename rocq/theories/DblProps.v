(** C42: the extended integers of the big-integers library. *)
From Coq Require Import ZifyBool ZifyNat ZifyN Lia.
From Verif Require Import Base IntModel IntSpec IntProofs IntBitsProofs IntGcdProofs.
From Verif Require Import DblModel DblSpec DblProofs DblShiftProofs DblDivProofs DblPowProofs.
Local Open Scope Z_scope.
Local Open Scope outcome_scope.

(** The abstract integer of a given value, for the examples. *)
Definition num_of (v : Z) : num :=
  if bool_decide (- 2 ^ 61 <= v < 2 ^ 61) then Small v
  else Double ((v + 2 ^ 63) mod 2 ^ 64 - 2 ^ 63) (v / 2 ^ 64).

(** *** Every number has one representation, and comparison is that of the numbers *)

Theorem C42_one_representation : forall x y,
  well_formed x -> well_formed y -> value x = value y -> x = y.
Proof. exact value_inj. Qed.
Print Assumptions C42_one_representation.

Theorem C42_every_number : forall v, fits v -> exists x, well_formed x /\ value x = v.
Proof.
  intros v Hv. destruct (decide (representable v)) as [H|H]; [by exists (Small v)|].
  set (l := (v + 2 ^ 63) mod 2 ^ 64 - 2 ^ 63).
  assert (E : value (Double l (v / 2 ^ 64)) = v).
  { cbn [value]. subst l. rewrite <- Zminus_mod_idemp_l. rewrite Z.mod_mod, Zminus_mod_idemp_l by lia.
    replace (v + 2 ^ 63 - 2 ^ 63) with v by lia.
    pose proof (Z.div_mod v (2 ^ 64)). lia. }
  exists (Double l (v / 2 ^ 64)). split; [|done]. cbn [well_formed]. rewrite E. split; [|split; [|done]].
  - pose proof (Z.mod_pos_bound (v + 2 ^ 63) (2 ^ 64)). subst l. dnums. lia.
  - clear E l. unfold fits, word in *. split; [apply Z.div_le_lower_bound|apply Z.div_lt_upper_bound]; lia.
Qed.
Print Assumptions C42_every_number.

Theorem C42_equal : forall x y, well_formed x -> well_formed y ->
  (dequal x y = true <-> value x = value y).
Proof. intros x y Hx Hy. rewrite dequal_spec by done. apply bool_decide_eq_true. Qed.
Print Assumptions C42_equal.

Theorem C42_less : forall x y, well_formed x -> well_formed y ->
  (dless x y = true <-> value x < value y).
Proof. intros x y Hx Hy. rewrite dless_spec by done. apply bool_decide_eq_true. Qed.
Print Assumptions C42_less.

Theorem C42_predicates : forall x, well_formed x ->
  (dzero x = true <-> value x = 0) /\ (dpositive x = true <-> 0 < value x) /\
  (dnegative_p x = true <-> value x < 0) /\ dodd x = Val (Z.odd (value x)).
Proof.
  intros x Hx. rewrite dzero_spec, dpositive_spec, dnegative_p_spec, dodd_spec by done.
  by rewrite !bool_decide_eq_true.
Qed.
Print Assumptions C42_predicates.

(** *** Addition and subtraction *)

(** A sum that is returned is the sum. *)
Theorem C42_add : forall x y r, well_formed x -> well_formed y -> dadd x y = Val r ->
  well_formed r /\ value r = value x + value y.
Proof.
  intros x y r Hx Hy E. destruct (dadd_spec x y Hx Hy) as [[_ (r' & E' & Hr & Hv)]|[E' _]].
  - rewrite E in E'. by injection E' as <-.
  - unfold overflows in E'. congruence.
Qed.
Print Assumptions C42_add.

(** A sum that fits is returned, unless both are negative and it is less than 2^64 away from
    the least double integer; one that does not fit overflows. *)
Theorem C42_add_returns_partial : forall x y, well_formed x -> well_formed y ->
  fits (value x + value y) ->
  0 <= value x \/ 0 <= value y \/ - 2 ^ 127 + 2 ^ 64 - 1 <= value x + value y ->
  returns (dadd x y) (value x + value y).
Proof.
  intros x y Hx Hy Hf H. destruct (dadd_spec x y Hx Hy) as [[_ ?]|[_ Hn]]; [done|]. specialize (Hn Hf). lia.
Qed.
Print Assumptions C42_add_returns_partial.
Theorem C42_add_overflow : forall x y, well_formed x -> well_formed y ->
  ~ fits (value x + value y) -> overflows (dadd x y).
Proof. intros x y Hx Hy Hf. destruct (dadd_spec x y Hx Hy) as [[? _]|[? _]]; done. Qed.
Print Assumptions C42_add_overflow.

(** The high words are added before the carry: sums of two negative numbers that fit overflow. *)
Theorem C42_add_refuted : exists x y, well_formed x /\ well_formed y /\
  fits (value x + value y) /\ overflows (dadd x y).
Proof.
  exists (Double (-1) (- 2 ^ 63)), (Small (-1)).
  repeat split; vm_compute; congruence || (intros [? ?]; congruence).
Qed.
Print Assumptions C42_add_refuted.

Theorem C42_subtract : forall x y r, well_formed x -> well_formed y -> dsub x y = Val r ->
  well_formed r /\ value r = value x - value y.
Proof.
  intros x y r Hx Hy E. destruct (dsub_spec x y Hx Hy) as [[_ (r' & E' & Hr & Hv)]|[E' _]].
  - rewrite E in E'. by injection E' as <-.
  - unfold overflows in E'. congruence.
Qed.
Print Assumptions C42_subtract.
Theorem C42_subtract_returns_partial : forall x y, well_formed x -> well_formed y ->
  fits (value x - value y) ->
  value x < 0 \/ 0 <= value y \/ value x - value y <= 2 ^ 127 - 2 ^ 64 ->
  returns (dsub x y) (value x - value y).
Proof.
  intros x y Hx Hy Hf H. destruct (dsub_spec x y Hx Hy) as [[_ ?]|[_ Hn]]; [done|]. specialize (Hn Hf). lia.
Qed.
Print Assumptions C42_subtract_returns_partial.
Theorem C42_subtract_overflow : forall x y, well_formed x -> well_formed y ->
  ~ fits (value x - value y) -> overflows (dsub x y).
Proof. intros x y Hx Hy Hf. destruct (dsub_spec x y Hx Hy) as [[? _]|[? _]]; done. Qed.
Print Assumptions C42_subtract_overflow.
Theorem C42_subtract_refuted : exists x y, well_formed x /\ well_formed y /\
  fits (value x - value y) /\ overflows (dsub x y).
Proof.
  exists (Double 0 (2 ^ 63 - 1)), (Small (-1)).
  repeat split; vm_compute; congruence || (intros [? ?]; congruence).
Qed.
Print Assumptions C42_subtract_refuted.

(** *** Multiplication *)

(** A product that fits is returned, except zero times a negative number. *)
Theorem C42_multiply_partial : forall x y, well_formed x -> well_formed y ->
  fits (value x * value y) ->
  (value x * value y = 0 -> 0 <= value x /\ 0 <= value y) ->
  returns (dmul x y) (value x * value y).
Proof. exact dmul_exact. Qed.
Print Assumptions C42_multiply_partial.

(** Two immediate integers always multiply. *)
Theorem C42_multiply_integers : forall n m, representable n -> representable m ->
  returns (dmul (Small n) (Small m)) (n * m).
Proof. exact dmul_small. Qed.
Print Assumptions C42_multiply_integers.

(** A product that does not fit may be returned as something else, and zero may overflow. *)
Theorem C42_multiply_refuted :
  (exists x y, well_formed x /\ well_formed y /\ ~ fits (value x * value y) /\ dmul x y = Val (Small 0)) /\
  (exists x, well_formed x /\ overflows (dmul x (Small 0))).
Proof.
  split.
  - exists (Double 0 1), (Double 0 1). repeat split; vm_compute; congruence || (intros [? ?]; congruence).
  - exists (Double 0 (-1)). repeat split; vm_compute; congruence || (intros [? ?]; congruence).
Qed.
Print Assumptions C42_multiply_refuted.

(** *** Negation and absolute value *)

Theorem C42_negative : forall x, well_formed x ->
  (value x <> - 2 ^ 127 -> returns (dnegative x) (- value x)) /\
  (value x = - 2 ^ 127 -> overflows (dnegative x)).
Proof.
  intros x Hx. destruct (dnegative_spec x Hx) as [[Hf H]|[E H]]; split; try done.
  intros E. rewrite E in Hf. dnums. lia.
Qed.
Print Assumptions C42_negative.
Theorem C42_abs : forall x, well_formed x ->
  (value x <> - 2 ^ 127 -> returns (dabs x) (Z.abs (value x))) /\
  (value x = - 2 ^ 127 -> overflows (dabs x)).
Proof.
  intros x Hx. destruct (dabs_spec x Hx) as [[Hf H]|[E H]]; split; try done.
  intros E. rewrite E in Hf. dnums. lia.
Qed.
Print Assumptions C42_abs.

(** *** Shifts *)

Theorem C42_shift_left : forall x s, well_formed x -> 0 <= s < 2 ^ 61 ->
  (fits (value x * 2 ^ s) -> returns (dash x s) (value x * 2 ^ s)) /\
  (~ fits (value x * 2 ^ s) -> overflows (dash x s)).
Proof.
  intros x s Hx Hs. pose proof (dash_spec x s Hx ltac:(lia)) as H. rewrite bool_decide_false in H by lia.
  destruct H as [[? ?]|[? ?]]; done.
Qed.
Print Assumptions C42_shift_left.
Theorem C42_shift_right : forall x s, well_formed x -> 0 < s < 2 ^ 61 ->
  returns (dash x (- s)) (value x / 2 ^ s).
Proof.
  intros x s Hx Hs. pose proof (dash_spec x (- s) Hx ltac:(lia)) as H. rewrite bool_decide_true in H by lia.
  by rewrite Z.opp_involutive in H.
Qed.
Print Assumptions C42_shift_right.
(** The shift by the least integer is an error: its opposite is not an immediate integer. *)
Theorem C42_shift_right_refuted : exists x, well_formed x /\ overflows (dash x (- 2 ^ 61)).
Proof. exists (Small 1). repeat split; vm_compute; congruence. Qed.
Print Assumptions C42_shift_right_refuted.

(** A logical shift shifts 128 bits. *)
Theorem C42_logical_shift_left : forall x s, well_formed x -> 0 <= s < 2 ^ 61 ->
  exists v, fits v /\ (exists k, v = value x * 2 ^ s + k * 2 ^ 128) /\ returns (dlsh x s) v.
Proof. intros. apply dlsh_left_spec; [done|lia]. Qed.
Print Assumptions C42_logical_shift_left.
Theorem C42_logical_shift_right : forall x s, well_formed x -> 0 < s < 2 ^ 61 ->
  returns (dlsh x (- s)) ((value x mod 2 ^ 128) / 2 ^ s).
Proof. exact dlsh_right_spec. Qed.
Print Assumptions C42_logical_shift_right.

(** *** Bits *)

Theorem C42_logical : forall x y, well_formed x -> well_formed y ->
  returns (dlogior x y) (Z.lor (value x) (value y)) /\
  returns (dlogand x y) (Z.land (value x) (value y)) /\
  returns (dlogxor x y) (Z.lxor (value x) (value y)) /\
  returns (dlognot x) (Z.lnot (value x)).
Proof.
  intros x y Hx Hy. split; [by apply dlogior_spec|]. split; [by apply dlogand_spec|].
  split; [by apply dlogxor_spec|]. unfold Z.lnot. rewrite <- Z.sub_1_r. by apply dlognot_spec.
Qed.
Print Assumptions C42_logical.

(** logbit? of a double integer, at any index; for an immediate one see C14. *)
Theorem C42_logbit : forall l h i, well_formed (Double l h) -> 0 <= i ->
  dlogbit i (Double l h) = Val (Z.testbit (value (Double l h)) i).
Proof. intros l h i (_ & Hh & _) Hi. apply dlogbit_double; [by apply word_inw|done]. Qed.
Print Assumptions C42_logbit.

(** integer-length is right up to 64 bits, and wrong for every longer number. *)
Theorem C42_integer_length_partial : forall l h, well_formed (Double l h) ->
  - 2 ^ 64 <= value (Double l h) < 2 ^ 64 -> length_of (value (Double l h)) (dinteger_length l h).
Proof. intros l h Hw. by apply dinteger_length_spec. Qed.
Print Assumptions C42_integer_length_partial.
Theorem C42_integer_length_refuted : forall l h, well_formed (Double l h) ->
  value (Double l h) < - 2 ^ 64 \/ 2 ^ 64 <= value (Double l h) ->
  ~ length_of (value (Double l h)) (dinteger_length l h).
Proof. intros l h Hw. by apply dinteger_length_spec. Qed.
Print Assumptions C42_integer_length_refuted.

(** *** Division *)

(** A nonnegative number by a positive integer: never wrong, and never an overflow when the
    divisor is at most 2^31. *)
Theorem C42_divide_positive_partial : forall low high m,
  well_formed (Double low high) -> 0 <= value (Double low high) -> 0 < m < 2 ^ 61 ->
  let x := Double low high in
  (returns2 (dtruncate x (Small m)) (is_truncate (value x) m) \/ (2 ^ 31 < m /\ overflows (dtruncate x (Small m)))) /\
  (returns2 (dfloor x (Small m)) (is_floor (value x) m) \/ (2 ^ 31 < m /\ overflows (dfloor x (Small m)))) /\
  (returns2 (dceiling x (Small m)) (is_ceiling (value x) m) \/ (2 ^ 31 < m /\ overflows (dceiling x (Small m)))).
Proof.
  intros low high m Hw Hv Hm x.
  assert (0 <= high).
  { destruct (pair_value_neg low high) as [_ Hneg]. cbn [value] in Hv. unfold pair_value in Hneg. lia. }
  assert (representable m) by (dnums; lia).
  split; [|split]; [apply dtruncate_pos|apply dfloor_pos|apply dceiling_pos]; done || lia.
Qed.
Print Assumptions C42_divide_positive_partial.

(** For all signs: floor/ and ceiling/ are right whenever truncate/ is. *)
Theorem C42_floor_ceiling_partial : forall low high m,
  well_formed (Double low high) -> representable m -> m <> 0 ->
  let x := Double low high in
  returns2 (dtruncate x (Small m)) (is_truncate (value x) m) ->
  returns2 (dfloor x (Small m)) (is_floor (value x) m) /\ returns2 (dceiling x (Small m)) (is_ceiling (value x) m).
Proof. intros low high m Hw Hm Hm0 x. by apply floor_from_truncate. Qed.
Print Assumptions C42_floor_ceiling_partial.
Example C42_floor_ceiling_sample :
  dtruncate (num_of (- 2 ^ 62 - 1)) (Small 3) = Val (Small (-1537228672809129301), Small (-2)) /\
  dfloor (num_of (- 2 ^ 62 - 1)) (Small 3) = Val (Small (-1537228672809129302), Small 1) /\
  dtruncate (num_of (2 ^ 64 + 1)) (Small (-3)) = Val (num_of (-6148914691236517205), Small 2) /\
  dfloor (num_of (2 ^ 64 + 1)) (Small (-3)) = Val (num_of (-6148914691236517206), Small (-1)).
Proof. split; [vm_compute; reflexivity|]. split; [vm_compute; reflexivity|]. split; vm_compute; reflexivity. Qed.

(** With a negative number the quotient may be wrong, and a large divisor may overflow although
    every result fits. *)
Theorem C42_divide_refuted :
  dtruncate (num_of (2 ^ 61)) (Small (-1)) = Val (num_of 16140901064495857664, Small 0) /\
  dtruncate (num_of (-2343872160596353879)) (Small 4) =
    Val (Small (-585968044444055765), Small (-3)) /\ Z.quot (-2343872160596353879) 4 = -585968040149088469 /\
  overflows (dtruncate (num_of (2 ^ 127 - 1)) (Small (2 ^ 60))).
Proof. split; [vm_compute; reflexivity|]. split; [vm_compute; reflexivity|]. split; vm_compute; reflexivity. Qed.
Print Assumptions C42_divide_refuted.

(** An integer by a double integer. *)
Theorem C42_divide_by_double_partial : forall n low high,
  representable n -> well_formed (Double low high) ->
  let d := Double low high in
  (~ (n = - 2 ^ 61 /\ value d = 2 ^ 61) -> returns2 (dtruncate (Small n) d) (is_truncate n (value d))) /\
  (~ (n = 0 /\ value d < 0) -> returns2 (dfloor (Small n) d) (is_floor n (value d))) /\
  (~ (n = 0 /\ 0 < value d) -> ~ (n = - 2 ^ 61 /\ value d = 2 ^ 61) ->
     returns2 (dceiling (Small n) d) (is_ceiling n (value d))).
Proof.
  intros n low high Hn Hd d. split; [|split]; intros.
  - by apply dtruncate_by_double.
  - by apply dfloor_by_double.
  - by apply dceiling_by_double.
Qed.
Print Assumptions C42_divide_by_double_partial.
Theorem C42_divide_by_double_refuted :
  dtruncate (Small (- 2 ^ 61)) (num_of (2 ^ 61)) = Val (Small 0, Small (- 2 ^ 61)) /\
  dfloor (Small 0) (num_of (- 2 ^ 62)) = Val (Small (-1), num_of (- 2 ^ 62)) /\
  dceiling (Small 0) (num_of (2 ^ 62)) = Val (Small 1, num_of (- 2 ^ 62)) /\
  dceiling (Small (- 2 ^ 61)) (num_of (2 ^ 61)) = Val (Small 0, Small (- 2 ^ 61)).
Proof. split; [vm_compute; reflexivity|]. split; [vm_compute; reflexivity|]. split; vm_compute; reflexivity. Qed.
Print Assumptions C42_divide_by_double_refuted.

(** modulo and remainder, in the same cases. *)
Theorem C42_remainders_partial : forall low high m,
  well_formed (Double low high) -> 0 <= value (Double low high) -> 0 < m <= 2 ^ 31 ->
  let x := Double low high in
  returns (dmodulo x (Small m)) (value x mod m) /\ returns (dremainder x (Small m)) (value x mod m).
Proof.
  intros low high m Hw Hv Hm x.
  destruct (C42_divide_positive_partial low high m Hw Hv ltac:(lia)) as (T & F & _).
  destruct T as [(q & r & E & Hq & Hr & (E1 & A & B & C))|[? _]]; [|lia].
  destruct F as [(q' & r' & E' & Hq' & Hr' & (E1' & A'))|[? _]]; [|lia].
  split; [unfold dmodulo; fold x in E'; rewrite E'|unfold dremainder; fold x in E; rewrite E]; cbn [obind].
  - exists r'. split; [done|]. split; [done|]. fold x in E1'. apply (Z.mod_unique_pos _ _ (value q')); lia.
  - exists r. split; [done|]. split; [done|]. fold x in E1, B, C. apply (Z.mod_unique_pos _ _ (value q)); [|lia].
    destruct (decide (value x = 0)) as [Ez|]; [|fold x in Hv; lia].
    pose proof (double_big low high Hw) as Hb. fold x in Hb. lia.
Qed.
Print Assumptions C42_remainders_partial.

(** *** Powers and gcd *)

Theorem C42_power_partial : forall b p, well_formed b -> 0 <= p < 2 ^ 61 ->
  Z.abs (value b) < 2 ^ 127 -> Z.abs (value b ^ p) < 2 ^ 127 ->
  returns (dpower b p) (value b ^ p).
Proof. exact dpower_spec. Qed.
Print Assumptions C42_power_partial.
(** Otherwise a power that fits may overflow, and one that does not may be returned wrong. *)
Theorem C42_power_refuted :
  overflows (dpower (Small (-2)) 127) /\ fits ((-2) ^ 127) /\
  dpower (num_of (2 ^ 64)) 2 = Val (Small 0).
Proof. repeat split; vm_compute; congruence. Qed.
Print Assumptions C42_power_refuted.

(** 255 iterations are enough. *)
Theorem C42_gcd_partial : forall fuel n m, (255 <= fuel)%nat ->
  well_formed n -> well_formed m -> value n <> 0 -> value m <> 0 -> value n <> value m ->
  value n <> - 2 ^ 127 -> value m <> - 2 ^ 127 ->
  exists g, is_gcd (value n) (value m) g /\ returns (dgcd fuel n m) g.
Proof.
  intros fuel n m Hf Hn Hm H1 H2 H3 H4 H5. exists (Z.gcd (value n) (value m)).
  split; [|by apply dgcd_spec]. split; [apply Z.gcd_divide_l|]. split; [apply Z.gcd_divide_r|].
  split; [apply Z.gcd_nonneg|]. intros k. apply Z.gcd_greatest.
Qed.
Print Assumptions C42_gcd_partial.
Theorem C42_gcd_refuted : forall fuel,
  dgcd fuel (Small 0) (num_of (- 2 ^ 64)) = Val (num_of (- 2 ^ 64)) /\
  dgcd fuel (num_of (- 2 ^ 64)) (num_of (- 2 ^ 64)) = Val (num_of (- 2 ^ 64)).
Proof. intros fuel. split; reflexivity. Qed.
Print Assumptions C42_gcd_refuted.

(** *** Printing *)

(** The digits printed for a nonnegative number are its decimal digits, without leading zeros. *)
Theorem C42_print_partial : forall fuel x, (39 <= fuel)%nat -> well_formed x -> 0 <= value x ->
  exists ds, number_to_digits fuel x = Val (false, ds) /\ number_of_digits ds = value x /\
    Forall (fun d => 0 <= d < 10) ds /\
    (value x = 0 -> ds = [0]) /\ (0 < value x -> exists d r, ds = d :: r /\ d <> 0).
Proof.
  intros fuel x Hf Hx Hv. unfold number_to_digits. rewrite dnegative_p_spec, bool_decide_false by (done || lia).
  destruct (process_integer_spec fuel x Hx) as (ds & -> & H); [|lia|].
  - pose proof (value_fits x Hx). split; [done|].
    assert (10 ^ 39 <= 10 ^ Z.of_nat fuel) by (apply Z.pow_le_mono_r; lia).
    assert (2 ^ 127 < 10 ^ 39) by done. unfold fits in *. lia.
  - cbn [obind]. by exists ds.
Qed.
Print Assumptions C42_print_partial.

(** Some negative numbers are printed wrong. *)
Theorem C42_print_refuted : exists x ds, well_formed x /\ value x = -42949672959999999999 /\
  number_to_digits 40 x = Val (true, ds) /\ number_of_digits ds <> 42949672959999999999.
Proof.
  exists (num_of (-42949672959999999999)). eexists.
  split; [repeat split; vm_compute; congruence || (intros [? ?]; congruence)|].
  split; [vm_compute; reflexivity|]. split; [vm_compute; reflexivity|]. vm_compute. congruence.
Qed.
Print Assumptions C42_print_refuted.

(** *** Machine words as numbers *)

Theorem C42_word : forall w, word w ->
  (well_formed (wrap_abstract w) /\ value (wrap_abstract w) = w) /\
  (well_formed (wrap_unsigned_abstract w) /\ value (wrap_unsigned_abstract w) = w mod 2 ^ 64) /\
  (well_formed (c_wrap_abstract w) /\ value (c_wrap_abstract w) = w).
Proof.
  intros w Hw. split; [by apply wrap_abstract_spec|]. split; [by apply wrap_unsigned_abstract_spec|].
  by apply c_wrap_abstract_spec.
Qed.
Print Assumptions C42_word.
(** With the C run-time some unsigned words become negative integers. *)
Theorem C42_c_unsigned_word_refuted :
  c_wrap_unsigned_abstract (2 ^ 61) = Small (- 2 ^ 61) /\ (2 ^ 61) mod 2 ^ 64 = 2 ^ 61.
Proof. split; vm_compute; reflexivity. Qed.
Print Assumptions C42_c_unsigned_word_refuted.

(** *** Cases *)

Example numbers_well_formed :
  well_formed (num_of (2 ^ 100)) /\ well_formed (num_of (- 2 ^ 127)) /\ well_formed (num_of 5) /\
  value (num_of (- 3 ^ 75)) = - 3 ^ 75 /\ fits (2 ^ 100 * 3 ^ 10) /\ fits (- 3 ^ 75 * 2 ^ 5).
Proof. repeat split; vm_compute; congruence || (intros [? ?]; congruence). Qed.
Example arithmetic_cases :
  dadd (Small (2 ^ 61 - 1)) (Small 1) = Val (num_of (2 ^ 61)) /\
  dsub (num_of (2 ^ 64)) (num_of (2 ^ 64 - 1)) = Val (Small 1) /\
  dmul (num_of (- 3 ^ 50)) (num_of (3 ^ 29)) = Val (num_of (- 3 ^ 79)) /\
  dnegative (num_of (2 ^ 61)) = Val (Small (- 2 ^ 61)) /\
  dash (Small 5) 100 = Val (num_of (5 * 2 ^ 100)) /\ dash (num_of (- 5 * 2 ^ 100)) (-99) = Val (Small (-10)) /\
  dtruncate (num_of (10 ^ 30)) (Small 7) = Val (num_of (10 ^ 30 / 7), Small (10 ^ 30 mod 7)) /\
  dpower (Small (-3)) 79 = Val (num_of ((-3) ^ 79)) /\
  dgcd 255 (num_of (6 ^ 40)) (num_of (- 10 ^ 30)) = Val (Small (2 ^ 30)) /\
  number_to_digits 39 (num_of 12345678901234567890123) =
    Val (false, [1;2;3;4;5;6;7;8;9;0;1;2;3;4;5;6;7;8;9;0;1;2;3]).
Proof. repeat split; vm_compute; reflexivity. Qed.
