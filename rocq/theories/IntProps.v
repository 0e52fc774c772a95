(** Properties C13, C14, C15: integer arithmetic. *)
From Coq Require Import ZifyBool Lia.
From Verif Require Import Base IntModel IntSpec IntProofs IntBitsProofs IntGcdProofs.
Local Open Scope Z_scope.

(** *** C13: division *)

Theorem C13_floor : forall n d, representable n -> representable d -> d <> 0 ->
  division_ok is_floor n d (int_floor n d).
Proof. exact int_floor_spec. Qed.
Print Assumptions C13_floor.

Theorem C13_ceiling : forall n d, representable n -> representable d -> d <> 0 ->
  division_ok is_ceiling n d (int_ceiling n d).
Proof. exact int_ceiling_spec. Qed.
Print Assumptions C13_ceiling.

Theorem C13_truncate : forall n d, representable n -> representable d -> d <> 0 ->
  division_ok is_truncate n d (int_truncate n d).
Proof. exact int_truncate_spec. Qed.
Print Assumptions C13_truncate.

(** The quotient leaves the 62-bit range only for $minimum-integer divided by -1. *)
Theorem C13_overflow_only_at_minimum : forall n d q r,
  representable n -> d <> 0 ->
  is_floor n d q r \/ is_ceiling n d q r \/ is_truncate n d q r \/ is_round n d q r ->
  ~ representable q -> n = - 2 ^ 61 /\ d = -1.
Proof.
  unfold representable, is_floor, is_ceiling, is_truncate, is_round. rewrite !p61.
  intros n d q r Hn Hd H Hq.
  assert (Hb : q < -2305843009213693952 \/ 2305843009213693952 <= q) by lia.
  assert (Hr : n = q * d + r /\ Z.abs r < Z.abs d) by lia. destruct Hr as [E Hr].
  destruct (Z_lt_le_dec d 0) as [Hd0|Hd0].
  - destruct (decide (d = -1)) as [->|]; [lia|]. exfalso. nia.
  - destruct (decide (d = 1)) as [->|]; [lia|]. exfalso. nia.
Qed.
Print Assumptions C13_overflow_only_at_minimum.

Theorem C13_modulo_remainder : forall n d, representable n -> representable d -> d <> 0 ->
  (exists q r, is_floor n d q r /\ int_modulo n d = Val r) /\
  (exists q r, is_truncate n d q r /\ int_remainder n d = Val r).
Proof.
  intros n d Hn Hd H0. split.
  - exists (n / d), (n mod d). rewrite int_modulo_spec by done. split; [|done].
    pose proof (Z.div_mod n d H0). split; [lia|].
    destruct (Z_lt_le_dec d 0).
    + pose proof (Z.mod_neg_bound n d). lia.
    + pose proof (Z.mod_pos_bound n d). lia.
  - exists (Z.quot n d), (Z.rem n d). rewrite int_remainder_spec by done. split; [|done].
    pose proof (rem_facts n d H0) as (E & A & P & N). repeat split; auto; intros; lia.
Qed.
Print Assumptions C13_modulo_remainder.

(** round/ violates its rule: 3 divided by 1 gives 4 and -1; 4 divided by 3 gives 2 and -2. *)
Theorem C13_round_refuted :
  int_round 3 1 = Val (4, -1) /\ int_round 4 3 = Val (2, -2) /\
  ~ (forall n d, representable n -> representable d -> d <> 0 ->
       division_ok is_round n d (int_round n d)).
Proof.
  split; [vm_compute; reflexivity|]. split; [vm_compute; reflexivity|]. intros H.
  destruct (H 3 1) as (q & r & (E & A & P) & _ & Ho); [by vm_compute| by vm_compute|lia|].
  assert (Hv : int_round 3 1 = Val (4, -1)) by (vm_compute; reflexivity). rewrite Hv in Ho.
  destruct Ho as [[_ Ho]|[_ Ho]]; [|done]. injection Ho as <- <-. lia.
Qed.
Print Assumptions C13_round_refuted.

(** What is missing is the case of an odd divisor with an odd truncated quotient and a
    remainder of exactly (|d| - 1) / 2, where round/ rounds away.  [n = q*d + r] always holds. *)
Theorem C13_round_partial : forall n d, representable n -> representable d -> d <> 0 ->
  (exists q r, n = q * d + r /\ Z.abs r <= Z.abs d /\
     (int_round n d = Val (q, r) \/ int_round n d = Signal "arithmetic-overflow-error"%string)) /\
  ((Z.even d = true \/ Z.even (Z.quot n d) = true \/ 2 * Z.abs (Z.rem n d) + 1 <> Z.abs d) ->
   division_ok is_round n d (int_round n d)).
Proof.
  intros n d Hn Hd H0. destruct (word_round_spec n d Hn Hd H0) as (q & r & E & Eq & Hr & Hq & Hrule).
  assert (Hrw : inw r) by (nums; lia). assert (Hqw : inw q) by (nums; lia).
  split.
  - exists q, r. split; [done|]. split; [done|]. unfold int_round, int_division.
    rewrite !coerce_to_word_spec. cbn [obind]. rewrite E. cbn [obind].
    rewrite !coerce_to_integer_spec by done. unfold exact_or_overflow.
    repeat case_bool_decide; cbn [obind]; auto.
  - intros H. apply (division_finish word_round is_round n d q r); try done; [by apply Hrule|].
    destruct (Hrule H) as (_ & Hb & _). lia.
Qed.
Print Assumptions C13_round_partial.

Example division_cases :
  int_floor (-7) 2 = Val (-4, 1) /\ int_ceiling (-7) 2 = Val (-3, -1) /\
  int_truncate (-7) 2 = Val (-3, -1) /\ int_round (-7) 2 = Val (-4, 1) /\
  int_floor 7 (-2) = Val (-4, -1) /\ int_round 5 2 = Val (2, 1) /\
  int_modulo (-7) 2 = Val 1 /\ int_remainder (-7) 2 = Val (-1) /\
  int_truncate (- 2 ^ 61) (-1) = overflow.
Proof. by vm_compute. Qed.

(** *** C14: exact or overflow *)

Theorem C14_exact_or_overflow : forall x y, representable x -> representable y ->
  int_add x y = exact_or_overflow (x + y) /\
  int_sub x y = exact_or_overflow (x - y) /\
  int_mul x y = exact_or_overflow (x * y) /\
  int_negative x = exact_or_overflow (- x) /\
  int_abs x = exact_or_overflow (Z.abs x).
Proof.
  intros x y Hx Hy. split; [by apply int_add_spec|]. split; [by apply int_sub_spec|].
  split; [by apply int_mul_spec|]. split; [by apply int_negative_spec|]. by apply int_abs_spec.
Qed.
Print Assumptions C14_exact_or_overflow.

Theorem C14_range : min_integer = - 2 ^ 61 /\ max_integer = 2 ^ 61 - 1.
Proof. split; [exact min_integer_eq|exact max_integer_eq]. Qed.
Print Assumptions C14_range.

(** Arithmetic shift, for every shift except $minimum-integer itself. *)
Theorem C14_ash : forall x s, representable x -> representable s -> s <> - 2 ^ 61 ->
  (s < 0 -> int_ash x s = Val (x / 2 ^ (- s))) /\
  (0 <= s -> int_ash x s = exact_or_overflow (x * 2 ^ s)).
Proof.
  intros x s Hx Hs Hm. rewrite int_ash_spec by (done || unfold representable in *; lia).
  split; intros.
  - by rewrite bool_decide_true.
  - by rewrite bool_decide_false by lia.
Qed.
Print Assumptions C14_ash.

(** Shifting right by -$minimum-integer places signals although the result, 0, is exact. *)
Theorem C14_ash_minimum_refuted : int_ash 5 (- 2 ^ 61) = overflow.
Proof. vm_compute. reflexivity. Qed.
Print Assumptions C14_ash_minimum_refuted.

Theorem C14_comparison : forall x y,
  int_equal x y = bool_decide (x = y) /\ int_less x y = bool_decide (x < y).
Proof. intros. unfold int_equal, int_less, tag. split; apply bool_decide_ext; lia. Qed.
Print Assumptions C14_comparison.

(** Bitwise operations are those of infinite two's complement. *)
Theorem C14_bitwise : forall x y, representable x -> representable y ->
  int_logior x y = Z.lor x y /\ int_logand x y = Z.land x y /\
  int_logxor x y = Z.lxor x y /\ int_lognot x = Z.lnot x.
Proof.
  intros x y Hx Hy. split; [apply int_logior_spec|]. split; [apply int_logand_spec|].
  split; [by apply int_logxor_spec|by apply int_lognot_spec].
Qed.
Print Assumptions C14_bitwise.

Theorem C14_bit_access : forall x i, representable x -> 0 <= i < 62 ->
  int_logbit i x = Val (Z.testbit x i) /\
  forall z, exists r, int_logbit_deposit z i x = Val r /\ representable r /\
    forall j, 0 <= j < 62 -> Z.testbit r j = if bool_decide (j = i) then z else Z.testbit x j.
Proof.
  intros x i Hx Hi. split; [by apply int_logbit_spec|]. intros z. by apply int_logbit_deposit_spec.
Qed.
Print Assumptions C14_bit_access.

Theorem C14_bit_fields : forall x o s, representable x -> 0 <= o < 62 -> 0 <= s -> o + s <= 62 ->
  (s < 62 -> int_bit_field_extract o s x = Val ((x / 2 ^ o) mod 2 ^ s)) /\
  forall f, representable f -> 0 <= f < 2 ^ s ->
    exists r, int_bit_field_deposit f o s x = Val r /\ representable r /\
      forall j, 0 <= j < 62 ->
        Z.testbit r j = if bool_decide (o <= j < o + s) then Z.testbit f (j - o) else Z.testbit x j.
Proof.
  intros x o s Hx Ho Hs Hos. split.
  - intros. apply int_bit_field_extract_spec; done || lia.
  - intros f Hf Hfb. by apply int_bit_field_deposit_spec.
Qed.
Print Assumptions C14_bit_fields.

(** A field wider than its size is not cut: it spills over the neighbouring bits. *)
Theorem C14_bit_field_deposit_wide_refuted : int_bit_field_deposit 3 0 1 0 = Val 3.
Proof. vm_compute. reflexivity. Qed.
Print Assumptions C14_bit_field_deposit_wide_refuted.

(** Looking at a bit beyond the word is undefined in the compiled code (a shift by 64). *)
Theorem C14_logbit_beyond_refuted : int_logbit 62 (-1) = UB.
Proof. vm_compute. reflexivity. Qed.
Print Assumptions C14_logbit_beyond_refuted.

(** Logical shift: bits move by [s] places inside the 62-bit word, zeroes come in. *)
Theorem C14_lsh : forall x s, representable x -> representable s -> s <> - 2 ^ 61 ->
  exists r, int_lsh x s = Val r /\ representable r /\
    forall j, 0 <= j < 62 ->
      Z.testbit r j = if bool_decide (0 <= j - s < 62) then Z.testbit x (j - s) else false.
Proof.
  intros x s Hx Hs Hm. apply int_lsh_spec; [done|]. unfold representable in *. lia.
Qed.
Print Assumptions C14_lsh.

Example arithmetic_cases :
  int_add (2 ^ 61 - 1) 1 = overflow /\ int_add (2 ^ 61 - 2) 1 = Val (2 ^ 61 - 1) /\
  int_mul (- 2 ^ 31) (2 ^ 30) = Val (- 2 ^ 61) /\ int_mul (2 ^ 31) (2 ^ 30) = overflow /\
  int_abs (- 2 ^ 61) = overflow /\ int_ash (-3) 59 = Val (-3 * 2 ^ 59) /\
  int_ash (-5) (-1) = Val (-3) /\ int_ash 1 64 = overflow /\
  int_logxor (-6) 3 = -7 /\ int_bit_field_extract 2 3 (-9) = Val 5 /\
  int_bit_field_deposit 2 1 3 (-1) = Val (-11) /\ int_lsh (-1) (-60) = Val 3.
Proof. by vm_compute. Qed.

(** *** C15: exponentiation, gcd, lcm *)

(** Exact or overflow, for a base that is not $minimum-integer and a result that is not
    $minimum-integer when the base is negative. *)
Theorem C15_power_partial : forall b p, representable b -> representable p -> 0 <= p ->
  (b < 0 -> b <> - 2 ^ 61 /\ b ^ p <> - 2 ^ 61) ->
  int_power b p = exact_or_overflow (b ^ p).
Proof. intros. by apply int_power_spec. Qed.
Print Assumptions C15_power_partial.

(** In those excluded cases a representable result is reported as overflow. *)
Theorem C15_power_minimum_refuted :
  int_power (-2) 61 = overflow /\ representable ((-2) ^ 61) /\
  int_power (- 2 ^ 61) 1 = overflow /\ representable ((- 2 ^ 61) ^ 1).
Proof. unfold representable. split; [by vm_compute|]. split; [by vm_compute|]. by vm_compute. Qed.
Print Assumptions C15_power_minimum_refuted.

Theorem C15_negative_power : forall b p, p < 0 -> int_power b p = Signal "negative power"%string.
Proof. intros. unfold int_power. by rewrite bool_decide_true. Qed.
Print Assumptions C15_negative_power.

(** gcd for arguments that are not negative, and for any two different nonzero arguments
    other than $minimum-integer. *)
Theorem C15_gcd_partial : forall n m, representable n -> representable m ->
  (0 <= n /\ 0 <= m) \/ (n <> 0 /\ m <> 0 /\ n <> m /\ n <> - 2 ^ 61 /\ m <> - 2 ^ 61) ->
  exists g, int_gcd n m = Val g /\ is_gcd n m g.
Proof.
  intros n m Hn Hm H. exists (Z.gcd n m). split; [|apply is_gcd_Zgcd].
  destruct H as [[? ?]|(?&?&?&?&?)]; [by apply int_gcd_nonneg|by apply int_gcd_spec].
Qed.
Print Assumptions C15_gcd_partial.

(** Otherwise the "greatest common divisor" can be negative, or an overflow is signalled. *)
Theorem C15_gcd_refuted :
  int_gcd 0 (-5) = Val (-5) /\ int_gcd (-3) (-3) = Val (-3) /\ int_gcd (- 2 ^ 61) 6 = overflow.
Proof. by vm_compute. Qed.
Print Assumptions C15_gcd_refuted.

(** lcm for arguments that are not negative and not both zero. *)
Theorem C15_lcm_partial : forall n m, representable n -> representable m ->
  0 <= n -> 0 <= m -> 0 < n \/ 0 < m ->
  exists l, is_lcm n m l /\ int_lcm n m = exact_or_overflow l.
Proof.
  intros n m Hn Hm Hn0 Hm0 H. exists (Z.lcm n m). split; [apply is_lcm_Zlcm|].
  by apply int_lcm_nonneg.
Qed.
Print Assumptions C15_lcm_partial.

Theorem C15_lcm_refuted :
  int_lcm 2 (-3) = Val (-6) /\ int_lcm (-2) (-2) = Val (-2) /\ int_lcm 0 0 = UB.
Proof. by vm_compute. Qed.
Print Assumptions C15_lcm_refuted.

Example number_theory_cases :
  int_power 3 37 = Val (3 ^ 37) /\ int_power 3 39 = overflow /\ int_power (-3) 3 = Val (-27) /\
  int_power 0 0 = Val 1 /\ int_gcd 270 192 = Val 6 /\ int_gcd (-270) 192 = Val 6 /\
  int_lcm 21 6 = Val 42 /\ int_gcd (2 ^ 60) (3 * 2 ^ 40) = Val (2 ^ 40).
Proof. by vm_compute. Qed.
