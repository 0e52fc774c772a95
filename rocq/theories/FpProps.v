(** C66: taking floats apart and scaling them. *)
From Verif Require Import Base IntModel IntProofs NumStrModel NumStrSpec NumStrProofs FpModel FpSpec FpProofs.
From Coq Require Import ZArith Lia.
Local Open Scope Z_scope.

(** integer-length is the least n with -2^n <= i < 2^n. *)
Theorem C66_integer_length i : fits i ->
  0 <= integer_length i /\ - 2 ^ integer_length i <= i < 2 ^ integer_length i /\
  forall k, 0 <= k -> - 2 ^ k <= i < 2 ^ k -> integer_length i <= k.
Proof. apply integer_length_ok. Qed.
Print Assumptions C66_integer_length.

(** Every pattern has its three fields, and only one set of them. *)
Theorem C66_fields_spec f x : std f -> 0 <= x < 2 ^ (1 + exp_bits f + frac_bits f) ->
  (exists s raw frac, fields f s raw frac x) /\
  forall s raw frac s' raw' frac', fields f s raw frac x -> fields f s' raw' frac' x -> s = s' /\ raw = raw' /\ frac = frac'.
Proof.
  intros Hf Hx. split.
  - apply (fields_exist f Hf). rewrite <- (pow_sum f Hf). replace (1 + exp_bits f + frac_bits f) with (Z.succ (frac_bits f + exp_bits f)) in Hx by lia.
    rewrite Z.pow_succ_r in Hx; [done|]. destruct (std_facts f Hf). lia.
  - intros. by eapply (fields_unique f Hf).
Qed.
Print Assumptions C66_fields_spec.

(** classify-float gives the kind of the float: for all <single-float>s, and for all <double-float>s but NaNs whose only
    fraction bits are in the low word. *)
Theorem C66_classify_single s raw frac x c : fields single s raw frac x -> (classify_single x = c <-> kind single raw frac c).
Proof.
  intros Hx. pose proof (classify_single_ok _ _ _ _ Hx) as H. split; [by intros <-|]. intros Hc.
  destruct (classify_single x), c; cbn in *; try done; lia.
Qed.
Print Assumptions C66_classify_single.

Theorem C66_classify_double_partial s raw frac x c : fields double s raw frac x ->
  finite double raw \/ frac = 0 \/ 2 ^ 32 <= frac -> (classify_double x = c <-> kind double raw frac c).
Proof.
  intros Hx Hfr. assert (H : kind double raw frac (classify_double x)).
  { apply (classify_double_ok s); [done|]. unfold finite in Hfr. change (2 ^ exp_bits double) with 2048 in Hfr. lia. }
  split; [by intros <-|]. intros Hc. destruct (classify_double x), c; cbn in *; try done; lia.
Qed.
Print Assumptions C66_classify_double_partial.

(** Some NaNs are classified as infinite. *)
Theorem C66_classify_nan_refuted : exists x raw frac, fields double 0 raw frac x /\ kind double raw frac CNan /\ classify_double x = CInfinite.
Proof. exists (2047 * 2 ^ 52 + 1), 2047, 1. split; [|split]; [|vm_compute; intuition congruence|done]. unfold fields; cbn. lia. Qed.
Print Assumptions C66_classify_nan_refuted.

(** decode-float takes a finite float other than zero apart into a significand, at least 1/2 and less than 1 (its
    exponent field is that of 1/2), an exponent and a sign 1.0 or -1.0, with significand * 2^exponent * sign = float. *)
Theorem C66_decode_single s raw frac x : fields single s raw frac x -> finite single raw -> 0 < raw \/ 0 < frac ->
  exists y frac' e, decode_float_single x = (y, e, if s =? 1 then minus_one single else one single) /\
    fields single 0 126 frac' y /\ same_value (num single 126 frac') (ex single 126 + e) (num single raw frac) (ex single raw).
Proof.
  intros Hx Hfin Hnz. destruct (decode_single_ok _ _ _ _ Hx Hfin Hnz) as (frac' & y & e & H1 & H2 & H3). eauto 10.
Qed.
Print Assumptions C66_decode_single.

Theorem C66_decode_double s raw frac x : fields double s raw frac x -> finite double raw -> 0 < raw \/ 0 < frac ->
  exists y frac' e, decode_float_double x = Val (y, e, if s =? 1 then minus_one double else one double) /\
    fields double 0 1022 frac' y /\ same_value (num double 1022 frac') (ex double 1022 + e) (num double raw frac) (ex double raw).
Proof.
  intros Hx Hfin Hnz. destruct (decode_double_ok _ _ _ _ Hx Hfin Hnz) as (r & Hr & frac' & y & e & H1 & H2 & H3).
  exists y, frac', e. rewrite Hr, H1. done.
Qed.
Print Assumptions C66_decode_double.

(** The sign floats are 1 and -1. *)
Theorem C66_one f : std f -> fields f 0 (bias f) 0 (one f) /\ fields f 1 (bias f) 0 (minus_one f) /\
  same_value (num f (bias f) 0) (ex f (bias f)) 1 0.
Proof.
  intros [-> | ->].
  - split; [unfold fields; vm_compute; intuition congruence|]. split; [unfold fields; vm_compute; intuition congruence|].
    exists (-23). vm_compute. intuition congruence.
  - split; [unfold fields; vm_compute; intuition congruence|]. split; [unfold fields; vm_compute; intuition congruence|].
    exists (-52). vm_compute. intuition congruence.
Qed.
Print Assumptions C66_one.

(** float-precision: the number of significant bits; for the floats with exponent field 1, the smallest normal ones, it
    is wrong. *)
Theorem C66_precision_single_partial s raw frac x : fields single s raw frac x ->
  (1 < raw -> float_precision_single x = 24) /\
  (raw = 0 -> 0 < frac -> 2 ^ (float_precision_single x - 1) <= frac < 2 ^ float_precision_single x) /\
  (raw = 0 -> frac = 0 -> float_precision_single x = 0).
Proof. apply precision_single_ok. Qed.
Print Assumptions C66_precision_single_partial.

Theorem C66_precision_double_partial s raw frac x : fields double s raw frac x ->
  (1 < raw -> float_precision_double x = 53) /\
  (raw = 0 -> 0 < frac -> 2 ^ (float_precision_double x - 1) <= frac < 2 ^ float_precision_double x) /\
  (raw = 0 -> frac = 0 -> float_precision_double x = 0).
Proof. apply precision_double_ok. Qed.
Print Assumptions C66_precision_double_partial.

Theorem C66_precision_refuted :
  exists x y, fields single 0 1 0 x /\ float_precision_single x = 0 /\ fields double 0 1 5 y /\ float_precision_double y = 3.
Proof. exists (2 ^ 23), (2 ^ 52 + 5). unfold fields. vm_compute. intuition congruence. Qed.
Print Assumptions C66_precision_refuted.

(** scale-float gives x * 2^n exactly if x is finite and not zero and x * 2^n is a float, normal or subnormal (and x is
    normal, or n is not larger than the exponent of the largest float). *)
Theorem C66_scale_exact_partial f s raw frac x n raw' frac' y : std f ->
  fields f s raw frac x -> finite f raw -> 0 < raw \/ 0 < frac ->
  fields f s raw' frac' y -> finite f raw' -> 0 < raw' \/ 0 < frac' ->
  - 2 ^ 60 <= n <= 2 ^ 60 -> 0 < raw \/ n <= bias f ->
  same_value (num f raw frac) (ex f raw + n) (num f raw' frac') (ex f raw') ->
  scale_float f x n = Val y.
Proof. intros Hf. intros. by eapply (scale_exact f Hf s raw frac x n raw' frac'). Qed.
Print Assumptions C66_scale_exact_partial.

(** decode-float and scale-float belong together. *)
Theorem C66_decode_scale s raw frac x : fields single s raw frac x -> finite single raw -> 0 < raw \/ 0 < frac -> s = 0 ->
  exists y e sgn, decode_float_single x = (y, e, sgn) /\ scale_float single y e = Val x.
Proof.
  intros Hx Hfin Hnz ->. destruct (decode_single_ok _ _ _ _ Hx Hfin Hnz) as (frac' & y & e & H1 & H2 & H3).
  exists y, e, (one single). split; [done|]. apply (scale_exact single s_std 0 (bias single - 1) frac' y e raw frac x); try done.
  - left. change (bias single) with 127. lia.
  - unfold mod_scale. change (2 ^ 60) with 1152921504606846976. destruct Hx as (_ & Hr & Hfr & _).
    assert (P1 : 0 < num single raw frac). { unfold num. destruct (Z.eqb_spec raw 0); change (2 ^ frac_bits single) with 8388608 in *; lia. }
    destruct H2 as (_ & _ & Hfr2 & _).
    assert (P2 : 0 < num single (bias single - 1) frac'). { unfold num. destruct (Z.eqb_spec (bias single - 1) 0); change (bias single) with 127 in *; change (2 ^ frac_bits single) with 8388608 in *; lia. }
    pose proof (same_log _ _ _ _ P2 P1 H3) as Hl. rewrite !(ex_eq single s_std) in Hl.
    pose proof (Z.log2_nonneg (num single raw frac)). pose proof (Z.log2_nonneg (num single (bias single - 1) frac')).
    assert (Z.log2 (num single raw frac) < 24). { apply Z.log2_lt_pow2; [done|]. unfold num. change (2 ^ 24) with 16777216. destruct (Z.eqb_spec raw 0); change (2 ^ frac_bits single) with 8388608 in *; lia. }
    assert (Z.log2 (num single (bias single - 1) frac') < 24). { apply Z.log2_lt_pow2; [done|]. unfold num. change (2 ^ 24) with 16777216. destruct (Z.eqb_spec (bias single - 1) 0); change (bias single) with 127 in *; change (2 ^ frac_bits single) with 8388608 in *; lia. }
    change (frac_bits single) with 23 in *. change (bias single) with 127 in *. change (2 ^ exp_bits single) with 256 in *. lia.
  - left. change (bias single) with 127. lia.
Qed.
Print Assumptions C66_decode_scale.

(** A normal float scaled beyond the largest float gives the infinity of its sign; zeros stay what they are. *)
Theorem C66_scale_overflow f s raw frac x n : std f -> fields f s raw frac x -> finite f raw -> 0 < raw ->
  - 2 ^ 60 <= n <= 2 ^ 60 -> 2 ^ exp_bits f - 1 <= raw + n ->
  exists y, scale_float f x n = Val y /\ fields f s (2 ^ exp_bits f - 1) 0 y.
Proof.
  intros Hf Hx Hfin Hr Hn Ho. eexists. split.
  - unfold scale_float. replace (Z.to_nat (Z.abs n) + 3)%nat with (S (Z.to_nat (Z.abs n) + 2)) by lia.
    by apply (scale_over f Hf _ s raw frac).
  - destruct Hx as (Hs & Hr' & Hfr & _). split; [done|]. destruct (std_facts f Hf). split; [lia|]. split; [lia|]. lia.
Qed.
Print Assumptions C66_scale_overflow.

Theorem C66_scale_zero_partial f s x n : std f -> fields f s 0 0 x -> 1 - bias f <= n <= bias f -> scale_float f x n = Val x.
Proof. intros Hf Hx Hn. apply (scale_zero f Hf s); [done|lia]. Qed.
Print Assumptions C66_scale_zero_partial.

(** scale-float always comes to an end with a float. *)
Theorem C66_scale_total f x n : std f -> 0 <= x < 2 ^ (1 + exp_bits f + frac_bits f) -> - 2 ^ 60 <= n <= 2 ^ 60 ->
  exists y, scale_float f x n = Val y.
Proof.
  intros Hf Hx Hn. destruct (C66_fields_spec f x Hf Hx) as [(s & raw & frac & H) _]. by apply (scale_total f Hf _ _ _ _ _ H).
Qed.
Print Assumptions C66_scale_total.

(** scale-float of zero with a large scale is a NaN. *)
Theorem C66_scale_zero_refuted : exists y raw frac, scale_float single 0 128 = Val y /\ fields single 0 raw frac y /\ kind single raw frac CNan.
Proof. exists 2143289344, 255, 4194304. split; [by vm_compute|]. unfold fields, kind. vm_compute. intuition congruence. Qed.
Print Assumptions C66_scale_zero_refuted.

(** scale-float of a subnormal float with a large scale is infinite, although the product is a float. *)
Theorem C66_scale_subnormal_refuted :
  exists y raw frac, fields single 0 0 1 1 /\ fields single 0 raw frac y /\ finite single raw /\
    same_value (num single 0 1) (ex single 0 + 128) (num single raw frac) (ex single raw) /\
    scale_float single 1 128 = Val (infinity single).
Proof.
  exists (106 * 2 ^ 23), 106, 0. split; [unfold fields; vm_compute; intuition congruence|].
  split; [unfold fields; vm_compute; intuition congruence|]. split; [done|]. split; [exists (-44); vm_compute; intuition congruence|].
  by vm_compute.
Qed.
Print Assumptions C66_scale_subnormal_refuted.

(** scale-float of an infinity with a negative scale is finite, and of a NaN with a scale 0 an infinity. *)
Theorem C66_scale_infinite_refuted :
  exists y z, scale_float single (infinity single) (-1) = Val y /\ fields single 0 254 0 y /\
    fields single 0 255 1 z /\ scale_float single z 0 = Val (infinity single).
Proof. exists (254 * 2 ^ 23), (255 * 2 ^ 23 + 1). split; [by vm_compute|]. split; [unfold fields; vm_compute; intuition congruence|]. split; [unfold fields; vm_compute; intuition congruence|]. by vm_compute. Qed.
Print Assumptions C66_scale_infinite_refuted.

(** Instances: 6.5 = 13/16 * 2^3; the smallest subnormal; 6.5 * 2^-130, a subnormal. *)
Example C66_ex_fields : fields single 0 129 5242880 1087373312. Proof. unfold fields. vm_compute. intuition congruence. Qed.
Example C66_ex_decode : decode_float_single 1087373312 = (1062207488, 3, one single). Proof. by vm_compute. Qed.
Example C66_ex_decode_sub : decode_float_double 1 = Val (4602678819172646912, -1073, one double). Proof. by vm_compute. Qed.
Example C66_ex_scale : scale_float single 1087373312 (-130) = Val 3407872. Proof. by vm_compute. Qed.
Example C66_ex_hyp : fields single 0 0 3407872 3407872 /\ same_value (num single 129 5242880) (ex single 129 + -130) (num single 0 3407872) (ex single 0).
Proof. split; [unfold fields; vm_compute; intuition congruence|]. exists (-160). vm_compute. intuition congruence. Qed.
Example C66_ex_length : integer_length (-8) = 3 /\ integer_length 8 = 4. Proof. done. Qed.
