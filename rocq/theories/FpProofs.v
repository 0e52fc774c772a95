(** Proofs about floats. *)
From Verif Require Import Base IntModel IntProofs NumStrModel NumStrSpec NumStrProofs FpModel FpSpec.
From Coq Require Import ZArith Lia.
From Coq Require Import ZifyBool ZifyNat.
Local Open Scope outcome_scope.
Local Open Scope Z_scope.

(** ** Bits *)
Lemma lor_add a b s : 0 <= s -> 0 <= b < 2 ^ s -> Z.lor (a * 2 ^ s) b = a * 2 ^ s + b.
Proof.
  intros Hs Hb. apply Z.bits_inj'. intros i Hi. rewrite Z.lor_spec.
  destruct (decide (i < s)).
  - rewrite Z.mul_pow2_bits_low by lia. cbn [orb].
    rewrite <- (Z.mod_pow2_bits_low (a * 2 ^ s + b) s) by lia.
    rewrite Z.add_comm, Z.mod_add, Z.mod_small by lia. done.
  - assert (Z.testbit b i = false) as ->.
    { rewrite <- (Z.mod_small b (2 ^ s)) by done. apply Z.mod_pow2_bits_high. lia. }
    rewrite orb_false_r. replace i with (i - s + s) by lia. rewrite <- !Z.shiftr_spec by lia.
    rewrite !Z.shiftr_div_pow2, Z.div_add_l, (Z.div_small b), Z.div_mul by lia. f_equal. lia.
Qed.

Lemma land_mask a n : 0 <= n -> Z.land a (2 ^ n - 1) = a mod 2 ^ n.
Proof. intros Hn. rewrite <- Z.land_ones by done. by rewrite Z.ones_equiv. Qed.

Lemma land_bit a n : 0 <= n -> Z.land a (Z.shiftl 1 n) = ((a / 2 ^ n) mod 2) * 2 ^ n.
Proof.
  intros Hn. transitivity (Z.shiftl (Z.land (Z.shiftr a n) 1) n).
  - apply Z.bits_inj'. intros i Hi. rewrite Z.land_spec, !Z.shiftl_spec by done. destruct (decide (i < n)).
    + rewrite (Z.testbit_neg_r 1), (Z.testbit_neg_r (Z.land _ _)) by lia. by rewrite andb_false_r.
    + rewrite Z.land_spec, Z.shiftr_spec by lia. by replace (i - n + n) with i by lia.
  - rewrite Z.shiftl_mul_pow2 by done. f_equal. change 1 with (2 ^ 1 - 1) at 1. rewrite land_mask by done.
    by rewrite Z.shiftr_div_pow2.
Qed.

(** ** The two formats *)
Record facts (f : fmt) : Prop := {
  F_fb : 2 <= frac_bits f <= 52;
  F_w : 3 <= exp_bits f <= 11;
  F_F : 4 <= 2 ^ frac_bits f;
  F_bias : frac_bits f + 3 <= bias f <= 1023;
  F_W : 2 ^ exp_bits f = 2 * bias f + 2;
  F_bias' : 2 ^ (exp_bits f - 1) - 1 = bias f }.
Lemma std_facts f : std f -> facts f.
Proof. intros [-> | ->]; constructor; vm_compute; intuition congruence. Qed.

Section fmt.
Context (f : fmt) (Hf : std f).
Notation F := (2 ^ frac_bits f).
Notation W := (2 ^ exp_bits f).
Notation B := (bias f).

Lemma pow_sum : 2 ^ (frac_bits f + exp_bits f) = W * F.
Proof. destruct (std_facts f Hf). rewrite Z.pow_add_r by lia. lia. Qed.

Lemma fields_div s raw frac x : fields f s raw frac x -> x / F = s * W + raw /\ x mod F = frac.
Proof.
  intros (Hs & Hr & Hfr & ->). destruct (std_facts f Hf). rewrite Z.div_add_l by lia. rewrite Z.div_small by lia.
  split; [lia|]. rewrite Z.add_comm, Z.mod_add by lia. apply Z.mod_small. lia.
Qed.

Lemma fields_exp s raw frac x : fields f s raw frac x -> float_exponent f x = raw - (B - 1).
Proof.
  intros H. destruct (fields_div _ _ _ _ H) as [Hd _]. destruct H as (Hs & Hr & Hfr & _). destruct (std_facts f Hf).
  unfold float_exponent. rewrite land_mask by lia. rewrite Z.shiftr_div_pow2 by lia. rewrite Hd.
  rewrite Z.add_comm, Z.mod_add by lia. rewrite Z.mod_small by lia. done.
Qed.

Lemma fields_sig s raw frac x : fields f s raw frac x -> Z.land x (F - 1) = frac.
Proof.
  intros H. destruct (std_facts f Hf). rewrite land_mask by lia. by apply (fields_div _ _ _ _ H).
Qed.

Lemma fields_big s raw frac x : fields f s raw frac x -> x = s * (W * F) + (raw * F + frac) /\ 0 <= raw * F + frac < W * F.
Proof. intros (Hs & Hr & Hfr & ->). destruct (std_facts f Hf). nia. Qed.

Lemma fields_sign s raw frac x : fields f s raw frac x -> Z.land x (sign_bit_mask f) = s * (W * F).
Proof.
  intros H. destruct (fields_big _ _ _ _ H) as [-> Hb]. destruct H as (Hs & _). destruct (std_facts f Hf).
  unfold sign_bit_mask. rewrite land_bit by lia. rewrite pow_sum.
  rewrite Z.div_add_l by nia. rewrite (Z.div_small (raw * F + frac)) by lia. rewrite Z.add_0_r.
  rewrite Z.mod_small by lia. done.
Qed.

Lemma sign_mask : sign_bit_mask f = W * F.
Proof. destruct (std_facts f Hf). unfold sign_bit_mask. rewrite Z.shiftl_mul_pow2 by lia. rewrite pow_sum. lia. Qed.

Lemma fields_mag s raw frac x : fields f s raw frac x -> magnitude f x = raw * F + frac.
Proof.
  intros H. destruct (fields_big _ _ _ _ H) as [-> Hb]. destruct (std_facts f Hf).
  unfold magnitude. rewrite sign_mask. rewrite <- pow_sum, land_mask by lia. rewrite pow_sum.
  rewrite Z.add_comm, Z.mod_add by nia. apply Z.mod_small. lia.
Qed.

Lemma fields_signed s raw frac x : fields f s raw frac x -> (sign_bit_mask f <=? x) = (s =? 1).
Proof.
  intros H. destruct (fields_big _ _ _ _ H) as [-> Hb]. rewrite sign_mask. destruct H as ([-> | ->] & _); lia.
Qed.

Lemma fields_negative s raw frac x : fields f s raw frac x -> finite f raw -> 0 < raw \/ 0 < frac ->
  sign_of f x = if s =? 1 then minus_one f else one f.
Proof.
  intros H Hfin Hnz. pose proof (fields_mag _ _ _ _ H) as Hm. pose proof (fields_signed _ _ _ _ H) as Hs.
  unfold sign_of, negative. unfold magnitude in Hm. rewrite Hm, Hs. destruct H as (_ & Hr & Hfr & _). unfold finite in Hfin.
  destruct (std_facts f Hf). replace (raw * F + frac =? 0) with false by nia.
  replace (raw * F + frac <=? (W - 1) * F) with true by nia. cbn. by rewrite !andb_true_r.
Qed.

Lemma fields_unique s raw frac x s' raw' frac' : fields f s raw frac x -> fields f s' raw' frac' x -> s = s' /\ raw = raw' /\ frac = frac'.
Proof.
  intros H H'. destruct (fields_div _ _ _ _ H) as [H1 H2]. destruct (fields_div _ _ _ _ H') as [H3 H4].
  destruct H as (Hs & Hr & _), H' as (Hs' & Hr' & _). lia.
Qed.

Lemma fields_exist x : 0 <= x < 2 * (W * F) -> exists s raw frac, fields f s raw frac x.
Proof.
  intros Hx. destruct (std_facts f Hf). exists (x / (W * F)), ((x / F) mod W), (x mod F).
  assert (Hd : x / (W * F) = x / F / W) by (rewrite Z.mul_comm, Z.div_div by lia; done).
  pose proof (Z.div_mod x F ltac:(lia)) as H1. pose proof (Z.div_mod (x / F) W ltac:(lia)) as H2.
  pose proof (Z.mod_pos_bound x F ltac:(lia)). pose proof (Z.mod_pos_bound (x / F) W ltac:(lia)).
  assert (0 <= x / (W * F) < 2) by (split; [apply Z.div_pos; nia|apply Z.div_lt_upper_bound; nia]).
  split; [lia|]. split; [done|]. split; [done|]. rewrite Hd. rewrite (Z.mul_comm (x / F / W)). rewrite <- H2. lia.
Qed.

(** ** Rounding *)
Lemma round_shift_exact m s : 0 < s -> round_shift (m * 2 ^ s) s = m.
Proof.
  intros Hs. unfold round_shift. pose proof (Z.pow_pos_nonneg 2 s ltac:(lia) ltac:(lia)).
  rewrite Z.div_mul, Z.mod_mul by lia. by replace (2 * 0 <? 2 ^ s) with true by lia.
Qed.

Lemma same_log m e m' e' : 0 < m -> 0 < m' -> same_value m e m' e' -> Z.log2 m + e = Z.log2 m' + e'.
Proof.
  intros Hm Hm' (k & H1 & H2 & H). apply (f_equal Z.log2) in H. rewrite !Z.log2_mul_pow2 in H by lia. lia.
Qed.

Lemma num_range raw frac : 0 <= frac < F -> 0 <= raw -> 0 <= num f raw frac < 2 * F /\ (0 < raw -> F <= num f raw frac).
Proof. intros Hfr Hr. unfold num. destruct (raw =? 0) eqn:E; lia. Qed.

Lemma emin_eq : emin f = 1 - B - frac_bits f. Proof. done. Qed.

Lemma ex_eq raw : ex f raw = Z.max 1 raw - B - frac_bits f.
Proof. unfold ex. by rewrite (F_bias' f (std_facts f Hf)). Qed.

Lemma log2_F m : F <= m < 2 * F -> Z.log2 m = frac_bits f.
Proof.
  intros H. destruct (std_facts f Hf). apply Z.log2_unique; [lia|]. rewrite Z.pow_succ_r by lia. lia.
Qed.

Lemma round_exact m e raw frac :
  0 < m -> 0 <= raw -> finite f raw -> 0 <= frac < F -> 0 < raw \/ 0 < frac ->
  same_value m e (num f raw frac) (ex f raw) -> round f m e = raw * F + frac.
Proof.
  intros Hm Hr Hfin Hfr Hnz Hsv. destruct (std_facts f Hf). unfold finite in Hfin.
  destruct (num_range raw frac Hfr Hr) as [Hn Hn']. set (mr := num f raw frac) in *. 
  assert (Hmr : 0 < mr) by (unfold mr, num in *; destruct (raw =? 0) eqn:E; lia).
  pose proof (same_log _ _ _ _ Hm Hmr Hsv) as Hlog. rewrite ex_eq in Hlog.
  assert (He : Z.max (emin f) (e + Z.log2 m - frac_bits f) = ex f raw).
  { rewrite emin_eq, ex_eq. destruct (decide (F <= mr)) as [Hbig|Hsmall].
    - rewrite (log2_F mr) in Hlog by lia. lia.
    - assert (Hl : Z.log2 mr < frac_bits f) by (apply Z.log2_lt_pow2; lia).
      assert (raw = 0) by (unfold mr, num in *; destruct (raw =? 0) eqn:E; lia). lia. }
  unfold round. replace (m =? 0) with false by lia. rewrite He.
  assert (Hm' : (if ex f raw <=? e then m * 2 ^ (e - ex f raw) else round_shift m (ex f raw - e)) = mr).
  { destruct Hsv as (k & H1 & H2 & H). destruct (ex f raw <=? e) eqn:E.
    - apply (Z.mul_reg_r _ _ (2 ^ (ex f raw - k))); [pose proof (Z.pow_pos_nonneg 2 (ex f raw - k)); lia|].
      rewrite <- H. rewrite <- Z.mul_assoc, <- Z.pow_add_r by lia. f_equal. f_equal. lia.
    - assert (m = mr * 2 ^ (ex f raw - e)) as ->.
      { apply (Z.mul_reg_r _ _ (2 ^ (e - k))); [pose proof (Z.pow_pos_nonneg 2 (e - k)); lia|].
        rewrite H. rewrite <- Z.mul_assoc, <- Z.pow_add_r by lia. f_equal. f_equal. lia. }
      apply round_shift_exact. lia. }
  rewrite Hm'. rewrite Z.min_r.
  - rewrite emin_eq, ex_eq. unfold mr, num. destruct (raw =? 0) eqn:E.
    + replace raw with 0 by lia. lia.
    + rewrite Z.max_r by lia. lia.
  - unfold infinity. rewrite emin_eq, ex_eq. unfold mr, num. destruct (raw =? 0) eqn:E.
    + replace raw with 0 by lia. nia.
    + rewrite Z.max_r by lia. nia.
Qed.

Lemma mantissa_num raw frac : 0 <= raw -> 0 <= frac < F -> mantissa f (raw * F + frac) = num f raw frac /\ exponent f (raw * F + frac) = ex f raw.
Proof.
  intros Hr Hfr. destruct (std_facts f Hf). unfold mantissa, exponent.
  rewrite Z.div_add_l by lia. rewrite (Z.div_small frac) by lia. rewrite Z.add_0_r.
  rewrite (Z.add_comm (raw * F)), Z.mod_add by lia. rewrite Z.mod_small by lia. rewrite ex_eq, emin_eq. unfold num.
  destruct (raw =? 0) eqn:E; [|lia]. replace raw with 0 by lia. split; [lia|lia].
Qed.

(** Multiplication by 2^k *)
Lemma multiply_pow2 s raw frac x k s' raw' frac' y :
  fields f s raw frac x -> finite f raw -> 0 < raw \/ 0 < frac -> 1 <= k + B <= 2 * B ->
  fields f s raw' frac' y -> finite f raw' -> 0 < raw' \/ 0 < frac' -> s' = s ->
  same_value (num f raw frac) (ex f raw + k) (num f raw' frac') (ex f raw') ->
  multiply f x ((k + B) * F) = y.
Proof.
  intros Hx Hfx Hnx Hk Hy Hfy Hny _ Hsv. destruct (std_facts f Hf).
  assert (Hz : fields f 0 (k + B) 0 ((k + B) * F)). { split; [by left|]. split; [lia|]. split; [lia|]. lia. }
  unfold multiply. rewrite (fields_signed _ _ _ _ Hx), (fields_signed _ _ _ _ Hz), (fields_mag _ _ _ _ Hx), (fields_mag _ _ _ _ Hz).
  pose proof (fields_big _ _ _ _ Hy) as [-> _].
  pose proof Hx as (Hs & Hr & Hfr & _). pose proof Hy as (_ & Hr' & Hfr' & _). unfold finite, infinity in *.
  replace ((W - 1) * F <? raw * F + frac) with false by nia. replace ((W - 1) * F <? (k + B) * F + 0) with false by nia.
  replace (raw * F + frac =? (W - 1) * F) with false by nia. replace ((k + B) * F + 0 =? (W - 1) * F) with false by nia.
  cbn [orb].
  destruct (mantissa_num raw frac ltac:(lia) Hfr) as [-> ->]. destruct (mantissa_num (k + B) 0 ltac:(lia) ltac:(lia)) as [-> ->].
  rewrite (round_exact _ _ raw' frac'); [| |lia|unfold finite; lia|lia|lia|].
  - rewrite sign_mask. destruct Hs as [-> | ->].
    + change (Bool.eqb (0 =? 1) (0 =? 1)) with true. cbv iota. lia.
    + change (Bool.eqb (1 =? 1) (0 =? 1)) with false. cbv iota. lia.
  - destruct (num_range raw frac Hfr ltac:(lia)) as [H1 H2]. unfold num at 2. replace (k + B =? 0) with false by lia.
    assert (0 < num f raw frac) by (unfold num in *; destruct (raw =? 0) eqn:E; lia). nia.
  - destruct Hsv as (j & H1 & H2 & H). exists (j - frac_bits f). unfold num at 2. replace (k + B =? 0) with false by lia.
    rewrite (ex_eq (k + B)). rewrite Z.max_r by lia. split; [lia|]. split; [lia|].
    replace (ex f raw' - (j - frac_bits f)) with (ex f raw' - j + frac_bits f) by lia.
    rewrite (Z.pow_add_r 2 (ex f raw' - j)) by lia. rewrite Z.mul_assoc, <- H.
    replace (ex f raw + (k + B - B - frac_bits f) - (j - frac_bits f)) with (ex f raw + k - j) by lia. lia.
Qed.

(** ** scale-float *)
Lemma fits_small z : -2 ^ 60 <= z <= 2 ^ 60 -> fits (z + 4096) /\ fits (z - 4096).
Proof. unfold fits. change (2 ^ 60) with 1152921504606846976. lia. Qed.

Definition mod_scale (n : Z) : Prop := -2 ^ 60 <= n <= 2 ^ 60.
Lemma mod_int n d : mod_scale n -> -4096 <= d <= 4096 -> int_result (n + d) = Val (n + d).
Proof. unfold mod_scale. change (2 ^ 60) with 1152921504606846976. intros. apply int_result_ok. unfold fits. lia. Qed.

Lemma min_eq : minimum_exponent f = 2 - B. Proof. unfold minimum_exponent. lia. Qed.
Lemma max_eq : maximum_exponent f = B + 1.
Proof. unfold maximum_exponent. destruct (std_facts f Hf). lia. Qed.

Lemma scale_normal fuel s raw frac x n :
  fields f s raw frac x -> mod_scale n -> 0 < raw -> 0 < raw + n < W - 1 ->
  scale_loop (S fuel) f x n = Val ((s * W + (raw + n)) * F + frac).
Proof.
  intros Hx Hn Hr Hrn. destruct (std_facts f Hf). cbn [scale_loop].
  rewrite (fields_exp _ _ _ _ Hx), (fields_sig _ _ _ _ Hx), (fields_sign _ _ _ _ Hx), min_eq, max_eq.
  pose proof Hx as (Hs & Hr' & Hfr & _).
  replace (raw - (B - 1) + n) with (n + (raw - (B - 1))) by lia. rewrite mod_int by (done || lia). cbn [obind].
  replace (raw - (B - 1) <? 2 - B) with false by lia. replace (B + 1 <? n + (raw - (B - 1))) with false by lia.
  replace (n + (raw - (B - 1)) <? 2 - B) with false by lia. f_equal.
  unfold digits. replace (frac_bits f + 1 - 1) with (frac_bits f) by lia. rewrite Z.shiftl_mul_pow2 by lia.
  replace (n + (raw - (B - 1)) + (B - 1)) with (raw + n) by lia.
  rewrite <- pow_sum. rewrite lor_add; [|lia|rewrite pow_sum; nia]. rewrite pow_sum.
  replace (s * (W * F) + (raw + n) * F) with ((s * W + (raw + n)) * F) by lia. apply lor_add; lia.
Qed.

Lemma scale_over fuel s raw frac x n :
  fields f s raw frac x -> mod_scale n -> 0 < raw -> W - 1 <= raw + n ->
  scale_loop (S fuel) f x n = Val ((s * W + (W - 1)) * F).
Proof.
  intros Hx Hn Hr Hrn. destruct (std_facts f Hf). cbn [scale_loop].
  rewrite (fields_exp _ _ _ _ Hx), (fields_sig _ _ _ _ Hx), (fields_sign _ _ _ _ Hx), min_eq, max_eq.
  pose proof Hx as (Hs & Hr' & Hfr & _).
  replace (raw - (B - 1) + n) with (n + (raw - (B - 1))) by lia. rewrite mod_int by (done || lia). cbn [obind].
  replace (raw - (B - 1) <? 2 - B) with false by lia. replace (B + 1 <? n + (raw - (B - 1))) with true by lia. f_equal.
  unfold digits. replace (frac_bits f + 1 - 1) with (frac_bits f) by lia. rewrite Z.shiftl_mul_pow2 by lia.
  rewrite <- pow_sum. rewrite lor_add; [|lia|rewrite pow_sum; nia]. rewrite pow_sum. lia.
Qed.

Lemma one_fields : fields f 0 B 0 (one f).
Proof. destruct (std_facts f Hf). unfold one. split; [by left|]. split; [lia|]. split; lia. Qed.

Lemma scale_one fuel n : mod_scale n -> 1 <= n + B <= 2 * B -> scale_loop (S fuel) f (one f) n = Val ((n + B) * F).
Proof.
  intros Hn Hr. destruct (std_facts f Hf). rewrite (scale_normal _ _ _ _ _ _ one_fields) by (done || lia). f_equal. lia.
Qed.

Lemma scale_down fuel s raw frac x n :
  fields f s raw frac x -> mod_scale n -> 0 < raw -> raw + n <= 0 ->
  scale_loop (S (S fuel)) f x n = do y <- scale_loop (S fuel) f x (n + (B - 1)) ; Val (multiply f y F).
Proof.
  intros Hx Hn Hr Hrn. destruct (std_facts f Hf). remember (S fuel) as fl. cbn [scale_loop].
  rewrite (fields_exp _ _ _ _ Hx), min_eq, max_eq. pose proof Hx as (Hs & Hr' & Hfr & _).
  replace (raw - (B - 1) + n) with (n + (raw - (B - 1))) by lia. rewrite mod_int by (done || lia). cbn [obind].
  replace (raw - (B - 1) <? 2 - B) with false by lia. replace (B + 1 <? n + (raw - (B - 1))) with false by lia.
  replace (n + (raw - (B - 1)) <? 2 - B) with true by lia.
  replace (n - (2 - B - 1)) with (n + (B - 1)) by lia. rewrite mod_int by (done || lia). cbn [obind].
  subst fl. rewrite (scale_one _ (2 - B - 1)); [|unfold mod_scale; change (2 ^ 60) with 1152921504606846976; lia|lia].
  replace ((2 - B - 1 + B) * F) with F by lia. done.
Qed.

Lemma scale_sub fuel s frac x n :
  fields f s 0 frac x -> mod_scale n ->
  scale_loop (S fuel) f x n = do y <- scale_loop fuel f (one f) n ; Val (multiply f x y).
Proof.
  intros Hx Hn. destruct (std_facts f Hf). cbn [scale_loop]. rewrite (fields_exp _ _ _ _ Hx), min_eq.
  replace (0 - (B - 1) + n) with (n + (0 - (B - 1))) by lia. rewrite mod_int by (done || lia). cbn [obind].
  by replace (0 - (B - 1) <? 2 - B) with true by lia.
Qed.

Lemma scale_exact s raw frac x n raw' frac' y :
  fields f s raw frac x -> finite f raw -> 0 < raw \/ 0 < frac ->
  fields f s raw' frac' y -> finite f raw' -> 0 < raw' \/ 0 < frac' ->
  mod_scale n -> 0 < raw \/ n <= B ->
  same_value (num f raw frac) (ex f raw + n) (num f raw' frac') (ex f raw') ->
  scale_float f x n = Val y.
Proof.
  intros Hx Hfx Hnx Hy Hfy Hny Hn Hc Hsv. destruct (std_facts f Hf).
  pose proof Hx as (Hs & Hr & Hfr & _). pose proof Hy as (_ & Hr' & Hfr' & Ey).
  destruct (num_range raw frac Hfr ltac:(lia)) as [N1 N2]. destruct (num_range raw' frac' Hfr' ltac:(lia)) as [N3 N4].
  assert (P1 : 0 < num f raw frac) by (unfold num in *; destruct (raw =? 0) eqn:E; lia).
  assert (P2 : 0 < num f raw' frac') by (unfold num in *; destruct (raw' =? 0) eqn:E; lia).
  pose proof (same_log _ _ _ _ P1 P2 Hsv) as Hlog. rewrite !ex_eq in Hlog.
  assert (L2 : 0 <= Z.log2 (num f raw' frac') <= frac_bits f).
  { split; [apply Z.log2_nonneg|]. enough (Z.log2 (num f raw' frac') < frac_bits f + 1) by lia.
    apply Z.log2_lt_pow2; [done|]. rewrite Z.pow_add_r by lia. lia. }
  unfold scale_float. replace (Z.to_nat (Z.abs n) + 3)%nat with (S (S (S (Z.to_nat (Z.abs n))))) by lia.
  unfold finite in *. destruct (decide (0 < raw)) as [Hraw|Hraw].
  - rewrite (log2_F (num f raw frac)) in Hlog by lia. destruct (decide (0 < raw')) as [Hraw'|Hraw'].
    + rewrite (log2_F (num f raw' frac')) in Hlog by lia.
      rewrite (scale_normal _ _ _ _ _ _ Hx) by (done || lia). rewrite Ey. f_equal.
      assert (raw' = raw + n) as -> by lia. 
      assert (frac = frac') as ->; [|done].
      destruct Hsv as (k & H1 & H2 & H). rewrite !ex_eq in *. replace (Z.max 1 raw - B - frac_bits f + n) with (Z.max 1 (raw + n) - B - frac_bits f) in H by lia.
      apply Z.mul_reg_r in H; [|pose proof (Z.pow_pos_nonneg 2 (Z.max 1 (raw + n) - B - frac_bits f - k)); lia].
      unfold num in H. replace (raw =? 0) with false in H by lia. replace (raw + n =? 0) with false in H by lia. lia.
    + assert (raw' = 0) as -> by lia.
      assert (L3 : Z.log2 (num f 0 frac') < frac_bits f). { apply Z.log2_lt_pow2; [done|]. unfold num. cbn. lia. }
      rewrite (scale_down _ _ _ _ _ _ Hx) by (done || lia).
      assert (Hn' : mod_scale (n + (B - 1))) by (unfold mod_scale in *; change (2 ^ 60) with 1152921504606846976 in *; lia).
      rewrite (scale_normal _ _ _ _ _ _ Hx) by (done || lia). cbn [obind]. f_equal.
      set (r := raw + (n + (B - 1))).
      assert (Hz : fields f s r frac ((s * W + r) * F + frac)). { split; [done|]. split; [unfold r; lia|]. split; [done|done]. }
      replace F with ((1 - B + B) * F) at 2 by lia.
      eapply (multiply_pow2 s r frac _ (1 - B) s 0 frac'); try done; try (unfold finite, r; lia).
      destruct Hsv as (k & H1 & H2 & H). exists k. rewrite (ex_eq r), (ex_eq raw) in *. 
      replace (Z.max 1 r - B - frac_bits f + (1 - B)) with (Z.max 1 raw - B - frac_bits f + n) by (unfold r; lia).
      split; [done|]. split; [done|]. rewrite <- H. f_equal. unfold num. by replace (r =? 0) with false by (unfold r; lia); replace (raw =? 0) with false by lia.
  - assert (raw = 0) as -> by lia.
    assert (L3 : Z.log2 (num f 0 frac) < frac_bits f). { apply Z.log2_lt_pow2; [done|]. unfold num. cbn. lia. }
    rewrite (scale_sub _ _ _ _ _ Hx Hn). rewrite scale_one by (done || lia). cbn [obind]. f_equal.
    eapply (multiply_pow2 s 0 frac _ n s raw' frac'); try done; try (unfold finite; lia).
Qed.

Lemma scale_val fuel s raw frac x n :
  fields f s raw frac x -> 0 < raw -> mod_scale n -> (Z.to_nat (Z.abs n) + 1 < fuel)%nat -> exists y, scale_loop fuel f x n = Val y.
Proof.
  revert n. induction fuel as [|fuel IH]; intros n Hx Hr Hn Hfuel; [lia|]. destruct (std_facts f Hf).
  destruct (decide (W - 1 <= raw + n)); [eexists; by apply (scale_over _ _ _ _ _ _ Hx)|].
  destruct (decide (0 < raw + n)); [eexists; apply (scale_normal _ _ _ _ _ _ Hx); [done|done|lia]|].
  destruct fuel as [|fuel]; [lia|]. rewrite (scale_down _ _ _ _ _ _ Hx) by (done || lia).
  assert (Hn' : mod_scale (n + (B - 1))) by (unfold mod_scale in *; change (2 ^ 60) with 1152921504606846976 in *; lia).
  destruct (decide (n + (B - 1) < 0)).
  - destruct (IH (n + (B - 1))) as (y & ->); [done|done|done|lia|]. cbn. eauto.
  - pose proof Hx as (_ & Hr' & _). rewrite (scale_normal _ _ _ _ _ _ Hx); [cbn; eauto|done|done|lia].
Qed.

Lemma scale_total s raw frac x n : fields f s raw frac x -> mod_scale n -> exists y, scale_float f x n = Val y.
Proof.
  intros Hx Hn. unfold scale_float. pose proof Hx as (_ & Hr & _). destruct (decide (raw = 0)) as [->|].
  - replace (Z.to_nat (Z.abs n) + 3)%nat with (S (Z.to_nat (Z.abs n) + 2)) by lia. rewrite (scale_sub _ _ _ _ _ Hx Hn).
    destruct (std_facts f Hf). destruct (scale_val (Z.to_nat (Z.abs n) + 2) _ _ _ _ n one_fields) as (y & ->); [lia|done|lia|]. cbn. eauto.
  - apply (scale_val _ _ _ _ _ _ Hx); [lia|done|lia].
Qed.

Lemma scale_zero s x n : fields f s 0 0 x -> 1 <= n + B <= 2 * B -> scale_float f x n = Val x.
Proof.
  intros Hx Hn. destruct (std_facts f Hf). assert (Hm : mod_scale n) by (unfold mod_scale; change (2 ^ 60) with 1152921504606846976; lia).
  unfold scale_float. replace (Z.to_nat (Z.abs n) + 3)%nat with (S (S (Z.to_nat (Z.abs n) + 1))) by lia.
  rewrite (scale_sub _ _ _ _ _ Hx Hm), scale_one by done. cbn [obind]. f_equal.
  assert (Hz : fields f 0 (n + B) 0 ((n + B) * F)). { split; [by left|]. split; [lia|]. split; [lia|]. lia. }
  unfold multiply. rewrite (fields_signed _ _ _ _ Hx), (fields_signed _ _ _ _ Hz), (fields_mag _ _ _ _ Hx), (fields_mag _ _ _ _ Hz).
  unfold infinity. replace ((W - 1) * F <? 0 * F + 0) with false by nia. replace ((W - 1) * F <? (n + B) * F + 0) with false by nia.
  replace (0 * F + 0 =? (W - 1) * F) with false by nia. replace ((n + B) * F + 0 =? (W - 1) * F) with false by nia. cbn [orb].
  destruct (mantissa_num 0 0 ltac:(lia) ltac:(lia)) as [-> _]. unfold num at 1. cbn [Z.eqb]. rewrite Z.mul_0_l.
  unfold round. cbn [Z.eqb]. rewrite sign_mask. destruct Hx as ([-> | ->] & _ & _ & ->).
  - change (0 =? 1) with false. cbv iota beta delta [Bool.eqb]. lia.
  - change (1 =? 1) with true. cbv iota beta delta [Bool.eqb]. lia.
Qed.
End fmt.

(** ** integer-length *)
Lemma chz w : 0 <= w < 2 ^ 64 -> 64 - count_high_zeros w = if w =? 0 then 0 else Z.log2 w + 1.
Proof. intros H. unfold count_high_zeros. destruct (w =? 0); lia. Qed.

Lemma log2_bounds w : 0 < w -> 2 ^ Z.log2 w <= w < 2 ^ (Z.log2 w + 1).
Proof. intros H. pose proof (Z.log2_spec w H). by rewrite Z.add_1_r. Qed.

Lemma integer_length_ok i : fits i ->
  let n := integer_length i in
  0 <= n /\ - 2 ^ n <= i < 2 ^ n /\ forall k, 0 <= k -> - 2 ^ k <= i < 2 ^ k -> n <= k.
Proof.
  intros Hi n. set (w := if i <? 0 then Z.lnot i else i).
  assert (Hw : 0 <= w < 2 ^ 64 /\ forall k, 0 <= k -> (- 2 ^ k <= i < 2 ^ k <-> w < 2 ^ k)).
  { unfold fits in Hi. assert (E : w = if i <? 0 then - i - 1 else i).
    { unfold w. destruct (i <? 0); [|done]. unfold Z.lnot. lia. }
    clearbody w. change (2 ^ 64) with 18446744073709551616. split; [destruct (i <? 0) eqn:E'; lia|].
    intros k Hk. pose proof (Z.pow_pos_nonneg 2 k ltac:(lia) Hk). destruct (i <? 0) eqn:E'; lia. }
  destruct Hw as [Hw Hk]. assert (En : n = if w =? 0 then 0 else Z.log2 w + 1) by (unfold n, integer_length; fold w; by apply chz).
  destruct (w =? 0) eqn:E0.
  - rewrite En. split; [lia|]. split; [apply Hk; [lia|cbn; lia]|]. intros; lia.
  - pose proof (log2_bounds w ltac:(lia)) as Hl. pose proof (Z.log2_nonneg w). rewrite En. split; [lia|].
    split; [apply Hk; lia|]. intros k Hk0 Hr. apply Hk in Hr; [|done].
    assert (Z.log2 w < k) by (apply Z.log2_lt_pow2; lia). lia.
Qed.

(** ** classify-float *)
Lemma s_std : std single. Proof. by left. Qed.
Lemma d_std : std double. Proof. by right. Qed.

Lemma classify_single_ok s raw frac x : fields single s raw frac x -> kind single raw frac (classify_single x).
Proof.
  intros Hx. unfold classify_single. rewrite (fields_exp _ s_std _ _ _ _ Hx), (min_eq single), (max_eq single s_std).
  pose proof (fields_sig _ s_std _ _ _ _ Hx) as Hsig. change (2 ^ frac_bits single) with (2 ^ 23) in Hsig. rewrite Hsig. clear Hsig. destruct Hx as (_ & Hr & Hfr & _).
  change (bias single) with 127 in *. change (2 ^ exp_bits single) with 256 in *.
  destruct (raw - (127 - 1) <? 2 - 127) eqn:E1; [destruct (frac =? 0) eqn:E; cbn; lia|].
  destruct (127 + 1 <? raw - (127 - 1)) eqn:E2; [|cbn; change (2 ^ 8) with 256; lia].
  destruct (frac =? 0) eqn:E; cbn; change (2 ^ 8) with 256; lia.
Qed.

Lemma dsplit s raw frac x : fields double s raw frac x ->
  decode_double x = (frac mod 2 ^ 32, x / 2 ^ 32) /\ Z.land (x / 2 ^ 32) (2 ^ 20 - 1) = frac / 2 ^ 32.
Proof.
  intros (Hs & Hr & Hfr & ->). unfold decode_double. rewrite (land_mask _ 32), (land_mask _ 20), Z.shiftr_div_pow2 by lia.
  change (2 ^ frac_bits double) with (2 ^ 20 * 2 ^ 32) in *. rewrite Z.mul_assoc.
  change (2 ^ 20) with 1048576 in *. change (2 ^ 32) with 4294967296 in *. change (2 ^ exp_bits double) with 2048 in *.
  rewrite (Z.add_comm _ frac), Z.mod_add, Z.div_add by lia. split; [done|].
  rewrite Z.mod_add by lia. apply Z.mod_small. split; [apply Z.div_pos; lia|]. apply Z.div_lt_upper_bound; lia.
Qed.

Lemma frac_zero frac : 0 <= frac -> (frac / 2 ^ 32 =? 0) && (frac mod 2 ^ 32 =? 0) = (frac =? 0).
Proof.
  intros H. change (2 ^ 32) with 4294967296. pose proof (Z.div_mod frac 4294967296 ltac:(lia)).
  pose proof (Z.mod_pos_bound frac 4294967296 ltac:(lia)). pose proof (Z.div_pos frac 4294967296 H ltac:(lia)). lia.
Qed.

Lemma classify_double_ok s raw frac x : fields double s raw frac x -> raw < 2047 \/ frac = 0 \/ 2 ^ 32 <= frac ->
  kind double raw frac (classify_double x).
Proof.
  intros Hx Hc. unfold classify_double. rewrite (fields_exp _ d_std _ _ _ _ Hx), (min_eq double), (max_eq double d_std).
  destruct (dsplit _ _ _ _ Hx) as [-> ->]. destruct Hx as (_ & Hr & Hfr & _). rewrite frac_zero by lia.
  change (bias double) with 1023 in *. change (2 ^ exp_bits double) with 2048 in *.
  destruct (raw - (1023 - 1) <? 2 - 1023) eqn:E1; [destruct (frac =? 0) eqn:E; cbn; lia|].
  destruct (1023 + 1 <? raw - (1023 - 1)) eqn:E2; [|cbn; change (2 ^ 11) with 2048; lia].
  destruct (frac / 2 ^ 32 =? 0) eqn:E; cbn; change (2 ^ 11) with 2048.
  - split; [lia|]. destruct Hc as [?|[?|Hc]]; [lia|done|]. exfalso.
    change (2 ^ 32) with 4294967296 in *. pose proof (Z.div_le_lower_bound frac 4294967296 1 ltac:(lia) ltac:(lia)). lia.
  - split; [lia|]. intros ->. done.
Qed.

(** ** decode-float *)
(** The significand returned has exponent field bias - 1, that is, it is at least 1/2 and less than 1. *)
Definition decoded f s raw frac (r : Z * Z * Z) : Prop :=
  exists frac' y e, r = (y, e, if s =? 1 then minus_one f else one f) /\ fields f 0 (bias f - 1) frac' y /\
    same_value (num f (bias f - 1) frac') (ex f (bias f - 1) + e) (num f raw frac) (ex f raw).

Lemma decoded_normal f s raw frac y : std f -> 0 < raw -> 0 <= frac < 2 ^ frac_bits f ->
  y = (bias f - 1) * 2 ^ frac_bits f + frac ->
  decoded f s raw frac (y, raw - (bias f - 1), if s =? 1 then minus_one f else one f).
Proof.
  intros Hf Hr Hfr ->. destruct (std_facts f Hf). exists frac, ((bias f - 1) * 2 ^ frac_bits f + frac), (raw - (bias f - 1)).
  split; [done|]. split.
  { split; [by left|]. split; [lia|]. split; [done|]. lia. }
  exists (ex f raw). rewrite !(ex_eq f Hf). unfold num. replace (bias f - 1 =? 0) with false by lia. replace (raw =? 0) with false by lia.
  split; [lia|]. split; [lia|]. f_equal. f_equal. lia.
Qed.

Lemma decoded_sub f s frac y : std f -> 0 < frac < 2 ^ frac_bits f ->
  let shift := frac_bits f - Z.log2 frac in
  y = (bias f - 1) * 2 ^ frac_bits f + (frac * 2 ^ shift - 2 ^ frac_bits f) ->
  decoded f s 0 frac (y, minimum_exponent f - shift, if s =? 1 then minus_one f else one f).
Proof.
  intros Hf Hfr shift ->. destruct (std_facts f Hf).
  assert (Hl : Z.log2 frac < frac_bits f) by (apply Z.log2_lt_pow2; lia). pose proof (Z.log2_nonneg frac).
  pose proof (log2_bounds frac ltac:(lia)) as Hb.
  assert (HF : 2 ^ frac_bits f = 2 ^ Z.log2 frac * 2 ^ shift) by (rewrite <- Z.pow_add_r by (unfold shift; lia); f_equal; unfold shift; lia).
  pose proof (Z.pow_pos_nonneg 2 shift ltac:(lia) ltac:(unfold shift; lia)). rewrite Z.pow_add_r in Hb by lia.
  exists (frac * 2 ^ shift - 2 ^ frac_bits f). eexists. exists (minimum_exponent f - shift). split; [done|]. split.
  { split; [by left|]. split; [lia|]. split; [nia|]. lia. }
  exists (ex f 0 - shift). rewrite !(ex_eq f Hf), (min_eq f). unfold num. replace (bias f - 1 =? 0) with false by lia. cbn [Z.eqb].
  split; [lia|]. split; [unfold shift; lia|].
  replace (Z.max 1 (bias f - 1) - bias f - frac_bits f + (2 - bias f - shift) - (Z.max 1 0 - bias f - frac_bits f - shift)) with 0 by lia.
  replace (Z.max 1 0 - bias f - frac_bits f - (Z.max 1 0 - bias f - frac_bits f - shift)) with shift by lia. lia.
Qed.

Lemma decode_single_ok s raw frac x : fields single s raw frac x -> finite single raw -> 0 < raw \/ 0 < frac ->
  decoded single s raw frac (decode_float_single x).
Proof.
  intros Hx Hfin Hnz. pose proof (fields_negative _ s_std _ _ _ _ Hx Hfin Hnz) as Hsg.
  unfold decode_float_single. rewrite (fields_exp _ s_std _ _ _ _ Hx), (min_eq single), (max_eq single s_std), Hsg.
  pose proof (fields_sig _ s_std _ _ _ _ Hx) as Hsig. change (2 ^ frac_bits single) with (2 ^ 23) in Hsig. rewrite Hsig.
  destruct Hx as (_ & Hr & Hfr & _). unfold finite in Hfin. 
  destruct (raw - (bias single - 1) <? 2 - bias single) eqn:E1.
  - assert (raw = 0) as -> by lia. replace (frac =? 0) with false by lia.
    unfold decode_single_subnormal. rewrite Hsig, Hsg.
    assert (Hc : count_high_zeros frac + digits single - 64 = 23 - Z.log2 frac).
    { unfold count_high_zeros, digits. cbn [frac_bits single]. replace (frac =? 0) with false by lia. lia. }
    rewrite Hc. apply (decoded_sub single _ _ _ s_std); [lia|]. cbn [frac_bits single] in *.
    assert (Hl : Z.log2 frac < 23) by (apply Z.log2_lt_pow2; lia). pose proof (Z.log2_nonneg frac).
    pose proof (log2_bounds frac ltac:(lia)) as Hb. set (l := Z.log2 frac) in *.
    assert (HF : 2 ^ 23 = 2 ^ l * 2 ^ (23 - l)) by (rewrite <- Z.pow_add_r by lia; f_equal; lia).
    pose proof (Z.pow_pos_nonneg 2 (23 - l) ltac:(lia) ltac:(lia)). rewrite Z.pow_add_r in Hb by lia.
    assert (HT : 2 ^ 23 <= frac * 2 ^ (23 - l) < 2 * 2 ^ 23) by nia.
    rewrite (Z.shiftl_mul_pow2 frac) by lia. rewrite land_mask by lia.
    assert (Hm : (frac * 2 ^ (23 - l)) mod 2 ^ 23 = frac * 2 ^ (23 - l) - 2 ^ 23).
    { symmetry. apply (Z.mod_unique_pos _ _ 1); lia. }
    rewrite Hm. change (digits single - 1) with 23. rewrite Z.shiftl_mul_pow2 by lia. apply lor_add; lia.
  - replace (bias single + 1 <? raw - (bias single - 1)) with false by (change (bias single) with 127 in *; change (2 ^ exp_bits single) with 256 in *; lia).
    apply (decoded_normal single _ _ _ _ s_std); [lia|done|]. change (digits single - 1) with 23.
    rewrite Z.shiftl_mul_pow2 by lia. by apply lor_add.
Qed.

Lemma log2_words hi lo : 0 < hi -> 0 <= lo < 2 ^ 32 -> Z.log2 (hi * 2 ^ 32 + lo) = Z.log2 hi + 32.
Proof.
  intros Hh Hl. pose proof (log2_bounds hi Hh) as Hb. pose proof (Z.log2_nonneg hi). apply Z.log2_unique; [lia|].
  rewrite <- Z.add_1_r. replace (Z.log2 hi + 32 + 1) with (Z.log2 hi + 1 + 32) by lia. rewrite !(Z.pow_add_r 2 _ 32) by lia. nia.
Qed.

Lemma encode_add low high : 0 <= low < 2 ^ 32 -> encode_double low high = high * 2 ^ 32 + low.
Proof. intros H. unfold encode_double. rewrite Z.shiftl_mul_pow2 by lia. apply lor_add; lia. Qed.

Lemma frac_words frac : 0 <= frac < 2 ^ 52 ->
  frac = (frac / 2 ^ 32) * 2 ^ 32 + frac mod 2 ^ 32 /\ 0 <= frac / 2 ^ 32 < 2 ^ 20 /\ 0 <= frac mod 2 ^ 32 < 2 ^ 32.
Proof.
  intros H. pose proof (Z.div_mod frac (2 ^ 32) ltac:(lia)). pose proof (Z.mod_pos_bound frac (2 ^ 32) ltac:(lia)).
  split; [lia|]. split; [|done]. split; [apply Z.div_pos; lia|]. apply Z.div_lt_upper_bound; [lia|]. rewrite <- Z.pow_add_r by lia. cbn [Z.add Pos.add]. lia.
Qed.

Lemma decode_double_ok s raw frac x : fields double s raw frac x -> finite double raw -> 0 < raw \/ 0 < frac ->
  exists r, decode_float_double x = Val r /\ decoded double s raw frac r.
Proof.
  intros Hx Hfin Hnz. pose proof (fields_negative _ d_std _ _ _ _ Hx Hfin Hnz) as Hsg.
  unfold decode_float_double. rewrite (fields_exp _ d_std _ _ _ _ Hx), (min_eq double), (max_eq double d_std), Hsg.
  destruct (dsplit _ _ _ _ Hx) as [Hd Hh]. rewrite Hd, Hh.
  destruct Hx as (_ & Hr & Hfr & _). unfold finite in Hfin. rewrite frac_zero by lia.
  change (2 ^ frac_bits double) with (2 ^ 52) in Hfr. destruct (frac_words frac Hfr) as (Efr & Bh & Bl).
  set (hi := frac / 2 ^ 32) in *. set (lo := frac mod 2 ^ 32) in *.
  destruct (raw - (bias double - 1) <? 2 - bias double) eqn:E1.
  - assert (raw = 0) as -> by lia. replace (frac =? 0) with false by lia. eexists. split; [done|].
    unfold decode_double_subnormal. rewrite Hd, Hh, Hsg.
    assert (Hc : (if hi =? 0 then count_high_zeros lo - 64 + digits double else count_high_zeros hi - 64 - 32 + digits double) = 52 - Z.log2 frac).
    { unfold count_high_zeros, digits. cbn [frac_bits double]. destruct (hi =? 0) eqn:Eh.
      - replace (lo =? 0) with false by lia. replace frac with lo by lia. lia.
      - rewrite Efr, log2_words by lia. lia. }
    rewrite Hc. apply (decoded_sub double _ _ _ d_std); [cbn [frac_bits double]; lia|]. cbn [frac_bits double].
    assert (Hl : Z.log2 frac < 52) by (apply Z.log2_lt_pow2; lia). pose proof (Z.log2_nonneg frac).
    pose proof (log2_bounds frac ltac:(lia)) as Hb. set (l := Z.log2 frac) in *.
    assert (HF : 2 ^ 52 = 2 ^ l * 2 ^ (52 - l)) by (rewrite <- Z.pow_add_r by lia; f_equal; lia).
    pose proof (Z.pow_pos_nonneg 2 (52 - l) ltac:(lia) ltac:(lia)) as Hpos. rewrite Z.pow_add_r in Hb by lia.
    set (P := 2 ^ (52 - l)) in *.
    assert (HT : 2 ^ 52 <= frac * P < 2 * 2 ^ 52) by nia.
    rewrite (Z.shiftl_mul_pow2 lo), (Z.shiftl_mul_pow2 hi), Z.shiftr_div_pow2 by lia. rewrite !land_mask by lia. fold P.
    pose proof (Z.div_mod (lo * P) (2 ^ 32) ltac:(lia)) as Hdm. pose proof (Z.mod_pos_bound (lo * P) (2 ^ 32) ltac:(lia)) as Hmb.
    set (c := lo * P / 2 ^ 32) in *. set (rl := (lo * P) mod 2 ^ 32) in *.
    assert (Hcr : 0 <= c < P).
    { split; [apply Z.div_pos; nia|]. apply Z.div_lt_upper_bound; nia. }
    assert (Hor : Z.lor (hi * P) c = hi * P + c) by (unfold P in *; apply lor_add; [lia|done]). rewrite Hor.
    assert (Htot : frac * P = (hi * P + c) * 2 ^ 32 + rl) by (rewrite Efr; lia).
    change (2 ^ 52) with (2 ^ 20 * 2 ^ 32) in *.
    assert (Hm : (hi * P + c) mod 2 ^ 20 = hi * P + c - 2 ^ 20).
    { symmetry. apply (Z.mod_unique_pos _ _ 1); change (2 ^ 20) with 1048576 in *; change (2 ^ 32) with 4294967296 in *; lia. }
    rewrite Hm. change (digits double - 1 - 32) with 20. rewrite Z.shiftl_mul_pow2 by lia.
    rewrite lor_add; [|lia|change (2 ^ 20) with 1048576 in *; change (2 ^ 32) with 4294967296 in *; lia].
    rewrite encode_add by done. rewrite Htot. lia.
  - replace (bias double + 1 <? raw - (bias double - 1)) with false by (change (bias double) with 1023 in *; change (2 ^ exp_bits double) with 2048 in *; lia).
    eexists. split; [done|]. apply (decoded_normal double _ _ _ _ d_std); [lia|done|]. change (digits double - 1 - 32) with 20.
    rewrite Z.shiftl_mul_pow2 by lia. rewrite lor_add by lia. rewrite encode_add by done.
    change (2 ^ frac_bits double) with (2 ^ 20 * 2 ^ 32). lia.
Qed.

(** ** float-precision *)
Lemma precision_single_ok s raw frac x : fields single s raw frac x ->
  (1 < raw -> float_precision_single x = 24) /\
  (raw = 0 -> 0 < frac -> 2 ^ (float_precision_single x - 1) <= frac < 2 ^ float_precision_single x) /\
  (raw = 0 -> frac = 0 -> float_precision_single x = 0).
Proof.
  intros Hx. unfold float_precision_single. rewrite (fields_exp _ s_std _ _ _ _ Hx), (min_eq single).
  pose proof (fields_sig _ s_std _ _ _ _ Hx) as Hsig. change (2 ^ frac_bits single) with (2 ^ 23) in Hsig. rewrite Hsig.
  destruct Hx as (_ & Hr & Hfr & _). split; [|split].
  - intros H. by replace (2 - bias single <? raw - (bias single - 1)) with true by lia.
  - intros -> H. replace (2 - bias single <? 0 - (bias single - 1)) with false by lia. 
    rewrite chz by (change (2 ^ frac_bits single) with 8388608 in Hfr; change (2 ^ 64) with 18446744073709551616; lia).
    replace (frac =? 0) with false by lia. replace (Z.log2 frac + 1 - 1) with (Z.log2 frac) by lia. by apply log2_bounds.
  - intros -> ->. by replace (2 - bias single <? 0 - (bias single - 1)) with false by lia.
Qed.

Lemma precision_double_ok s raw frac x : fields double s raw frac x ->
  (1 < raw -> float_precision_double x = 53) /\
  (raw = 0 -> 0 < frac -> 2 ^ (float_precision_double x - 1) <= frac < 2 ^ float_precision_double x) /\
  (raw = 0 -> frac = 0 -> float_precision_double x = 0).
Proof.
  intros Hx. unfold float_precision_double. rewrite (fields_exp _ d_std _ _ _ _ Hx), (min_eq double).
  destruct (dsplit _ _ _ _ Hx) as [-> ->]. destruct Hx as (_ & Hr & Hfr & _). change (2 ^ frac_bits double) with (2 ^ 52) in Hfr.
  destruct (frac_words frac Hfr) as (Efr & Bh & Bl). split; [|split].
  - intros H. by replace (2 - bias double <? raw - (bias double - 1)) with true by lia.
  - intros -> H. replace (2 - bias double <? 0 - (bias double - 1)) with false by lia.
    set (hi := frac / 2 ^ 32) in *. set (lo := frac mod 2 ^ 32) in *.
    assert (E : (if hi =? 0 then 64 - count_high_zeros lo else 64 - count_high_zeros hi + 32) = Z.log2 frac + 1).
    { change (2 ^ 20) with 1048576 in *. destruct (hi =? 0) eqn:Eh.
      - rewrite chz by (change (2 ^ 64) with 18446744073709551616; change (2 ^ 32) with 4294967296 in *; lia).
        replace (lo =? 0) with false by lia. by replace frac with lo by lia.
      - rewrite chz by (change (2 ^ 64) with 18446744073709551616; lia). rewrite Eh. rewrite Efr, log2_words by lia. lia. }
    rewrite E. replace (Z.log2 frac + 1 - 1) with (Z.log2 frac) by lia. by apply log2_bounds.
  - intros -> ->. by replace (2 - bias double <? 0 - (bias double - 1)) with false by lia.
Qed.
