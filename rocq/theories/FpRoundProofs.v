(** Proofs about the rounding of scale-float. *)
From Verif Require Import Base IntModel IntProofs NumStrModel NumStrSpec NumStrProofs FpModel FpSpec FpProofs FpRoundSpec.
From Coq Require Import ZArith Lia.
From Coq Require Import ZifyBool ZifyNat.
Local Open Scope outcome_scope.
Local Open Scope Z_scope.

Lemma round_shift_nearest m s : 0 < s -> nearest (round_shift m s) m s.
Proof.
  intros Hs. unfold nearest, round_shift. pose proof (Z.pow_pos_nonneg 2 s ltac:(lia) ltac:(lia)) as P.
  pose proof (Z.div_mod m (2 ^ s) ltac:(lia)) as Hd. pose proof (Z.mod_pos_bound m (2 ^ s) P) as Hb.
  set (q := m / 2 ^ s) in *. set (r := m mod 2 ^ s) in *. rewrite Hd.
  destruct (Z.ltb_spec (2 * r) (2 ^ s)) as [H|H]; cbn [orb].
  - replace (q * 2 ^ s - (2 ^ s * q + r)) with (- r) by lia. split; [lia|lia].
  - destruct (Z.eqb_spec (2 * r) (2 ^ s)) as [H1|H1]; cbn [andb].
    + destruct (Z.even q) eqn:E.
      * replace (q * 2 ^ s - (2 ^ s * q + r)) with (- r) by lia. split; [lia|]. intros _. by apply Z.even_spec.
      * replace ((q + 1) * 2 ^ s - (2 ^ s * q + r)) with (2 ^ s - r) by lia. split; [lia|]. intros _. apply Z.even_spec.
        rewrite Z.even_add, E. done.
    + replace ((q + 1) * 2 ^ s - (2 ^ s * q + r)) with (2 ^ s - r) by lia. split; lia.
Qed.
Lemma nearest_scale k m t j : 0 <= j -> 0 <= t -> nearest k (m * 2 ^ j) (t + j) -> nearest k m t.
Proof.
  intros Hj Ht. unfold nearest. rewrite Z.pow_add_r by lia. pose proof (Z.pow_pos_nonneg 2 j ltac:(lia) ltac:(lia)) as P.
  replace (k * (2 ^ t * 2 ^ j) - m * 2 ^ j) with ((k * 2 ^ t - m) * 2 ^ j) by lia. rewrite Z.abs_mul, (Z.abs_eq (2 ^ j)) by lia.
  intros [H1 H2]. split; [nia|]. intros E. apply H2. nia.
Qed.
Lemma nearest_range k m t b : 0 <= t -> 0 <= m <= b * 2 ^ t -> nearest k m t -> 0 <= k <= b.
Proof.
  intros Ht Hm [H _]. pose proof (Z.pow_pos_nonneg 2 t ltac:(lia) ltac:(lia)) as P. split; nia.
Qed.

Section fmt.
Context (f : fmt) (Hf : std f).
Notation F := (2 ^ frac_bits f).
Notation W := (2 ^ exp_bits f).
Notation B := (bias f).

Lemma multiply_finite s raw frac x raw2 frac2 y : fields f s raw frac x -> finite f raw -> fields f 0 raw2 frac2 y -> finite f raw2 ->
  multiply f x y = s * (W * F) + round f (num f raw frac * num f raw2 frac2) (ex f raw + ex f raw2).
Proof.
  intros Hx Hfx Hz Hfz. destruct (std_facts f Hf).
  unfold multiply. rewrite (fields_signed f Hf _ _ _ _ Hx), (fields_signed f Hf _ _ _ _ Hz), (fields_mag f Hf _ _ _ _ Hx), (fields_mag f Hf _ _ _ _ Hz).
  pose proof Hx as (Hs & Hr & Hfr & _). pose proof Hz as (_ & Hr' & Hfr' & _). unfold finite, infinity in *.
  replace ((W - 1) * F <? raw * F + frac) with false by nia. replace ((W - 1) * F <? raw2 * F + frac2) with false by nia.
  replace (raw * F + frac =? (W - 1) * F) with false by nia. replace (raw2 * F + frac2 =? (W - 1) * F) with false by nia.
  cbn [orb].
  destruct (mantissa_num f Hf raw frac ltac:(lia) Hfr) as [-> ->]. destruct (mantissa_num f Hf raw2 frac2 ltac:(lia) ltac:(lia)) as [-> ->].
  f_equal. rewrite (sign_mask f Hf). destruct Hs as [-> | ->].
  - change (Bool.eqb (0 =? 1) (0 =? 1)) with true. cbv iota. lia.
  - change (Bool.eqb (1 =? 1) (0 =? 1)) with false. cbv iota. lia.
Qed.

(** A product that is too small for a normal float. *)
Lemma round_small m e : 0 < m -> e + Z.log2 m - frac_bits f <= emin f -> e < emin f ->
  round f m e = Z.min (infinity f) (round_shift m (emin f - e)).
Proof.
  intros Hm H1 H2. unfold round. replace (m =? 0) with false by lia. rewrite Z.max_l by lia.
  replace (emin f <=? e) with false by lia. f_equal. lia.
Qed.
Lemma inf_big : F < infinity f.
Proof. destruct (std_facts f Hf). unfold infinity. nia. Qed.

(** One multiplication by the smallest normal float. *)
Lemma multiply_down s raw frac x : fields f s raw frac x -> 0 < raw < B ->
  exists k, multiply f x F = s * (W * F) + k /\ nearest k (num f raw frac) (B - raw) /\ 0 <= k <= F.
Proof.
  intros Hx Hr. destruct (std_facts f Hf). pose proof Hx as (Hs & Hr' & Hfr & _).
  assert (Hz : fields f 0 1 0 F). { split; [by left|]. split; [lia|]. split; [lia|]. lia. }
  rewrite (multiply_finite s raw frac x 1 0 F Hx) by (done || unfold finite; lia).
  assert (En : num f 1 0 = F) by (unfold num; cbn; lia). rewrite En.
  destruct (num_range f raw frac Hfr ltac:(lia)) as [N1 N2]. specialize (N2 ltac:(lia)).
  assert (El : Z.log2 (num f raw frac * F) = frac_bits f + frac_bits f).
  { rewrite Z.log2_mul_pow2 by lia. rewrite (log2_F f Hf) by lia. lia. }
  rewrite round_small.
  2:{ nia. }
  2:{ rewrite El, (ex_eq f Hf), (ex_eq f Hf), emin_eq. lia. }
  2:{ rewrite (ex_eq f Hf), (ex_eq f Hf), emin_eq. lia. }
  set (k := round_shift _ _). assert (nearest k (num f raw frac) (B - raw)) as Hk.
  { apply (nearest_scale _ _ _ (frac_bits f)); [lia|lia|].
    replace (B - raw + frac_bits f) with (emin f - (ex f raw + ex f 1)) by (rewrite (ex_eq f Hf), (ex_eq f Hf), emin_eq; lia).
    apply round_shift_nearest. rewrite (ex_eq f Hf), (ex_eq f Hf), emin_eq. lia. }
  assert (0 <= k <= F) as Hb.
  { eapply (nearest_range _ _ (B - raw)); [lia| |exact Hk]. split; [lia|].
    replace (2 ^ (B - raw)) with (2 * 2 ^ (B - raw - 1)) by (rewrite <- Z.pow_succ_r by lia; f_equal; lia).
    pose proof (Z.pow_pos_nonneg 2 (B - raw - 1) ltac:(lia) ltac:(lia)). nia. }
  exists k. split; [|done]. pose proof inf_big. rewrite Z.min_r by lia. done.
Qed.
(** A magnitude up to the smallest normal float. *)
Lemma small_fields s k : (s = 0 \/ s = 1) -> 0 <= k <= F ->
  exists raw frac, fields f s raw frac (s * (W * F) + k) /\ finite f raw /\ num f raw frac = k /\ ex f raw = emin f.
Proof.
  intros Hs Hk. destruct (std_facts f Hf). destruct (decide (k = F)) as [->|].
  - exists 1, 0. split; [split; [done|]; split; [lia|]; split; [lia|lia]|]. unfold finite. split; [lia|]. split; [unfold num; cbn; lia|]. rewrite (ex_eq f Hf), emin_eq. lia.
  - exists 0, k. split; [split; [done|]; split; [lia|]; split; [lia|lia]|]. unfold finite. split; [lia|]. split; [done|]. rewrite (ex_eq f Hf), emin_eq. lia.
Qed.
(** The product of two of them is 0. *)
Lemma multiply_vanish s k k2 : (s = 0 \/ s = 1) -> 0 <= k <= F -> 0 <= k2 <= F -> multiply f (s * (W * F) + k) k2 = s * (W * F).
Proof.
  intros Hs Hk Hk2. destruct (std_facts f Hf).
  destruct (small_fields s k Hs Hk) as (raw & frac & Hx & Hfin & En & Ee).
  destruct (small_fields 0 k2 ltac:(by left) Hk2) as (raw2 & frac2 & Hx2 & Hfin2 & En2 & Ee2). replace (0 * (W * F) + k2) with k2 in Hx2 by lia.
  rewrite (multiply_finite s raw frac _ raw2 frac2 k2 Hx) by done. rewrite En, En2, Ee, Ee2.
  destruct (decide (k * k2 = 0)) as [->|Hnz]. { unfold round. rewrite Z.eqb_refl. lia. }
  assert (0 < k * k2 <= F * F) as Hkk by nia. assert (Hl : Z.log2 (k * k2) <= frac_bits f + frac_bits f).
  { rewrite <- (Z.log2_pow2 (frac_bits f + frac_bits f)) by lia. apply Z.log2_le_mono. rewrite Z.pow_add_r by lia. lia. }
  pose proof (Z.log2_nonneg (k * k2)).
  rewrite round_small; [|lia|rewrite emin_eq; lia|rewrite emin_eq; lia].
  replace (emin f - (emin f + emin f)) with (- emin f) by lia.
  assert (2 * (k * k2) < 2 ^ (- emin f)) as Hlt.
  { rewrite emin_eq. replace (- (1 - B - frac_bits f)) with (1 + (frac_bits f + frac_bits f) + (B - 2 - frac_bits f)) by lia.
    rewrite Z.pow_add_r, Z.pow_add_r, Z.pow_add_r by lia. change (2 ^ 1) with 2.
    assert (2 ^ 1 <= 2 ^ (B - 2 - frac_bits f)) by (apply Z.pow_le_mono_r; lia). nia. }
  unfold round_shift. rewrite Z.div_small, Z.mod_small by lia. replace (2 * (k * k2) <? 2 ^ - emin f) with true by lia. cbn [orb].
  pose proof inf_big. lia.
Qed.
(** A subnormal float times 2^n. *)
Lemma multiply_sub s frac x n : fields f s 0 frac x -> 1 - B <= n < 0 ->
  exists k, multiply f x ((n + B) * F) = s * (W * F) + k /\ nearest k frac (- n) /\ 0 <= k <= F.
Proof.
  intros Hx Hn. destruct (std_facts f Hf). pose proof Hx as (Hs & _ & Hfr & _).
  assert (Hz : fields f 0 (n + B) 0 ((n + B) * F)). { split; [by left|]. split; [lia|]. split; [lia|]. lia. }
  rewrite (multiply_finite s 0 frac x (n + B) 0 _ Hx) by (done || unfold finite; lia).
  assert (En : num f (n + B) 0 = F). { unfold num. replace (n + B =? 0) with false by lia. lia. } rewrite En. change (num f 0 frac) with frac.
  pose proof (Z.pow_pos_nonneg 2 (- n) ltac:(lia) ltac:(lia)) as P.
  destruct (decide (frac = 0)) as [->|].
  { exists 0. split; [unfold round; rewrite Z.mul_0_l, Z.eqb_refl; lia|]. split; [|lia]. unfold nearest. rewrite Z.mul_0_l. cbn. split; [lia|]. intros _. by exists 0. }
  assert (El : Z.log2 (frac * F) <= frac_bits f + frac_bits f).
  { rewrite Z.log2_mul_pow2 by lia. enough (Z.log2 frac < frac_bits f) by lia. apply Z.log2_lt_pow2; lia. }
  rewrite round_small.
  2:{ nia. }
  2:{ rewrite (ex_eq f Hf), (ex_eq f Hf), emin_eq. lia. }
  2:{ rewrite (ex_eq f Hf), (ex_eq f Hf), emin_eq. lia. }
  set (k := round_shift _ _). assert (nearest k frac (- n)) as Hk.
  { apply (nearest_scale _ _ _ (frac_bits f)); [lia|lia|].
    replace (- n + frac_bits f) with (emin f - (ex f 0 + ex f (n + B))) by (rewrite (ex_eq f Hf), (ex_eq f Hf), emin_eq; lia).
    apply round_shift_nearest. rewrite (ex_eq f Hf), (ex_eq f Hf), emin_eq. lia. }
  assert (0 <= k <= F) as Hb. { eapply (nearest_range _ _ (- n)); [lia| |exact Hk]. nia. }
  exists k. split; [|done]. pose proof inf_big. rewrite Z.min_r by lia. done.
Qed.

Lemma scale_under fuel s raw frac x n : fields f s raw frac x -> 0 < raw -> finite f raw -> mod_scale n -> raw + n <= 0 -> (Z.to_nat (Z.abs n) + 1 < fuel)%nat ->
  exists k, scale_loop fuel f x n = Val (s * (W * F) + k) /\ nearest k (num f raw frac) (1 - raw - n) /\ 0 <= k <= F.
Proof.
  revert n. induction fuel as [|fuel IH]; intros n Hx Hr Hfin Hn Hrn Hfuel; [lia|]. destruct (std_facts f Hf). pose proof Hx as (Hs & Hr' & Hfr & _). unfold finite in Hfin.
  destruct fuel as [|fuel]; [lia|]. rewrite (scale_down f Hf _ _ _ _ _ _ Hx) by (done || lia).
  assert (Hn' : mod_scale (n + (B - 1))) by (unfold mod_scale in *; change (2 ^ 60) with 1152921504606846976 in *; lia).
  destruct (decide (0 < raw + (n + (B - 1)))) as [Hp|Hp].
  - rewrite (scale_normal f Hf _ _ _ _ _ _ Hx) by (done || lia). cbn [obind]. set (r := raw + (n + (B - 1))) in *.
    assert (Hz : fields f s r frac ((s * W + r) * F + frac)). { split; [done|]. split; [unfold r; lia|]. split; [done|done]. }
    destruct (multiply_down s r frac _ Hz) as (k & -> & Hk & Hb); [unfold r in *; lia|]. exists k. split; [done|]. split; [|done].
    replace (1 - raw - n) with (B - r) by (unfold r; lia). replace (num f raw frac) with (num f r frac); [done|].
    unfold num. by replace (r =? 0) with false by lia; replace (raw =? 0) with false by lia.
  - destruct (IH (n + (B - 1))) as (k & -> & Hk & Hb); [done|done|unfold finite; lia|done|lia|lia|]. cbn [obind]. rewrite multiply_vanish by (done || lia).
    exists 0. split; [f_equal; lia|]. split; [|lia]. destruct (num_range f raw frac Hfr ltac:(lia)) as [N1 N2].
    assert (2 ^ (frac_bits f + 2) <= 2 ^ (1 - raw - n)) as Hp2 by (apply Z.pow_le_mono_r; lia). rewrite Z.pow_add_r in Hp2 by lia. change (2 ^ 2) with 4 in Hp2.
    unfold nearest. replace (0 * 2 ^ (1 - raw - n) - num f raw frac) with (- num f raw frac) by lia. split; [lia|]. intros _. by exists 0.
Qed.

Lemma scale_under_all s raw frac x n : fields f s raw frac x -> finite f raw -> mod_scale n -> Z.max 1 raw + n <= 0 ->
  exists k, scale_float f x n = Val (s * (W * F) + k) /\ nearest k (num f raw frac) (1 - Z.max 1 raw - n) /\ 0 <= k <= F.
Proof.
  intros Hx Hfin Hn Hrn. destruct (std_facts f Hf). pose proof Hx as (Hs & Hr & Hfr & Ex). unfold scale_float. destruct (decide (raw = 0)) as [->|].
  - replace (Z.to_nat (Z.abs n) + 3)%nat with (S (S (Z.to_nat (Z.abs n) + 1))) by lia. rewrite (scale_sub f Hf _ _ _ _ _ Hx Hn).
    change (num f 0 frac) with frac. replace (1 - Z.max 1 0 - n) with (- n) by lia. destruct (decide (1 - B <= n)).
    + rewrite (scale_one f Hf) by (done || lia). cbn [obind]. destruct (multiply_sub s frac x n Hx) as (k & -> & H); [lia|]. by exists k.
    + destruct (scale_under (S (Z.to_nat (Z.abs n) + 1)) 0 B 0 (one f) n) as (k & -> & _ & Hk); [by apply one_fields|lia|unfold finite; lia|done|lia|lia|].
      cbn [obind]. replace (0 * (W * F) + k) with k by lia.
      assert (x = s * (W * F) + frac) as -> by lia. rewrite multiply_vanish by (done || lia). exists 0. split; [f_equal; lia|]. split; [|lia].
      assert (2 ^ (frac_bits f + 1) <= 2 ^ (- n)) as Hp2 by (apply Z.pow_le_mono_r; lia). rewrite Z.pow_add_r in Hp2 by lia. change (2 ^ 1) with 2 in Hp2.
      unfold nearest. replace (0 * 2 ^ (- n) - frac) with (- frac) by lia. split; [lia|]. intros _. by exists 0.
  - rewrite Z.max_r by lia. apply scale_under; [done|lia|done|done|lia|lia].
Qed.
End fmt.
