(** Proofs about ^, gcd and lcm. *)
From Coq Require Import ZifyBool ZifyNat ZifyN Lia Znumtheory.
From Verif Require Import Base IntModel IntSpec IntProofs IntBitsProofs.
Local Open Scope Z_scope.
Local Open Scope outcome_scope.
Ltac Zify.zify_post_hook ::= Z.div_mod_to_equations.

(** *** Exponentiation *)
Lemma pow_half b p : 0 < p -> b ^ p = (b * b) ^ (p / 2) * b ^ (p mod 2).
Proof.
  intros. rewrite (Z.div_mod p 2) at 1 by lia.
  rewrite Z.pow_add_r by lia. rewrite Z.pow_mul_r by lia. by rewrite Z.pow_2_r.
Qed.

Lemma odd_mod p : p mod 2 = if Z.odd p then 1 else 0.
Proof. by rewrite Zmod_odd. Qed.

Lemma pow_ge b p : 1 <= b -> 1 <= b ^ p \/ p < 0.
Proof. intros. destruct (decide (p < 0)); [auto|left]. pose proof (Z.pow_pos_nonneg b p). lia. Qed.

(** One step of the squaring loop keeps the value and overflows only if the result does. *)
Lemma power_loop_spec fuel b p x :
  0 <= b -> representable b -> 0 <= p -> representable p -> 0 <= x -> representable x ->
  (1 <= x \/ b = 0) -> p < 2 ^ Z.of_nat fuel ->
  power_loop fuel b p x = exact_or_overflow (b ^ p * x).
Proof.
  revert b p x. induction fuel as [|f IH]; intros b p x Hb Hbr Hp Hpr Hx Hxr Hxb Hf; cbn [power_loop].
  { change (2 ^ Z.of_nat 0) with 1 in Hf. rewrite bool_decide_true by lia.
    replace p with 0 by lia. rewrite Z.pow_0_r, Z.mul_1_l. by rewrite exact_ok. }
  case_bool_decide as Hp0.
  { subst p. rewrite Z.pow_0_r, Z.mul_1_l. by rewrite exact_ok. }
  assert (Hp2 : p / 2 < 2 ^ Z.of_nat f).
  { rewrite Nat2Z.inj_succ, Z.pow_succ_r in Hf by lia. lia. }
  pose proof (pow_half b p ltac:(lia)) as Hh. rewrite odd_mod in Hh.
  rewrite int_ash_m1 by done.
  rewrite int_odd_spec by done.
  assert (Hpr2 : representable (p / 2)) by (nums; lia).
  destruct (decide (b = 0)) as [->|Hb0].
  { (* base zero *)
    assert (Hm : (if bool_decide (p > 1) then int_mul 0 0 else Val 0) = Val 0).
    { case_bool_decide; [|done]. rewrite int_mul_spec, exact_ok by (nums; lia). done. }
    rewrite Hm. cbn [obind]. rewrite Z.pow_0_l by lia. rewrite Z.mul_0_l.
    destruct (Z.odd p) eqn:Eo.
    - rewrite int_mul_spec by done. rewrite Z.mul_0_l, exact_ok by (nums; lia). cbn [obind].
      rewrite IH; try done; try (nums; lia); try by auto.
      by rewrite Z.mul_0_r.
    - cbn [obind]. rewrite IH; try done; try (nums; lia); try by auto.
      assert (p / 2 <> 0).
      { rewrite (Zodd_mod p) in Eo. apply Zeq_bool_neq in Eo. lia. }
      rewrite Z.pow_0_l by lia. by rewrite Z.mul_0_l. }
  assert (Hx1 : 1 <= x) by lia. clear Hxb.
  destruct (decide (p > 1)) as [Hp1|Hp1].
  - rewrite bool_decide_true by done.
    rewrite (int_mul_spec b b) by done.
    assert (1 <= p / 2) by lia.
    assert (Hge : b * b <= b ^ p * x).
    { assert (b * b <= b ^ p). { rewrite <- Z.pow_2_r. apply Z.pow_le_mono_r; lia. } nia. }
    destruct (decide (- 2 ^ 61 <= b * b < 2 ^ 61)) as [Hbb|Hbb].
    + rewrite exact_ok by done. cbn [obind].
      destruct (Z.odd p) eqn:Eo; cbn [obind].
      * rewrite int_mul_spec by done. 
        destruct (decide (- 2 ^ 61 <= b * x < 2 ^ 61)) as [Hbx|Hbx].
        -- rewrite exact_ok by done. cbn [obind]. rewrite IH; try done; try lia; try nia; try (left; nia).
           f_equal. rewrite Hh. lia.
        -- rewrite exact_bad by done. cbn [obind]. rewrite exact_bad; [done|].
           unfold representable. intros [_ Hc]. apply Hbx. split; [nia|].
           assert (b * 1 <= b ^ p). { rewrite Z.mul_1_r, <- (Z.pow_1_r b) at 1. apply Z.pow_le_mono_r; lia. } nia.
      * rewrite IH; try done; try lia; try nia; try (left; nia). f_equal. rewrite Hh. lia.
    + rewrite exact_bad by done. cbn [obind]. rewrite exact_bad; [done|].
      unfold representable. intros [_ Hc]. apply Hbb. split; [nia|lia].
  - assert (p = 1) as -> by lia. rewrite bool_decide_false by lia. cbn [obind].
    change (Z.odd 1) with true. cbv iota. rewrite int_mul_spec by done. rewrite Z.pow_1_r.
    destruct (decide (- 2 ^ 61 <= b * x < 2 ^ 61)) as [Hbx|Hbx].
    + rewrite exact_ok by done. cbn [obind]. change (1 / 2) with 0.
      destruct f; cbn [power_loop]; by rewrite bool_decide_true.
    + by rewrite exact_bad.
Qed.

Lemma power_nonneg_spec b p :
  0 <= b -> representable b -> 0 <= p -> representable p ->
  power_nonneg b p = exact_or_overflow (b ^ p).
Proof.
  intros Hb Hbr Hp Hpr. unfold power_nonneg. rewrite int_ash_m1, int_odd_spec by done.
  assert (Hpr2 : representable (p / 2)) by (nums; lia).
  assert (Hfuel : p / 2 < 2 ^ Z.of_nat (Z.to_nat (Z.log2 p + 1))).
  { pose proof (Z.log2_nonneg p). rewrite Z2Nat.id by lia.
    destruct (decide (p = 0)) as [->|]; [reflexivity|].
    pose proof (Z.log2_spec p ltac:(lia)) as [_ Hl]. rewrite Z.add_1_r. lia. }
  destruct (decide (p > 1)) as [Hp1|Hp1].
  - rewrite bool_decide_true by done. rewrite int_mul_spec by done.
    pose proof (pow_half b p ltac:(lia)) as Hh. rewrite odd_mod in Hh.
    destruct (decide (- 2 ^ 61 <= b * b < 2 ^ 61)) as [Hbb|Hbb].
    + rewrite exact_ok by done. cbn [obind]. 
      rewrite power_loop_spec; try done; try lia.
      * f_equal. rewrite Hh. destruct (Z.odd p); lia.
      * destruct (Z.odd p); lia.
      * destruct (Z.odd p); [done|nums; lia].
      * destruct (Z.odd p); [nia|lia].
    + rewrite exact_bad by done. cbn [obind]. rewrite exact_bad; [done|].
      unfold representable. intros [_ Hc]. apply Hbb. split; [nia|].
      destruct (decide (b = 0)) as [->|]; [lia|].
      assert (b * b <= b ^ p). { rewrite <- Z.pow_2_r. apply Z.pow_le_mono_r; lia. } lia.
  - rewrite bool_decide_false by done. cbn [obind].
    assert (p = 0 \/ p = 1) as [-> | ->] by lia; cbn -[exact_or_overflow Z.pow].
    + rewrite exact_ok; [done|nums; lia].
    + rewrite Z.pow_1_r. by rewrite exact_ok.
Qed.

Lemma int_power_spec b p :
  representable b -> 0 <= p -> representable p ->
  (b < 0 -> b <> - 2 ^ 61 /\ b ^ p <> - 2 ^ 61) ->
  int_power b p = exact_or_overflow (b ^ p).
Proof.
  intros Hb Hp Hpr Hm. unfold int_power. rewrite bool_decide_false by lia.
  assert (Hash : int_ash 1 p = exact_or_overflow (2 ^ p)).
  { rewrite int_ash_spec by (nums; lia). rewrite bool_decide_false by lia. by rewrite Z.mul_1_l. }
  case_bool_decide as Hb2; [by subst|]. case_bool_decide as Hb0; [|by rewrite power_nonneg_spec by (done || lia)].
  destruct (Hm Hb0) as [Hb1 Hr]. 
  rewrite int_negative_spec by done. rewrite exact_ok by (nums; lia). cbn [obind].
  rewrite int_odd_spec by done. cbn [obind].
  assert (Hi : (if bool_decide (- b = 2) then int_ash 1 p else power_nonneg (- b) p)
             = exact_or_overflow ((- b) ^ p)).
  { case_bool_decide as E; [by rewrite E|]. apply power_nonneg_spec; nums; lia. }
  rewrite Hi. pose proof (Z.pow_nonneg (- b) p ltac:(lia)) as Hn.
  destruct (Z.odd p) eqn:Eo.
  - assert (HO : Z.Odd p) by by apply Z.odd_spec.
    pose proof (Z.pow_opp_odd b p HO) as Hpo.
    destruct (decide (- 2 ^ 61 <= (- b) ^ p < 2 ^ 61)) as [H|H].
    + rewrite exact_ok by done. cbn [obind]. rewrite int_negative_spec by done. f_equal. lia.
    + rewrite exact_bad by done. cbn [obind]. rewrite exact_bad; [done|]. nums. lia.
  - assert (HE : Z.Even p) by (apply Z.even_spec; rewrite <- Z.negb_odd; by rewrite Eo).
    pose proof (Z.pow_opp_even b p HE) as Hpo. rewrite Hpo.
    destruct (exact_or_overflow (b ^ p)); done.
Qed.

(** *** gcd *)
Lemma gcd_even_both u v : Z.gcd (2 * u) (2 * v) = 2 * Z.gcd u v.
Proof. rewrite Z.gcd_mul_mono_l. lia. Qed.

Lemma gcd_even_odd s t : Z.odd s = true -> Z.gcd s (2 * t) = Z.gcd s t.
Proof.
  intros Hs. rewrite Z.gcd_comm, (Z.gcd_comm s t).
  apply Z.gcd_unique; [apply Z.gcd_nonneg|..].
  - apply Z.divide_mul_r, Z.gcd_divide_l.
  - apply Z.gcd_divide_r.
  - intros q H1 H2. apply Z.gcd_greatest; [|done].
    apply (Gauss q 2 t); [done|].
    apply rel_prime_sym. apply prime_rel_prime; [apply prime_2|].
    intros H3. pose proof (Z.divide_trans 2 q s H3 H2) as [k Hk].
    apply Z.odd_spec in Hs as [m Hm]. lia.
Qed.

Lemma odd_lor u v : Z.odd (Z.lor u v) = Z.odd u || Z.odd v.
Proof. rewrite <- !Z.bit0_odd. apply Z.lor_spec. Qed.

Lemma odd_false_half u : Z.odd u = false -> u = 2 * (u / 2).
Proof. rewrite Zodd_mod. intros H. apply Zeq_bool_neq in H. lia. Qed.

Lemma lor_representable u v : representable u -> representable v -> representable (Z.lor u v).
Proof.
  intros Hu Hv. rewrite <- int_logior_spec. unfold int_logior. apply untag_representable.
  apply inw_lor; by apply tag_inw.
Qed.

Lemma gcd_halve_spec fuel k u v :
  0 < u -> representable u -> 0 < v -> representable v -> 0 <= k -> k + Z.of_nat fuel < 2 ^ 61 ->
  u < 2 ^ (Z.of_nat fuel + 1) ->
  exists k' u' v', gcd_halve fuel k u v = Val (k', u', v') /\
    k <= k' <= k + Z.of_nat fuel /\ 0 < u' <= u /\ 0 < v' <= v /\ (Z.odd u' || Z.odd v') = true /\
    u = u' * 2 ^ (k' - k) /\ v = v' * 2 ^ (k' - k).
Proof.
  revert k u v. induction fuel as [|f IH]; intros k u v Hu Hur Hv Hvr Hk Hkf Hf; cbn [gcd_halve].
  - change (2 ^ (Z.of_nat 0 + 1)) with 2 in Hf. assert (u = 1) as -> by lia.
    rewrite int_odd_spec, int_logior_spec, odd_lor by (rewrite int_logior_spec; by apply lor_representable).
    cbn [obind]. change (Z.odd 1) with true. cbv iota. cbn [orb].
    exists k, 1, v. replace (k - k) with 0 by lia. rewrite Z.pow_0_r. 
    split; [done|]. change (Z.of_nat 0) with 0. split; [lia|]. repeat split; (done || lia).
  - rewrite int_odd_spec, int_logior_spec, odd_lor by (rewrite int_logior_spec; by apply lor_representable).
    cbn [obind]. destruct (Z.odd u || Z.odd v) eqn:Eo.
    + exists k, u, v. replace (k - k) with 0 by lia. rewrite Z.pow_0_r. split; [done|].
      split; [lia|]. repeat split; (done || lia).
    + apply orb_false_iff in Eo as [Eu Ev].
      apply odd_false_half in Eu. apply odd_false_half in Ev.
      rewrite int_add_spec, exact_ok by (nums; lia). cbn [obind].
      rewrite !int_ash_m1 by done. cbn [obind].
      destruct (IH (k + 1) (u / 2) (v / 2)) as (k' & u' & v' & E & Hk' & Hu' & Hv' & Ho & E1 & E2);
        try (nums; lia).
      { rewrite Nat2Z.inj_succ in Hf. 
        replace (Z.succ (Z.of_nat f) + 1) with (Z.succ (Z.of_nat f + 1)) in Hf by lia.
        rewrite Z.pow_succ_r in Hf by lia. lia. }
      exists k', u', v'. split; [done|]. split; [lia|]. split; [lia|]. split; [lia|]. split; [done|].
      replace (k' - k) with (Z.succ (k' - (k + 1))) by lia. rewrite Z.pow_succ_r by lia. lia.
Qed.

(** The variable that is about to be replaced is [u] if [tmp] is positive, else [v]; the other
    one is odd and has with [tmp] the gcd we look for. *)
Lemma log2_half t : 2 <= t -> Z.log2 (t / 2) = Z.log2 t - 1.
Proof.
  intros. rewrite <- Z.div2_div. pose proof (Z.log2_shiftr t 1 ltac:(lia)) as H1.
  rewrite Z.shiftr_div_pow2 in H1 by lia. rewrite Z.div2_div. change (2 ^ 1) with 2 in H1. 
  pose proof (Z.log2_le_mono 2 t ltac:(lia)) as H2. change (Z.log2 2) with 1 in H2. lia.
Qed.

Lemma gcd_sub_r s t : Z.gcd s (t - s) = Z.gcd s t.
Proof. rewrite Z.gcd_sub_diag_r. done. Qed.

Lemma gcd_loop_spec fuel k u v t g :
  0 < u -> representable u -> 0 < v -> representable v -> t <> 0 -> representable (- t) -> representable t ->
  0 <= k < 2 ^ 61 -> 
  (0 < t -> Z.odd v = true /\ Z.gcd v t = g /\ Z.log2 v + Z.log2 t < Z.of_nat fuel) ->
  (t < 0 -> Z.odd u = true /\ Z.gcd u (- t) = g /\ Z.log2 u + Z.log2 (- t) < Z.of_nat fuel) ->
  gcd_loop fuel k u v t = exact_or_overflow (g * 2 ^ k).
Proof.
  revert u v t. induction fuel as [|f IH]; intros u v t Hu Hur Hv Hvr Ht Htn Htr Hk Hpos Hneg.
  { exfalso. destruct (Z_lt_le_dec 0 t) as [H|H].
    - destruct (Hpos H) as (_ & _ & Hl). pose proof (Z.log2_nonneg v). pose proof (Z.log2_nonneg t). lia.
    - destruct (Hneg ltac:(lia)) as (_ & _ & Hl). pose proof (Z.log2_nonneg u). pose proof (Z.log2_nonneg (-t)). lia. }
  cbn [gcd_loop]. rewrite int_odd_spec by done. cbn [obind].
  destruct (Z.odd t) eqn:Eo.
  - (* an odd tmp replaces u or v *)
    assert (Hstep : forall u' v', 0 < u' -> representable u' -> 0 < v' -> representable v' ->
        Z.odd u' = true -> Z.odd v' = true -> Z.gcd u' v' = g -> Z.log2 u' + Z.log2 v' <= Z.of_nat f ->
        (do tmp <- int_sub u' v';
         if bool_decide (tmp = 0) then int_ash u' k
         else do t <- int_ash tmp (-1); gcd_loop f k u' v' t) = exact_or_overflow (g * 2 ^ k)).
    { clear - IH Hk. intros u v Hu Hur Hv Hvr Hou Hov Hg Hl.
      rewrite int_sub_spec, exact_ok by (nums; lia). cbn [obind]. case_bool_decide as E.
      - assert (u = v) as <- by lia. rewrite Z.gcd_diag in Hg.
        rewrite int_ash_spec, bool_decide_false by (done || nums; lia). f_equal. lia.
      - rewrite int_ash_m1 by (nums; lia). cbn [obind].
        apply Z.odd_spec in Hou as Hou'. apply Z.odd_spec in Hov as Hov'.
        destruct Hou' as [a Ha]. destruct Hov' as [b Hb].
        assert (Ed : u - v = 2 * (a - b)) by lia.
        assert (Ed2 : (u - v) / 2 = a - b) by lia. rewrite Ed2.
        apply IH; try done; try (nums; lia).
        + intros Hp. split; [done|]. split.
          * rewrite <- (gcd_even_odd v (a - b)), <- Ed, Z.gcd_sub_diag_r by done. 
            by rewrite Z.gcd_comm.
          * pose proof (log2_half (u - v) ltac:(lia)) as Hh. rewrite Ed2 in Hh.
            pose proof (Z.log2_le_mono (u - v) u ltac:(lia)). lia.
        + intros Hn. split; [done|]. split.
          * rewrite <- (gcd_even_odd u (- (a - b))) by done.
            replace (2 * - (a - b)) with (v - u) by lia. by rewrite Z.gcd_sub_diag_r.
          * pose proof (log2_half (v - u) ltac:(lia)) as Hh.
            replace ((v - u) / 2) with (- (a - b)) in Hh by lia.
            pose proof (Z.log2_le_mono (v - u) v ltac:(lia)). lia. }
    case_bool_decide as Es; cbn [obind].
    + destruct (Hpos ltac:(lia)) as (Ho & Hg & Hl).
      apply Hstep; try done; try lia. by rewrite Z.gcd_comm.
    + rewrite int_negative_spec, exact_ok by done. cbn [obind].
      destruct (Hneg ltac:(lia)) as (Ho & Hg & Hl).
      apply Hstep; try done; try lia. by rewrite Z.odd_opp.
  - apply odd_false_half in Eo. rewrite int_ash_m1 by done. cbn [obind].
    apply IH; try done; try (nums; lia).
    + intros Hp. destruct (Hpos ltac:(lia)) as (Ho & Hg & Hl). split; [done|]. split.
      * rewrite <- (gcd_even_odd v (t / 2)) by done. by rewrite <- Eo.
      * rewrite log2_half by lia. lia.
    + intros Hn. destruct (Hneg ltac:(lia)) as (Ho & Hg & Hl). split; [done|]. split.
      * rewrite <- (gcd_even_odd u (- (t / 2))) by done.
        by replace (2 * - (t / 2)) with (- t) by lia.
      * replace (- (t / 2)) with (- t / 2) by lia. rewrite log2_half by lia. lia.
Qed.

Lemma int_gcd_spec n m :
  representable n -> representable m ->
  n <> 0 -> m <> 0 -> n <> m -> n <> - 2 ^ 61 -> m <> - 2 ^ 61 ->
  int_gcd n m = Val (Z.gcd n m).
Proof.
  intros Hn Hm Hn0 Hm0 Hnm Hn1 Hm1. unfold int_gcd.
  rewrite !bool_decide_false by done. rewrite !int_abs_spec, !exact_ok by (nums; lia). cbn [obind].
  assert (Hr : representable (Z.gcd n m)).
  { pose proof (Z.gcd_nonneg n m). pose proof (Z.gcd_divide_l n m) as H1.
    apply Z.divide_abs_r in H1. apply Z.divide_pos_le in H1; [|lia]. nums. lia. }
  pose proof (Z.log2_nonneg (Z.abs n)).
  destruct (Z.log2_spec (Z.abs n) ltac:(lia)) as [_ Hl].
  assert (Hl61 : Z.log2 (Z.abs n) < 61) by (apply Z.log2_lt_pow2; nums; lia).
  destruct (gcd_halve_spec (Z.to_nat (Z.log2 (Z.abs n))) 0 (Z.abs n) (Z.abs m))
    as (k & u & v & E & Hk & Hu & Hv & Ho & E1 & E2); try (nums; lia).
  { rewrite Z2Nat.id by lia. by rewrite Z.add_1_r. }
  rewrite E. cbn [obind]. rewrite Z.sub_0_r in E1, E2.
  rewrite Z2Nat.id in Hk by lia.
  assert (Hur : representable u) by (nums; lia). assert (Hvr : representable v) by (nums; lia).
  rewrite int_odd_spec by done. cbn [obind].
  pose proof (Z.log2_nonneg u). pose proof (Z.log2_nonneg v).
  assert (Hg : Z.gcd u v * 2 ^ k = Z.gcd n m).
  { rewrite <- (Z.gcd_abs_l n m), <- (Z.gcd_abs_r (Z.abs n) m). rewrite E1, E2, Z.gcd_mul_mono_r.
    rewrite (Z.abs_eq (2 ^ k)); [done|]. apply Z.pow_nonneg. lia. }
  rewrite <- (exact_ok (Z.gcd n m)), <- Hg by done.
  destruct (Z.odd u) eqn:Eu.
  - rewrite int_negative_spec, exact_ok by (nums; lia). cbn [obind].
    apply gcd_loop_spec; try done; try (nums; lia).
    intros _. split; [done|]. rewrite Z.opp_involutive. split; [done|].
    rewrite Nat2Z.inj_succ, Z2Nat.id by lia. lia.
  - rewrite int_ash_m1 by done. cbn [obind]. rewrite orb_false_l in Ho.
    apply odd_false_half in Eu.
    apply gcd_loop_spec; try done; try (nums; lia).
    intros _. split; [done|]. split.
    + rewrite <- (gcd_even_odd v (u / 2)) by done. rewrite <- Eu. apply Z.gcd_comm.
    + rewrite log2_half by lia. rewrite Nat2Z.inj_succ, Z2Nat.id by lia. lia.
Qed.

Lemma int_gcd_nonneg n m :
  representable n -> representable m -> 0 <= n -> 0 <= m -> int_gcd n m = Val (Z.gcd n m).
Proof.
  intros Hn Hm Hn0 Hm0. destruct (decide (n = 0)) as [->|].
  { unfold int_gcd. rewrite bool_decide_true by done. rewrite Z.gcd_0_l. f_equal. lia. }
  destruct (decide (m = 0)) as [->|].
  { unfold int_gcd. rewrite bool_decide_false, bool_decide_true by done. rewrite Z.gcd_0_r. f_equal. lia. }
  destruct (decide (n = m)) as [->|].
  { unfold int_gcd. rewrite !bool_decide_false, bool_decide_true by done. rewrite Z.gcd_diag. f_equal. lia. }
  apply int_gcd_spec; nums; lia.
Qed.

Lemma int_lcm_nonneg n m :
  representable n -> representable m -> 0 <= n -> 0 <= m -> 0 < n \/ 0 < m ->
  int_lcm n m = exact_or_overflow (Z.lcm n m).
Proof.
  intros Hn Hm Hn0 Hm0 Hp. unfold int_lcm. rewrite int_gcd_nonneg by done. cbn [obind].
  pose proof (Z.gcd_nonneg n m). 
  assert (Hg0 : Z.gcd n m <> 0). { intros E. apply Z.gcd_eq_0 in E. lia. }
  destruct (Z.gcd_divide_l n m) as [a Ha]. destruct (Z.gcd_divide_r n m) as [b Hb].
  set (g := Z.gcd n m) in *.
  assert (Hmax : Z.max n m = Z.max a b * g) by nia.
  assert (Hmin : Z.min n m = Z.min a b * g) by nia.
  assert (Hgr : representable g).
  { assert (g <= n \/ g <= m).
    { destruct Hp as [Hp|Hp]; [left|right]; apply Z.divide_pos_le; try done;
        [by exists a|by exists b]. }
    nums. lia. }
  assert (Hmr : representable (Z.max n m)) by (nums; lia).
  destruct (int_truncate_spec (Z.max n m) g Hmr Hgr Hg0) as (q & r & (E1 & E2 & E3 & E4) & Hr & Ho).
  assert (Hr0 : r = 0). { rewrite Hmax in E1. assert (0 <= r) by (apply E3; lia).
    assert (Z.abs r < g) by lia. assert (Hd : (g | r)) by (exists (Z.max a b - q); lia).
    destruct (decide (r = 0)); [done|]. apply Z.divide_pos_le in Hd; lia. }
  assert (Hq : q = Z.max a b). { subst r. rewrite Hmax in E1. nia. }
  assert (Hqr : representable q). { subst q. nums. nia. }
  destruct Ho as [[_ ->]|[? _]]; [|done]. cbn [obind].
  rewrite int_mul_spec by (done || nums; lia). f_equal.
  rewrite Hq, Hmin. unfold Z.lcm. fold g. 
  rewrite Hb at 1. rewrite Z.div_mul by done. rewrite Z.abs_eq by nia.
  replace n with (a * g) by lia. destruct (Z.max_spec a b) as [[? ->]|[? ->]].
  - rewrite Z.min_l by lia. lia.
  - rewrite Z.min_r by lia. lia.
Qed.

Lemma is_gcd_Zgcd a b : is_gcd a b (Z.gcd a b).
Proof.
  unfold is_gcd. split; [apply Z.gcd_divide_l|]. split; [apply Z.gcd_divide_r|].
  split; [apply Z.gcd_nonneg|]. intros. by apply Z.gcd_greatest.
Qed.
Lemma is_lcm_Zlcm a b : is_lcm a b (Z.lcm a b).
Proof.
  unfold is_lcm. split; [apply Z.divide_lcm_l|]. split; [apply Z.divide_lcm_r|].
  split; [apply Z.lcm_nonneg|]. intros. by apply Z.lcm_least.
Qed.
