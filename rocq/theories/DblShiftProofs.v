(** Proofs about the model of double integers: shifts. *)
From Coq Require Import ZifyBool ZifyNat ZifyN Lia.
From Verif Require Import Base IntModel IntSpec IntProofs IntBitsProofs DblModel DblSpec DblProofs.
Local Open Scope Z_scope.
Local Open Scope outcome_scope.
Ltac Zify.zify_post_hook ::= Z.div_mod_to_equations.

(** *** Shifts *)

Lemma lor_add a b s : 0 <= s -> 0 <= b < 2 ^ s -> Z.lor (a * 2 ^ s) b = a * 2 ^ s + b.
Proof.
  intros Hs Hb. apply Z.bits_inj'. intros i Hi. rewrite Z.lor_spec.
  destruct (decide (i < s)).
  - rewrite Z.mul_pow2_bits_low by lia. cbn [orb].
    rewrite <- (Z.mod_pow2_bits_low (a * 2 ^ s + b) s) by lia.
    rewrite Z.add_comm, Z.mod_add, Z.mod_small by lia. done.
  - assert (Z.testbit b i = false) as ->.
    { rewrite <- (Z.mod_small b (2 ^ s)) by done. apply Z.mod_pow2_bits_high. lia. }
    rewrite orb_false_r. replace i with (i - s + s) by lia. rewrite <- !Z.shiftr_spec by lia.
    rewrite !Z.shiftr_div_pow2, Z.div_add_l, (Z.div_small b), Z.div_mul by lia. f_equal. lia.
Qed.

Lemma unsigned_cong x : exists k, unsigned x = x + k * 2 ^ 64.
Proof. exists (- (x / 2 ^ 64)). unfold unsigned. dnums. lia. Qed.

Lemma unsigned_shift_left_spec x n : 0 <= n < 64 -> unsigned_shift_left x n = Val (wrap (x * 2 ^ n)).
Proof.
  intros Hn. unfold unsigned_shift_left, double_shift_left. rewrite bool_decide_true by lia. cbn [obind].
  unfold split. f_equal. unfold merge. change (unsigned 0) with 0. rewrite Z.add_0_r.
  rewrite Z.shiftl_mul_pow2, Z.shiftr_div_pow2 by lia.
  replace (unsigned x * 2 ^ 64 * 2 ^ n) with (unsigned x * 2 ^ n * 2 ^ 64) by lia.
  change (2 ^ 128) with (2 ^ 64 * 2 ^ 64). rewrite Z.mul_mod_distr_r, Z.div_mul by lia.
  apply wrap_mod. rewrite Z.mod_mod by lia. destruct (unsigned_cong x) as [k ->].
  replace ((x + k * 2 ^ 64) * 2 ^ n) with (x * 2 ^ n + k * 2 ^ n * 2 ^ 64) by lia.
  by rewrite Z.mod_add by lia.
Qed.

Lemma shift_fits v s :
  0 <= s < 64 -> fits v -> (fits (v * 2 ^ s) <-> inw (v / 2 ^ 64 * 2 ^ s)).
Proof.
  intros Hs Hv. pose proof (Z.div_mod v (2 ^ 64) ltac:(lia)) as E.
  pose proof (Z.mod_pos_bound v (2 ^ 64) ltac:(lia)) as Hb.
  set (h := v / 2 ^ 64) in *. set (l := v mod 2 ^ 64) in *. clearbody h l.
  assert (Hp : 2 ^ 63 = 2 ^ s * 2 ^ (63 - s)) by (rewrite <- Z.pow_add_r by lia; f_equal; lia).
  assert (0 < 2 ^ s) by lia. assert (0 < 2 ^ (63 - s)) by lia.
  set (P := 2 ^ s) in *. set (Q := 2 ^ (63 - s)) in *. clearbody P Q.
  unfold fits, inw. rewrite word_limit_eq, <- p63, Hp.
  replace (2 ^ 127) with (Q * 2 ^ 64 * P) by (change (2 ^ 127) with (2 ^ 63 * 2 ^ 64); rewrite Hp; lia).
  rewrite (Z.mul_comm P Q), <- (Z.mul_opp_l Q P), <- (Z.mul_opp_l (Q * 2 ^ 64) P).
  rewrite <- !Z.mul_le_mono_pos_r, <- !Z.mul_lt_mono_pos_r by lia.
  set (B := 2 ^ 64) in *. assert (0 < B) by (subst B; lia). clearbody B. subst v. clear Hv Hp.
  split; intros [? ?]; split; nia.
Qed.

Lemma dash_left_spec x s :
  well_formed x -> 0 <= s ->
  (fits (value x * 2 ^ s) /\ returns (dash_left x (Z.min s 128)) (value x * 2 ^ s)) \/
  (~ fits (value x * 2 ^ s) /\ overflows (dash_left x (Z.min s 128))).
Proof.
  intros Hx Hs0. unfold dash_left.
  destruct (words_spec x Hx) as (l & h & -> & Hl & Hh & -> & _). cbn [obind].
  pose proof (unsigned_range l) as Hu.
  assert (Hfit := pair_value_fits l h Hh).
  case_bool_decide as H64.
  - rewrite Z.min_l by lia. assert (Hs : 0 <= s < 64) by lia. clear H64.
    unfold double_shift_left. rewrite bool_decide_true by lia. cbn [obind].
    destruct (split (Z.shiftl (merge l 0) s)) as [rl hl] eqn:E.
    unfold split in E. injection E as Erl Ehl.
    rewrite shift_left_signal_overflow_spec by done.
    assert (Hm : merge l 0 = unsigned l) by (unfold merge; change (unsigned 0) with 0; lia).
    rewrite Hm, Z.shiftl_mul_pow2 in Erl, Ehl by lia. rewrite Z.shiftr_div_pow2 in Ehl by lia.
    assert (Hp : 2 ^ s <= 2 ^ 63) by (apply Z.pow_le_mono_r; lia).
    assert (0 < 2 ^ s) by lia.
    rewrite (Z.mod_small _ (2 ^ 128)) in Ehl by (dnums; nia).
    assert (Hb : 0 <= unsigned l * 2 ^ s / 2 ^ 64 < 2 ^ s).
    { split; [apply Z.div_pos; nia|]. apply Z.div_lt_upper_bound; [lia|nia]. }
    rewrite wrap_id in Ehl by (dnums; lia).
    pose proof (shift_fits (pair_value l h) s Hs Hfit) as Hiff.
    assert (Hd : pair_value l h / 2 ^ 64 = h).
    { unfold pair_value. fold (unsigned l). rewrite Z.div_add_l, (Z.div_small (unsigned l)) by lia. lia. }
    rewrite Hd in Hiff.
    destruct (decide (inw (h * 2 ^ s))) as [Hi|Hi].
    + left. split; [tauto|]. rewrite checked_ok by done. cbn [obind].
      rewrite Z.lor_comm, lor_add by lia. subst rl hl.
      assert (E2 : pair_value (wrap (unsigned l * 2 ^ s)) (h * 2 ^ s + unsigned l * 2 ^ s / 2 ^ 64)
                   = pair_value l h * 2 ^ s).
      { unfold pair_value. fold (unsigned (wrap (unsigned l * 2 ^ s))). rewrite unsigned_wrap.
        fold (unsigned l). pose proof (Z.div_mod (unsigned l * 2 ^ s) (2 ^ 64) ltac:(lia)). lia. }
      rewrite <- E2. apply interpret_spec; [apply wrap_range|].
      apply word_inw. assert (Hf2 : fits (pair_value l h * 2 ^ s)) by tauto.
      rewrite <- E2 in Hf2. unfold pair_value in Hf2.
      pose proof (Z.mod_pos_bound (wrap (unsigned l * 2 ^ s)) (2 ^ 64) ltac:(lia)).
      set (w := _ mod _) in Hf2, H0. clearbody w.
      set (q := h * 2 ^ s + _) in *. clearbody q. dnums. lia.
    + right. split; [tauto|]. by rewrite checked_bad.
  - assert (Hbig : h <> sign_word l -> ~ fits (pair_value l h * 2 ^ s)).
    { intros Hne. assert (Hp : 2 ^ 64 <= 2 ^ s) by (apply Z.pow_le_mono_r; lia).
      assert (pair_value l h < - 2 ^ 63 \/ 2 ^ 63 <= pair_value l h).
      { unfold pair_value. fold (unsigned l). rewrite unsigned_case by done.
        unfold sign_word in Hne. case_bool_decide; dnums; lia. }
      set (v := pair_value l h) in *. clearbody v. change (2 ^ 127) with (2 ^ 63 * 2 ^ 64) in *.
      unfold fits. change (2 ^ 127) with (2 ^ 63 * 2 ^ 64). dnums. nia. }
    destruct (negb (bool_decide (h = sign_word h)) || negb (bool_decide (h = sign_word l))) eqn:E.
    { right. split; [|done]. apply Hbig. intros ->.
      apply orb_true_iff in E. rewrite !negb_true_iff, !bool_decide_eq_false in E.
      unfold sign_word in E. repeat case_bool_decide; lia. }
    apply orb_false_iff in E as [_ E]. rewrite negb_false_iff, bool_decide_eq_true in E.
    assert (Hv : pair_value l h = l) by (rewrite E; by apply sign_word_small).
    rewrite Hv in *. clear Hbig.
    assert (Hret : forall r, inw r -> returns (interpret 0 r) (r * 2 ^ 64)).
    { intros r Hr. replace (r * 2 ^ 64) with (pair_value 0 r) by (unfold pair_value; rewrite Z.mod_0_l; lia).
      apply interpret_spec; [dnums; lia|done]. }
    assert (Hff : forall r, fits (r * 2 ^ 64) <-> inw r) by (intros r; dnums; lia).
    case_bool_decide as H128.
    + assert (128 <= s) by lia. assert (Hp : 2 ^ 128 <= 2 ^ s) by (apply Z.pow_le_mono_r; lia).
      rewrite shift_left_signal_overflow_spec by (done || lia).
      destruct (decide (l = 0)) as [->|Hl0].
      * left. rewrite !Z.mul_0_l. split; [dnums; lia|]. rewrite checked_ok by (dnums; lia). cbn [obind].
        rewrite shift_left_signal_overflow_spec by (dnums; lia). rewrite !Z.mul_0_l.
        rewrite checked_ok by (dnums; lia). cbn [obind]. exact (Hret 0 ltac:(dnums; lia)).
      * right. split; [dnums; nia|].
        destruct (decide (inw (l * 2 ^ 32))); [|by rewrite checked_bad].
        rewrite checked_ok by done. cbn [obind].
        rewrite shift_left_signal_overflow_spec by (done || lia). rewrite checked_bad; [done|].
        change (2 ^ 32) with 4294967296. dnums. lia.
    + cbn [obind]. assert (s < 128) by lia. rewrite Z.min_l by lia.
      rewrite shift_left_signal_overflow_spec by (done || lia).
      assert (Hps : 2 ^ s = 2 ^ (s - 64) * 2 ^ 64) by (rewrite <- Z.pow_add_r by lia; f_equal; lia).
      rewrite Hps, Z.mul_assoc, Hff.
      destruct (decide (inw (l * 2 ^ (s - 64)))).
      * left. split; [done|]. rewrite checked_ok by done. by apply Hret.
      * right. split; [done|]. by rewrite checked_bad.
Qed.

Lemma shl_bits x n j : 0 <= n < 64 -> 0 <= j < 64 ->
  Z.testbit (wrap (x * 2 ^ n)) j = if bool_decide (j < n) then false else Z.testbit x (j - n).
Proof.
  intros Hn Hj. rewrite wrap_low by done. case_bool_decide.
  - by rewrite Z.mul_pow2_bits_low by lia.
  - by rewrite Z.mul_pow2_bits by lia.
Qed.

Lemma dash_right_spec x s :
  well_formed x -> 0 < s -> returns (dash_right x (Z.min s 128)) (value x / 2 ^ s).
Proof.
  intros Hx Hs0. unfold dash_right.
  pose proof (dnegative_p_spec x Hx) as Hn.
  destruct (words_spec x Hx) as (l & h & -> & Hl & Hh & Hv & _). rewrite Hv in *. cbn [obind].
  assert (Hfit := pair_value_fits l h Hh).
  destruct (decide (Z.min s 128 < 64)) as [H64|H64];
    [rewrite bool_decide_true by done|rewrite bool_decide_false by done].
  - rewrite Z.min_l by lia. assert (Hs : 0 < s < 64) by lia. clear H64 Hn.
    rewrite ashr_val by lia. cbn [obind]. unfold rotate_right.
    destruct (lshr_ok h s ltac:(lia)) as (hr & -> & Hhr' & Hhr). cbn [obind].
    rewrite shl_val by lia. cbn [obind].
    destruct (lshr_ok l s ltac:(lia)) as (lr & -> & Hlr' & Hlr). cbn [obind].
    rewrite unsigned_shift_left_spec by lia. cbn [obind].
    set (low := Z.lor _ _).
    assert (Hlow : inw low).
    { apply inw_lor; [done|]. apply inw_land; [|apply wrap_range].
      apply inw_lor; [apply wrap_range|done]. }
    destruct (interpret_spec low (h / 2 ^ s) Hlow) as (r & -> & Hr & E).
    { assert (1 < 2 ^ s) by (apply Z.pow_gt_1; lia). dnums. split.
      - apply Z.div_le_lower_bound; nia.
      - apply Z.div_lt_upper_bound; nia. }
    exists r. split; [done|]. split; [done|]. rewrite E.
    rewrite <- (Z.shiftr_div_pow2 (pair_value l h)) by lia. apply Z.bits_inj'. intros i Hi.
    rewrite Z.shiftr_spec, !pair_bits by lia. case_bool_decide as Hi64.
    + subst low. rewrite Z.lor_spec, Z.land_spec, Z.lor_spec, Hlr, Hhr, !shl_bits by lia.
      replace (Z.testbit (-1) (i - (64 - s))) with (bool_decide (64 - s <= i)).
      2:{ case_bool_decide; [rewrite Z.bits_m1 by lia|rewrite Z.testbit_neg_r by lia]; done. }
      repeat case_bool_decide; rewrite ?andb_true_r, ?andb_false_r, ?orb_false_r, ?orb_false_l; try lia; try done.
      f_equal. lia.
    + rewrite bool_decide_false by lia. rewrite <- Z.shiftr_div_pow2, Z.shiftr_spec by lia. f_equal. lia.
  - destruct (decide (s < 128)) as [H128|H128].
    + rewrite Z.min_l by lia. rewrite bool_decide_true by lia. rewrite ashr_val by lia. cbn [obind].
      assert (Hps : 2 ^ s = 2 ^ 64 * 2 ^ (s - 64)) by (rewrite <- Z.pow_add_r by lia; f_equal; lia).
      assert (0 < 2 ^ (s - 64)) by lia.
      assert (Hd : pair_value l h / 2 ^ 64 = h).
      { unfold pair_value. fold (unsigned l). pose proof (unsigned_range l).
        rewrite Z.div_add_l, (Z.div_small (unsigned l)) by lia. lia. }
      rewrite Hps, <- Z.div_div, Hd by lia. clear Hn.
      assert (inw (h / 2 ^ (s - 64))).
      { dnums. split; [apply Z.div_le_lower_bound; nia|apply Z.div_lt_upper_bound; nia]. }
      rewrite <- (sign_word_small (h / 2 ^ (s - 64))) at 2 by done.
      assert (sign_word (h / 2 ^ (s - 64)) = sign_word h) as ->.
      { unfold sign_word. assert (h / 2 ^ (s - 64) < 0 <-> h < 0).
        { rewrite <- Z.shiftr_div_pow2 by lia. apply Z.shiftr_neg. }
        repeat case_bool_decide; lia || done. }
      by apply interpret_spec; [|apply sign_word_inw].
    + rewrite Z.min_r by lia. rewrite bool_decide_false by lia. rewrite Hn. clear Hn.
      assert (Hp : 2 ^ 128 <= 2 ^ s) by (apply Z.pow_le_mono_r; lia).
      set (v := pair_value l h) in *. clearbody v.
      apply returns_small; [case_bool_decide; dnums; lia|].
      case_bool_decide.
      * symmetry. apply (Z.div_unique_pos _ _ _ (v + 2 ^ s)); dnums; lia.
      * apply Z.div_small. dnums. lia.
Qed.

Lemma merge_mod l h : inw h -> merge l h = pair_value l h mod 2 ^ 128.
Proof.
  intros Hh. destruct (merge_pair l h Hh) as [k E].
  assert (0 <= merge l h < 2 ^ 128).
  { unfold merge. pose proof (unsigned_range l). pose proof (unsigned_range h). dnums. lia. }
  rewrite <- (Z.mod_small (merge l h) (2 ^ 128)) by done. by rewrite E, Z.mod_add by lia.
Qed.

Lemma signed_double_range v : fits (signed_double v) /\ exists k, signed_double v = v + k * 2 ^ 128.
Proof.
  unfold signed_double. split; [dnums; lia|].
  exists (- ((v + 2 ^ 127) / 2 ^ 128)). dnums. lia.
Qed.

Lemma dlsh_left_spec x s :
  well_formed x -> 0 <= s ->
  exists v, fits v /\ (exists k, v = value x * 2 ^ s + k * 2 ^ 128) /\ returns (dlsh x s) v.
Proof.
  intros Hx Hs0. unfold dlsh.
  destruct (words_spec x Hx) as (l & h & -> & Hl & Hh & -> & _). cbn [obind].
  rewrite bool_decide_false by lia.
  destruct (decide (Z.min s 128 < 64)) as [H64|H64];
    [rewrite bool_decide_true by done|rewrite bool_decide_false by done].
  - rewrite Z.min_l by lia. unfold double_shift_left. rewrite bool_decide_true by lia. cbn [obind].
    destruct (DblModel.split _) as [rl rh] eqn:E. apply split_value in E as (Hrl & Hrh & E).
    exists (pair_value rl rh). split; [by apply pair_value_fits|]. split; [|by apply interpret_spec].
    rewrite E. destruct (signed_double_range (Z.shiftl (merge l h) s)) as [_ [k ->]].
    destruct (merge_pair l h Hh) as [j ->]. rewrite Z.shiftl_mul_pow2 by lia.
    exists (j * 2 ^ s + k). lia.
  - destruct (decide (s < 128)).
    + rewrite Z.min_l, bool_decide_true, unsigned_shift_left_spec by lia. cbn [obind].
      eexists. split; [|split; [|apply interpret_spec]]; [apply pair_value_fits, wrap_range| |dnums; lia|apply wrap_range].
      unfold pair_value. fold (unsigned l). rewrite Z.mod_0_l, Z.add_0_r by lia.
      destruct (wrap_cong (l * 2 ^ (s - 64))) as [k ->]. destruct (unsigned_cong l) as [j ->].
      assert (2 ^ s = 2 ^ (s - 64) * 2 ^ 64) as -> by (rewrite <- Z.pow_add_r by lia; f_equal; lia).
      change (2 ^ 128) with (2 ^ 64 * 2 ^ 64). exists (k - h * 2 ^ (s - 64) - j * 2 ^ (s - 64)). lia.
    + rewrite Z.min_r, bool_decide_false by lia. exists 0. split; [dnums; lia|]. split.
      * assert (2 ^ s = 2 ^ (s - 128) * 2 ^ 128) as -> by (rewrite <- Z.pow_add_r by lia; f_equal; lia).
        exists (- pair_value l h * 2 ^ (s - 128)). lia.
      * apply returns_small; [dnums; lia|done].
Qed.

Lemma dlsh_right_spec x s :
  well_formed x -> 0 < s < 2 ^ 61 -> returns (dlsh x (- s)) ((value x mod 2 ^ 128) / 2 ^ s).
Proof.
  intros Hx Hs0. unfold dlsh.
  destruct (words_spec x Hx) as (l & h & -> & Hl & Hh & -> & _). cbn [obind].
  rewrite bool_decide_true by lia. rewrite int_negative_spec, exact_ok, Z.opp_involutive by (dnums; lia).
  cbn [obind]. rewrite <- merge_mod by done.
  assert (Hm : 0 <= merge l h < 2 ^ 128) by (rewrite merge_mod by done; apply Z.mod_pos_bound; lia).
  destruct (decide (Z.min s 128 < 64)) as [H64|H64];
    [rewrite bool_decide_true by done|rewrite bool_decide_false by done].
  - rewrite Z.min_l by lia. unfold double_shift_right. rewrite bool_decide_true by lia. cbn [obind].
    rewrite Z.shiftr_div_pow2 by lia.
    destruct (DblModel.split _) as [rl rh] eqn:E. apply split_value in E as (Hrl & Hrh & E).
    rewrite signed_double_fits in E; [rewrite <- E; by apply interpret_spec|].
    assert (2 ^ 1 <= 2 ^ s) by (apply Z.pow_le_mono_r; lia). change (2 ^ 1) with 2 in *.
    split; [assert (0 <= merge l h / 2 ^ s) by (apply Z.div_pos; lia); dnums; lia|].
    apply Z.div_lt_upper_bound; [lia|]. dnums. nia.
  - assert (Hd : merge l h / 2 ^ 64 = unsigned h).
    { unfold merge. pose proof (unsigned_range l). rewrite Z.div_add_l, (Z.div_small (unsigned l)) by lia. lia. }
    destruct (decide (s < 128)).
    + rewrite Z.min_l, bool_decide_true by lia. unfold lshr. rewrite bool_decide_true by lia. cbn [obind].
      assert (Hps : 2 ^ s = 2 ^ 64 * 2 ^ (s - 64)) by (rewrite <- Z.pow_add_r by lia; f_equal; lia).
      assert (0 < 2 ^ (s - 64)) by lia.
      rewrite Hps, <- Z.div_div, Hd by lia. rewrite Z.shiftr_div_pow2 by lia. fold (unsigned h).
      set (w := unsigned h / 2 ^ (s - 64)).
      assert (Hw : 0 <= w < 2 ^ 64).
      { pose proof (unsigned_range h). subst w. split; [apply Z.div_pos; lia|].
        apply Z.div_lt_upper_bound; [lia|]. nia. }
      replace w with (pair_value (wrap w) 0) at 2.
      * apply interpret_spec; [apply wrap_range|dnums; lia].
      * unfold pair_value. fold (unsigned (wrap w)). rewrite unsigned_wrap, Z.mod_small by done. lia.
    + rewrite Z.min_r, bool_decide_false by lia.
      assert (2 ^ 128 <= 2 ^ s) by (apply Z.pow_le_mono_r; lia).
      rewrite Z.div_small by lia. apply returns_small; [dnums; lia|done].
Qed.

Lemma dash_spec x s :
  well_formed x -> - 2 ^ 61 < s < 2 ^ 61 ->
  if bool_decide (s < 0) then returns (dash x s) (value x / 2 ^ (- s))
  else (fits (value x * 2 ^ s) /\ returns (dash x s) (value x * 2 ^ s)) \/
       (~ fits (value x * 2 ^ s) /\ overflows (dash x s)).
Proof.
  intros Hx Hs. unfold dash. case_bool_decide as H.
  - rewrite int_negative_spec, exact_ok by (dnums; lia). cbn [obind]. apply dash_right_spec; [done|lia].
  - apply dash_left_spec; [done|lia].
Qed.
