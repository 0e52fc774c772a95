(** Proofs about the bitwise operations and shifts on <integer>. *)
From Coq Require Import ZifyBool ZifyNat ZifyN Lia.
From Verif Require Import Base IntModel IntSpec IntProofs.
Local Open Scope Z_scope.
Local Open Scope outcome_scope.
Ltac Zify.zify_post_hook ::= Z.div_mod_to_equations.

Lemma untag_shiftr w : untag w = Z.shiftr w 2.
Proof. unfold untag. by rewrite Z.shiftr_div_pow2 by lia. Qed.
Lemma shiftr_tag x : Z.shiftr (tag x) 2 = x.
Proof. rewrite <- untag_shiftr. apply untag_tag. Qed.

Lemma testbit_tag x j : 0 <= j -> Z.testbit (tag x) (j + 2) = Z.testbit x j.
Proof. intros. rewrite <- (shiftr_tag x) at 2. rewrite Z.shiftr_spec by lia. done. Qed.
Lemma testbit_untag w j : 0 <= j -> Z.testbit (untag w) j = Z.testbit w (j + 2).
Proof. intros. rewrite untag_shiftr. by rewrite Z.shiftr_spec by lia. Qed.

Lemma inw_shiftr w : inw w <-> Z.shiftr w 63 = 0 \/ Z.shiftr w 63 = -1.
Proof.
  rewrite Z.shiftr_div_pow2 by lia. change (2 ^ 63) with 9223372036854775808. nums. lia.
Qed.
Lemma inw_lxor a b : inw a -> inw b -> inw (Z.lxor a b).
Proof. rewrite !inw_shiftr, Z.shiftr_lxor. by intros [-> | ->] [-> | ->]; auto. Qed.
Lemma inw_lor a b : inw a -> inw b -> inw (Z.lor a b).
Proof. rewrite !inw_shiftr, Z.shiftr_lor. by intros [-> | ->] [-> | ->]; auto. Qed.
Lemma inw_land a b : inw a -> inw b -> inw (Z.land a b).
Proof. rewrite !inw_shiftr, Z.shiftr_land. by intros [-> | ->] [-> | ->]; auto. Qed.
Lemma inw_m1 : inw (-1).
Proof. nums. lia. Qed.

Lemma untag_representable w : inw w -> representable (untag w).
Proof. unfold untag. nums. lia. Qed.

Lemma int_logior_spec x y : int_logior x y = Z.lor x y.
Proof. unfold int_logior. by rewrite untag_shiftr, Z.shiftr_lor, !shiftr_tag. Qed.
Lemma int_logand_spec x y : int_logand x y = Z.land x y.
Proof. unfold int_logand. by rewrite untag_shiftr, Z.shiftr_land, !shiftr_tag. Qed.
Lemma int_logxor_spec x y : representable x -> representable y -> int_logxor x y = Z.lxor x y.
Proof.
  intros. unfold int_logxor. rewrite untag_force by (apply inw_lxor; by apply tag_inw).
  change (Z.lxor (tag x) (tag y) / 4) with (untag (Z.lxor (tag x) (tag y))).
  by rewrite untag_shiftr, Z.shiftr_lxor, !shiftr_tag.
Qed.
Lemma int_lognot_spec x : representable x -> int_lognot x = Z.lnot x.
Proof.
  intros. unfold int_lognot.
  rewrite untag_force by (apply inw_lxor; [by apply tag_inw|apply inw_m1]).
  change (Z.lxor (tag x) (-1) / 4) with (untag (Z.lxor (tag x) (-1))).
  rewrite untag_shiftr, Z.shiftr_lxor, !shiftr_tag.
  change (Z.shiftr (-1) 2) with (-1). by rewrite Z.lxor_m1_r.
Qed.

(** *** Bits of a wrapped word *)
Lemma inw_high w j : inw w -> 63 <= j -> Z.testbit w j = Z.testbit w 63.
Proof.
  intros H Hj. apply inw_shiftr in H.
  replace j with (j - 63 + 63) by lia.
  rewrite <- (Z.shiftr_spec w 63 (j - 63)) by lia.
  pose proof (Z.shiftr_spec w 63 0 ltac:(lia)) as E. rewrite Z.add_0_l in E. rewrite <- E.
  destruct H as [-> | ->]; [by rewrite !Z.bits_0|by rewrite !Z.bits_m1 by lia].
Qed.
Lemma wrap_low x j : 0 <= j < 64 -> Z.testbit (wrap x) j = Z.testbit x j.
Proof.
  intros H. destruct (wrap_cong x) as [k Hk]. rewrite Hk.
  rewrite <- (Z.mod_pow2_bits_low (x + k * 2 ^ 64) 64) by lia.
  rewrite Z.mod_add by (rewrite p64; lia). by rewrite Z.mod_pow2_bits_low by lia.
Qed.
Lemma wrap_bits x j : 0 <= j -> Z.testbit (wrap x) j = Z.testbit x (Z.min j 63).
Proof.
  intros H. destruct (decide (j < 63)).
  - rewrite wrap_low by lia. f_equal. lia.
  - rewrite inw_high by (apply wrap_range || lia). rewrite wrap_low by lia. f_equal. lia.
Qed.

Lemma shl_one i : 0 <= i < 64 -> shl 1 i = Val (wrap (2 ^ i)).
Proof. intros. rewrite shl_val by done. do 2 f_equal. lia. Qed.
Lemma mask_bits i j : 0 <= i < 64 -> 0 <= j ->
  Z.testbit (wrap (2 ^ i)) j = bool_decide (Z.min j 63 = i).
Proof.
  intros. rewrite wrap_bits, Z.pow2_bits_eqb by lia. 
  case_bool_decide; lia.
Qed.

Lemma int_logbit_spec i x : representable x -> 0 <= i < 62 ->
  int_logbit i x = Val (Z.testbit x i).
Proof.
  intros Hx Hi. unfold int_logbit. rewrite int_add_spec by (nums; lia).
  rewrite exact_ok by (nums; lia). cbn [obind]. rewrite shl_one by lia. cbn [obind]. f_equal.
  rewrite <- testbit_tag by lia. pose proof (tag_inw x Hx) as Ht.
  assert (Hb : forall j, 0 <= j -> Z.testbit (Z.land (tag x) (wrap (2 ^ (i + 2)))) j =
            Z.testbit (tag x) (i + 2) && bool_decide (Z.min j 63 = i + 2)).
  { intros j Hj. rewrite Z.land_spec, mask_bits by lia.
    case_bool_decide as E; [|by rewrite !andb_false_r]. rewrite !andb_true_r.
    destruct (decide (j < 63)); [f_equal; lia|]. rewrite inw_high by (done || lia). f_equal. lia. }
  case_bool_decide as E; cbn [negb].
  - specialize (Hb (i + 2) ltac:(lia)). rewrite E, Z.bits_0 in Hb.
    rewrite bool_decide_true, andb_true_r in Hb by lia. done.
  - destruct (Z.testbit (tag x) (i + 2)) eqn:Et; [done|]. exfalso. apply E.
    apply Z.bits_inj'. intros j Hj. rewrite Hb by lia. by rewrite Z.bits_0.
Qed.

Lemma int_odd_spec x : representable x -> int_odd x = Val (Z.odd x).
Proof. intros. unfold int_odd. by rewrite int_logbit_spec, Z.bit0_odd by (done || lia). Qed.

Lemma int_logbit_deposit_spec z i x : representable x -> 0 <= i < 62 ->
  exists r, int_logbit_deposit z i x = Val r /\ representable r /\
    forall j, 0 <= j < 62 -> Z.testbit r j = if bool_decide (j = i) then z else Z.testbit x j.
Proof.
  intros Hx Hi. unfold int_logbit_deposit. rewrite int_add_spec by (nums; lia).
  rewrite exact_ok by (nums; lia). cbn [obind]. rewrite shl_one by lia. cbn [obind].
  eexists. split; [done|].
  pose proof (tag_inw x Hx). pose proof (wrap_range (2 ^ (i + 2))).
  split.
  - apply untag_representable. destruct z.
    + by apply inw_lor.
    + apply inw_land; [done|]. apply inw_lxor; [done|apply inw_m1].
  - intros j Hj. rewrite testbit_untag by lia. destruct z.
    + rewrite Z.lor_spec, mask_bits, testbit_tag by lia.
      rewrite (bool_decide_ext (Z.min (j + 2) 63 = i + 2) (j = i)) by lia.
      case_bool_decide; [by rewrite orb_true_r|by rewrite orb_false_r].
    + rewrite Z.land_spec, Z.lxor_spec, mask_bits, testbit_tag, Z.bits_m1 by lia.
      rewrite (bool_decide_ext (Z.min (j + 2) 63 = i + 2) (j = i)) by lia.
      case_bool_decide; cbn [xorb]; [by rewrite andb_false_r|by rewrite andb_true_r].
Qed.

(** The mask (1 << s) - 1 of an s-bit field. *)
Lemma field_mask s : 0 <= s < 64 -> 
  exists one, shl 1 s = Val one /\ forall j, 0 <= j -> Z.testbit (wrap (one - 1)) j = bool_decide (Z.min j 63 < s).
Proof.
  intros Hs. exists (wrap (2 ^ s)). split; [by apply shl_one|]. intros j Hj.
  rewrite wrap_bits by lia. 
  destruct (wrap_cong (2 ^ s)) as [k Hk]. rewrite Hk.
  replace (2 ^ s + k * 2 ^ 64 - 1) with (Z.ones s + k * 2 ^ 64) by (rewrite Z.ones_equiv; lia).
  rewrite <- (Z.mod_pow2_bits_low _ 64) by lia.
  rewrite Z.mod_add by (rewrite p64; lia). rewrite Z.mod_pow2_bits_low by lia.
  rewrite Z.testbit_ones_nonneg by lia.
  case_bool_decide; lia.
Qed.

Lemma lshr_bits x n j : 0 <= n < 64 -> 0 <= j < 64 ->
  exists r, lshr x n = Val r /\ inw r /\
    Z.testbit r j = if bool_decide (j + n < 64) then Z.testbit x (j + n) else false.
Proof.
  intros Hn Hj. unfold lshr. rewrite bool_decide_true by done. eexists. split; [done|].
  split; [apply wrap_range|]. rewrite wrap_low, Z.shiftr_spec by lia.
  case_bool_decide.
  - by rewrite Z.mod_pow2_bits_low by lia.
  - by rewrite Z.mod_pow2_bits_high by lia.
Qed.

Lemma lshr_ok x n : 0 <= n < 64 ->
  exists r, lshr x n = Val r /\ inw r /\ forall j, 0 <= j < 64 ->
    Z.testbit r j = if bool_decide (j + n < 64) then Z.testbit x (j + n) else false.
Proof.
  intros Hn. destruct (lshr_bits x n 0 Hn ltac:(lia)) as (r & E & H & _).
  exists r. split; [done|]. split; [done|]. intros j Hj.
  destruct (lshr_bits x n j Hn Hj) as (r' & E' & _ & H'). rewrite E in E'. by injection E' as <-.
Qed.

Lemma int_bit_field_extract_spec o s x :
  representable x -> 0 <= o < 62 -> 0 <= s < 62 -> o + s <= 62 ->
  int_bit_field_extract o s x = Val ((x / 2 ^ o) mod 2 ^ s).
Proof.
  intros Hx Ho Hs Hos. unfold int_bit_field_extract. rewrite int_add_spec by (nums; lia).
  rewrite exact_ok by (nums; lia). cbn [obind].
  destruct (field_mask (s + 2) ltac:(lia)) as (one & -> & Hm). cbn [obind].
  destruct (lshr_ok (tag x) o ltac:(lia)) as (r & -> & Hr & Hrb). cbn [obind]. f_equal.
  assert (inw (Z.land r (wrap (one - 1)))) by (apply inw_land; [done|apply wrap_range]).
  rewrite untag_force by done.
  change (Z.land r (wrap (one - 1)) / 4) with (untag (Z.land r (wrap (one - 1)))).
  apply Z.bits_inj'. intros j Hj. rewrite testbit_untag, Z.land_spec, Hm by lia.
  destruct (decide (j < s)) as [Hlt|Hge].
  - rewrite Z.mod_pow2_bits_low by lia. rewrite bool_decide_true, andb_true_r by lia.
    rewrite Hrb, bool_decide_true by lia.
    replace (j + 2 + o) with (j + o + 2) by lia. rewrite testbit_tag by lia.
    by rewrite Z.div_pow2_bits by lia.
  - rewrite Z.mod_pow2_bits_high by lia. 
    rewrite bool_decide_false, andb_false_r by lia. done.
Qed.

Lemma int_bit_field_deposit_spec f o s x :
  representable x -> 0 <= o < 62 -> 0 <= s -> o + s <= 62 -> 0 <= f < 2 ^ s -> representable f ->
  exists r, int_bit_field_deposit f o s x = Val r /\ representable r /\
    forall j, 0 <= j < 62 ->
      Z.testbit r j = if bool_decide (o <= j < o + s) then Z.testbit f (j - o) else Z.testbit x j.
Proof.
  intros Hx Ho Hs Hos Hf Hfr. unfold int_bit_field_deposit. rewrite coerce_to_word_spec. cbn [obind].
  rewrite int_add_spec, exact_ok by (nums; lia). cbn [obind].
  rewrite shl_val by lia. cbn [obind].
  destruct (field_mask s ltac:(lia)) as (one & -> & Hm). cbn [obind].
  rewrite shl_val by lia. cbn [obind].
  eexists. split; [done|].
  pose proof (tag_inw x Hx) as Ht.
  split.
  - apply untag_representable. apply inw_lor; [apply wrap_range|]. apply inw_land; [done|].
    apply inw_lxor; [apply wrap_range|apply inw_m1].
  - intros j Hj. rewrite testbit_untag, Z.lor_spec, Z.land_spec, Z.lxor_spec, Z.bits_m1 by lia.
    rewrite testbit_tag, !wrap_low, !Z.mul_pow2_bits by lia.
    replace (j + 2 - (o + 2)) with (j - o) by lia.
    assert (Hfh : j - o < 0 \/ s <= j - o -> Z.testbit f (j - o) = false).
    { intros [?|?]; [by apply Z.testbit_neg_r|].
      destruct (decide (f = 0)) as [->|]; [apply Z.bits_0|].
      apply Z.bits_above_log2; [lia|].
      apply Z.lt_le_trans with s; [|lia]. apply Z.log2_lt_pow2; lia. }
    destruct (decide (j - o < 0)).
    + rewrite (Z.testbit_neg_r (wrap _)) by lia. rewrite Hfh by lia.
      rewrite bool_decide_false by lia. cbn [xorb orb]. by rewrite andb_true_r.
    + rewrite Hm by lia. case_bool_decide.
      * rewrite bool_decide_true by lia. cbn [xorb]. by rewrite andb_false_r, orb_false_r.
      * rewrite bool_decide_false by lia. cbn [xorb]. rewrite andb_true_r. by rewrite Hfh by lia.
Qed.

(** *** ash and lsh *)
Lemma int_ash_right_spec x s : representable x -> 0 <= s -> int_ash_right x s = Val (x / 2 ^ s).
Proof.
  intros Hx Hs. unfold int_ash_right. case_bool_decide.
  - rewrite ashr_val by lia. cbn [obind]. f_equal.
    pose proof (Z.pow_pos_nonneg 2 s ltac:(lia) ltac:(lia)) as Hp.
    pose proof (tag_inw x Hx).
    rewrite untag_force.
    + unfold tag. rewrite Z.div_div by lia. rewrite (Z.mul_comm (2 ^ s) 4), <- Z.div_div by lia. f_equal. lia.
    + unfold inw in *. rewrite word_limit_eq in *. split.
      * apply Z.div_le_lower_bound; [lia|]. nia.
      * apply Z.div_lt_upper_bound; [lia|]. nia.
  - f_equal. pose proof (Z.pow_le_mono_r 2 61 s ltac:(lia) ltac:(lia)) as Hp.
    nums. case_bool_decide.
    + apply (Z.div_unique x (2 ^ s) (-1) (x + 2 ^ s)); [left; lia|lia].
    + apply (Z.div_unique x (2 ^ s) 0 x); [left; lia|lia].
Qed.

Lemma pow_mul_bad x s : x <> 0 -> 62 <= s -> ~ representable (x * 2 ^ s).
Proof.
  intros Hx Hs. pose proof (Z.pow_le_mono_r 2 62 s ltac:(lia) ltac:(lia)) as Hp. nums. nia.
Qed.

Lemma int_ash_left_spec x s : representable x -> 0 <= s ->
  int_ash_left x s = exact_or_overflow (x * 2 ^ s).
Proof.
  intros Hx Hs. unfold int_ash_left. rewrite strip_tag_tag by done.
  assert (H4 : inw (4 * x)) by (nums; lia).
  case_bool_decide as E.
  - assert (64 <= s) by lia. rewrite (shift_left_signal_overflow_spec (4 * x) 32) by (done || lia).
    unfold checked. destruct (decide (inw (4 * x * 2 ^ 32))) as [Hi|Hi].
    + rewrite in_word_true by done. cbn [obind].
      rewrite shift_left_signal_overflow_spec by (done || lia).
      destruct (decide (x = 0)) as [->|Hx0].
      * change (4 * 0 * 2 ^ 32 * 2 ^ 32) with (4 * 0). rewrite checked_spec.
        rewrite bool_decide_true by lia. cbn [obind]. 
        rewrite insert_tag_4, untag_tag by (nums; lia). rewrite Z.mul_0_l, exact_ok; [done|nums; lia].
      * rewrite exact_bad by (apply pow_mul_bad; lia).
        unfold checked. rewrite in_word_false; [done|]. nums. lia.
    + rewrite in_word_false by done. cbn [obind].
      rewrite exact_bad; [done|]. apply pow_mul_bad; [|lia]. intros ->. apply Hi. nums. lia.
  - cbn [obind]. assert (Es : Z.min s 64 = s) by lia. rewrite Es.
    rewrite shift_left_signal_overflow_spec by (done || lia).
    replace (4 * x * 2 ^ s) with (4 * (x * 2 ^ s)) by lia. rewrite checked_spec.
    unfold exact_or_overflow. case_bool_decide; cbn [obind]; [|done].
    rewrite insert_tag_4 by done. by rewrite untag_tag.
Qed.

Lemma int_ash_spec x s : representable x -> - 2 ^ 61 < s < 2 ^ 61 ->
  int_ash x s = if bool_decide (s < 0) then Val (x / 2 ^ (- s)) else exact_or_overflow (x * 2 ^ s).
Proof.
  intros Hx Hs. unfold int_ash. case_bool_decide.
  - rewrite int_negative_spec, exact_ok by (nums; lia). cbn [obind].
    by rewrite int_ash_right_spec by (done || lia).
  - by rewrite int_ash_left_spec by (done || lia).
Qed.

Lemma int_ash_m1 x : representable x -> int_ash x (-1) = Val (x / 2).
Proof. intros. rewrite int_ash_spec; [done|done|rewrite p61; lia]. Qed.

Lemma int_lsh_spec x s : representable x -> - 2 ^ 61 < s < 2 ^ 61 ->
  exists r, int_lsh x s = Val r /\ representable r /\
    forall j, 0 <= j < 62 ->
      Z.testbit r j = if bool_decide (0 <= j - s < 62) then Z.testbit x (j - s) else false.
Proof.
  intros Hx Hs. unfold int_lsh. pose proof (tag_inw x Hx) as Ht. case_bool_decide.
  - rewrite int_negative_spec, exact_ok by (nums; lia). cbn [obind]. case_bool_decide.
    + destruct (lshr_ok (tag x) (- s) ltac:(lia)) as (r & -> & Hr & Hb). cbn [obind].
      eexists. split; [done|]. rewrite untag_force by done. change (r / 4) with (untag r).
      split; [by apply untag_representable|]. intros j Hj.
      rewrite testbit_untag, Hb by lia.
      rewrite (bool_decide_ext (j + 2 + - s < 64) (0 <= j - s < 62)) by lia.
      case_bool_decide; [|done]. replace (j + 2 + - s) with (j - s + 2) by lia.
      by rewrite testbit_tag by lia.
    + eexists. split; [done|]. split; [nums; lia|]. intros j Hj.
      rewrite bool_decide_false by lia. apply Z.bits_0.
  - case_bool_decide.
    + rewrite strip_tag_tag, shl_val by (done || lia). cbn [obind].
      eexists. split; [done|].
      assert (Hw : exists y, wrap (4 * x * 2 ^ s) = 4 * y).
      { destruct (wrap_cong (4 * x * 2 ^ s)) as [k ->]. exists (x * 2 ^ s + k * 2 ^ 62).
        rewrite p62, p64. lia. }
      destruct Hw as [y Hy]. pose proof (wrap_range (4 * x * 2 ^ s)) as Hr.
      assert (Hyr : representable y) by (rewrite Hy in Hr; nums; lia).
      rewrite Hy, insert_tag_4, untag_tag by done. split; [done|]. intros j Hj.
      assert (Hj2 : Z.testbit y j = Z.testbit (4 * y) (j + 2)).
      { replace (4 * y) with (y * 2 ^ 2) by lia. rewrite Z.mul_pow2_bits by lia. f_equal. lia. }
      rewrite Hj2, <- Hy, wrap_low by lia.
      replace (4 * x * 2 ^ s) with (x * 2 ^ (s + 2)) by (rewrite Z.pow_add_r by lia; lia).
      rewrite Z.mul_pow2_bits by lia. replace (j + 2 - (s + 2)) with (j - s) by lia.
      case_bool_decide; [done|]. apply Z.testbit_neg_r. lia.
    + eexists. split; [done|]. split; [nums; lia|]. intros j Hj.
      rewrite bool_decide_false by lia. apply Z.bits_0.
Qed.
