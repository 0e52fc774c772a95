(** Proofs about the model of double integers. *)
From Coq Require Import ZifyBool ZifyNat ZifyN Lia.
From Verif Require Import Base IntModel IntSpec IntProofs IntBitsProofs DblModel DblSpec.
Local Open Scope Z_scope.
Local Open Scope outcome_scope.
Ltac Zify.zify_post_hook ::= Z.div_mod_to_equations.

Lemma p63 : 2 ^ 63 = 9223372036854775808. Proof. reflexivity. Qed.
Lemma p127 : 2 ^ 127 = 170141183460469231731687303715884105728. Proof. reflexivity. Qed.
Lemma p128 : 2 ^ 128 = 340282366920938463463374607431768211456. Proof. reflexivity. Qed.
Ltac dnums := unfold fits, word in *; nums; rewrite ?p63, ?p127, ?p128 in *.

Lemma word_inw w : word w <-> inw w.
Proof. dnums. done. Qed.

(** The value of two words. *)
Definition pair_value (l h : Z) : Z := h * 2 ^ 64 + l mod 2 ^ 64.

Lemma unsigned_range x : 0 <= unsigned x < 2 ^ 64.
Proof. unfold unsigned. apply Z.mod_pos_bound. lia. Qed.
Lemma unsigned_wrap x : unsigned (wrap x) = x mod 2 ^ 64.
Proof. unfold unsigned. destruct (wrap_cong x) as [k ->]. by rewrite Z.mod_add by lia. Qed.
Lemma unsigned_case x : inw x -> unsigned x = if bool_decide (x < 0) then x + 2 ^ 64 else x.
Proof.
  intros H. unfold unsigned. case_bool_decide.
  - rewrite <- (Z.mod_add x 1) by lia. rewrite Z.mod_small; dnums; lia.
  - rewrite Z.mod_small; dnums; lia.
Qed.
Lemma wrap_eq x y : inw y -> (exists k, x = y + k * 2 ^ 64) -> wrap x = y.
Proof.
  intros Hy [k Hk]. destruct (wrap_cong x) as [j Hj]. pose proof (wrap_range x) as Hr.
  dnums. lia.
Qed.
Lemma wrap_mod x y : x mod 2 ^ 64 = y mod 2 ^ 64 -> wrap x = wrap y.
Proof.
  intros H. apply wrap_eq; [apply wrap_range|]. destruct (wrap_cong y) as [k ->].
  exists (x / 2 ^ 64 - y / 2 ^ 64 - k). dnums. lia.
Qed.

Lemma sign_word_inw x : inw (sign_word x).
Proof. unfold sign_word. case_bool_decide; dnums; lia. Qed.
Lemma sign_word_small n : inw n -> pair_value n (sign_word n) = n.
Proof.
  intros H. unfold pair_value, sign_word. fold (unsigned n). rewrite unsigned_case by done.
  case_bool_decide; dnums; lia.
Qed.

Lemma pair_value_fits l h : inw h -> fits (pair_value l h).
Proof. unfold pair_value. fold (unsigned l). pose proof (unsigned_range l). dnums. lia. Qed.
Lemma pair_value_neg l h : pair_value l h < 0 <-> h < 0.
Proof. unfold pair_value. fold (unsigned l). pose proof (unsigned_range l). dnums. lia. Qed.

Lemma interpret_spec l h : inw l -> inw h -> returns (interpret l h) (pair_value l h).
Proof.
  intros Hl Hh. unfold interpret, is_integer. rewrite ashr_val by lia. cbn [obind].
  unfold returns, pair_value. fold (unsigned l). pose proof (unsigned_case l Hl) as Hu.
  destruct (bool_decide (h = l / 2 ^ 61) && (bool_decide (h = 0) || bool_decide (h = -1))) eqn:E.
  - apply andb_true_iff in E as [E1%bool_decide_eq_true E2].
    apply orb_true_iff in E2. rewrite !bool_decide_eq_true in E2.
    assert (representable l) by (dnums; lia).
    rewrite coerce_to_integer_spec, exact_ok by done. cbn [obind].
    exists (Small l). split; [done|]. split; [done|]. cbn [value].
    rewrite Hu. case_bool_decide; dnums; lia.
  - eexists. split; [done|]. split; [|done]. cbn [well_formed value]. fold (unsigned l).
    rewrite !word_inw. split; [done|]. split; [done|]. intros Hr.
    apply andb_false_iff in E. rewrite orb_false_iff, !bool_decide_eq_false in E.
    rewrite Hu in Hr. case_bool_decide; dnums; lia.
Qed.

Lemma words_spec x :
  well_formed x ->
  exists l h, words x = Val (l, h) /\ inw l /\ inw h /\ value x = pair_value l h /\
    dnegative_p x = bool_decide (h < 0).
Proof.
  destruct x as [n|l h]; cbn [well_formed words dnegative_p].
  - intros H. rewrite coerce_to_word_spec. cbn [obind]. exists n, (sign_word n).
    assert (inw n) by by apply representable_inw.
    split; [done|]. split; [done|]. split; [apply sign_word_inw|].
    split; [by rewrite sign_word_small|]. unfold sign_word. repeat case_bool_decide; lia.
  - rewrite !word_inw. intros (Hl & Hh & _). exists l, h. done.
Qed.

Lemma value_fits x : well_formed x -> fits (value x).
Proof. intros H. destruct (words_spec x H) as (l & h & _ & _ & Hh & -> & _). by apply pair_value_fits. Qed.
Lemma dnegative_p_spec x : well_formed x -> dnegative_p x = bool_decide (value x < 0).
Proof.
  intros H. destruct (words_spec x H) as (l & h & _ & _ & _ & -> & ->).
  pose proof (pair_value_neg l h). repeat case_bool_decide; tauto || lia.
Qed.

Lemma add_with_carry_spec x y :
  exists l c, add_with_carry x y = (l, c) /\ inw l /\ (c = 0 \/ c = 1) /\
    unsigned x + unsigned y = c * 2 ^ 64 + unsigned l.
Proof.
  unfold add_with_carry. eexists _, _. split; [reflexivity|]. split; [apply wrap_range|].
  rewrite unsigned_wrap. pose proof (unsigned_range x). pose proof (unsigned_range y).
  case_bool_decide; (split; [lia|]); dnums; lia.
Qed.
Lemma subtract_with_borrow_spec x y :
  exists l c, subtract_with_borrow x y = (l, c) /\ inw l /\ (c = 0 \/ c = 1) /\
    unsigned x - unsigned y = - c * 2 ^ 64 + unsigned l.
Proof.
  unfold subtract_with_borrow. eexists _, _. split; [reflexivity|]. split; [apply wrap_range|].
  rewrite unsigned_wrap. pose proof (unsigned_range x). pose proof (unsigned_range y).
  case_bool_decide; (split; [lia|]); dnums; lia.
Qed.

Lemma checked_ok x : inw x -> checked x = Val x.
Proof. intros. unfold checked. by rewrite in_word_true. Qed.
Lemma checked_bad x : ~ inw x -> checked x = overflow.
Proof. intros. unfold checked. by rewrite in_word_false. Qed.

(** *** + and - *)

Definition add_words (xl xh yl yh : Z) : outcome num :=
  let '(low, carry) := add_with_carry xl yl in
  do high <- add_signal_overflow xh yh;
  do high <- add_signal_overflow high carry;
  interpret low high.
Definition sub_words (xl xh yl yh : Z) : outcome num :=
  let '(low, borrow) := subtract_with_borrow xl yl in
  do high <- subtract_signal_overflow xh yh;
  do high <- subtract_signal_overflow high borrow;
  interpret low high.

Lemma add_words_spec xl xh yl yh :
  inw xl -> inw xh -> inw yl -> inw yh ->
  (inw (xh + yh) /\ fits (pair_value xl xh + pair_value yl yh) /\
     returns (add_words xl xh yl yh) (pair_value xl xh + pair_value yl yh)) \/
  (overflows (add_words xl xh yl yh) /\ ~ (inw (xh + yh) /\ fits (pair_value xl xh + pair_value yl yh))).
Proof.
  intros H1 H2 H3 H4. unfold add_words.
  destruct (add_with_carry_spec xl yl) as (l & c & -> & Hl & Hc & E).
  unfold add_signal_overflow.
  assert (E2 : pair_value xl xh + pair_value yl yh = pair_value l (xh + yh + c)).
  { unfold pair_value. fold (unsigned xl) (unsigned yl) (unsigned l). lia. }
  destruct (decide (inw (xh + yh))) as [Hs|Hs]; [|right; rewrite checked_bad by done; split; [done|tauto]].
  rewrite checked_ok by done. cbn [obind].
  destruct (decide (inw (xh + yh + c))) as [Ht|Ht].
  - left. rewrite checked_ok by done. cbn [obind]. rewrite E2.
    split; [done|]. split; [by apply pair_value_fits|]. by apply interpret_spec.
  - right. rewrite checked_bad by done. split; [done|]. rewrite E2. intros [_ Hf]. apply Ht.
    unfold pair_value in Hf. fold (unsigned l) in Hf. pose proof (unsigned_range l). dnums. lia.
Qed.
Lemma sub_words_spec xl xh yl yh :
  inw xl -> inw xh -> inw yl -> inw yh ->
  (inw (xh - yh) /\ fits (pair_value xl xh - pair_value yl yh) /\
     returns (sub_words xl xh yl yh) (pair_value xl xh - pair_value yl yh)) \/
  (overflows (sub_words xl xh yl yh) /\ ~ (inw (xh - yh) /\ fits (pair_value xl xh - pair_value yl yh))).
Proof.
  intros H1 H2 H3 H4. unfold sub_words.
  destruct (subtract_with_borrow_spec xl yl) as (l & c & -> & Hl & Hc & E).
  unfold subtract_signal_overflow.
  assert (E2 : pair_value xl xh - pair_value yl yh = pair_value l (xh - yh - c)).
  { unfold pair_value. fold (unsigned xl) (unsigned yl) (unsigned l). lia. }
  destruct (decide (inw (xh - yh))) as [Hs|Hs]; [|right; rewrite checked_bad by done; split; [done|tauto]].
  rewrite checked_ok by done. cbn [obind].
  destruct (decide (inw (xh - yh - c))) as [Ht|Ht].
  - left. rewrite checked_ok by done. cbn [obind]. rewrite E2.
    split; [done|]. split; [by apply pair_value_fits|]. by apply interpret_spec.
  - right. rewrite checked_bad by done. split; [done|]. rewrite E2. intros [_ Hf]. apply Ht.
    unfold pair_value in Hf. fold (unsigned l) in Hf. pose proof (unsigned_range l). dnums. lia.
Qed.

Lemma with_overflow_ok x : inw x -> with_overflow x = (x, false).
Proof. intros. unfold with_overflow. by rewrite wrap_id, in_word_true. Qed.
Lemma with_overflow_bad x : ~ inw x -> with_overflow x = (wrap x, true).
Proof. intros. unfold with_overflow. by rewrite in_word_false. Qed.

Lemma returns_small n v : representable n -> v = n -> returns (Val (Small n)) v.
Proof. intros H ->. by exists (Small n). Qed.
Lemma returns_double l h v :
  inw l -> inw h -> v = pair_value l h -> ~ representable v -> returns (Val (Double l h)) v.
Proof. intros Hl Hh -> H. exists (Double l h). cbn [well_formed]. by rewrite !word_inw. Qed.

Lemma dadd_small n m : representable n -> representable m -> returns (dadd (Small n) (Small m)) (n + m).
Proof.
  intros Hn Hm. cbn [dadd]. rewrite strip_tag_tag by done.
  destruct (decide (inw (tag n + 4 * m))) as [H|H].
  - rewrite with_overflow_ok by done. unfold tag in *.
    replace (4 * n + 1 + 4 * m) with (4 * (n + m) + 1) by lia. rewrite untag_4.
    apply returns_small; [dnums; lia|done].
  - rewrite with_overflow_bad by done. rewrite !coerce_to_word_spec. cbn [obind].
    assert (Hn' := representable_inw _ Hn). assert (Hm' := representable_inw _ Hm).
    destruct (add_with_carry_spec n m) as (l & c & -> & Hl & Hc & E).
    unfold add_signal_overflow.
    pose proof (sign_word_small n Hn') as E1. pose proof (sign_word_small m Hm') as E2.
    unfold pair_value in E1, E2. fold (unsigned n) in E1. fold (unsigned m) in E2.
    unfold tag in H.
    assert (sign_word n = 0 \/ sign_word n = -1) by (unfold sign_word; case_bool_decide; lia).
    assert (sign_word m = 0 \/ sign_word m = -1) by (unfold sign_word; case_bool_decide; lia).
    rewrite checked_ok by (dnums; lia). cbn [obind].
    rewrite checked_ok by (dnums; lia). cbn [obind].
    apply returns_double; [done|dnums; lia| |dnums; lia].
    unfold pair_value. fold (unsigned l). lia.
Qed.
Lemma dsub_small n m : representable n -> representable m -> returns (dsub (Small n) (Small m)) (n - m).
Proof.
  intros Hn Hm. cbn [dsub]. rewrite strip_tag_tag by done.
  destruct (decide (inw (tag n - 4 * m))) as [H|H].
  - rewrite with_overflow_ok by done. unfold tag in *.
    replace (4 * n + 1 - 4 * m) with (4 * (n - m) + 1) by lia. rewrite untag_4.
    apply returns_small; [dnums; lia|done].
  - rewrite with_overflow_bad by done. rewrite !coerce_to_word_spec. cbn [obind].
    assert (Hn' := representable_inw _ Hn). assert (Hm' := representable_inw _ Hm).
    destruct (subtract_with_borrow_spec n m) as (l & c & -> & Hl & Hc & E).
    unfold subtract_signal_overflow.
    pose proof (sign_word_small n Hn') as E1. pose proof (sign_word_small m Hm') as E2.
    unfold pair_value in E1, E2. fold (unsigned n) in E1. fold (unsigned m) in E2.
    unfold tag in H.
    assert (sign_word n = 0 \/ sign_word n = -1) by (unfold sign_word; case_bool_decide; lia).
    assert (sign_word m = 0 \/ sign_word m = -1) by (unfold sign_word; case_bool_decide; lia).
    rewrite checked_ok by (dnums; lia). cbn [obind].
    rewrite checked_ok by (dnums; lia). cbn [obind].
    apply returns_double; [done|dnums; lia| |dnums; lia].
    unfold pair_value. fold (unsigned l). lia.
Qed.

(** The operation on two arguments not both immediate is the one on their words. *)
Definition both_small (x y : num) : bool :=
  match x, y with Small _, Small _ => true | _, _ => false end.
Lemma dadd_words x y xl xh yl yh :
  both_small x y = false -> words x = Val (xl, xh) -> words y = Val (yl, yh) ->
  dadd x y = add_words xl xh yl yh.
Proof. destruct x, y; cbn [both_small dadd]; intros E Hx Hy; try done; by rewrite Hx, Hy. Qed.
Lemma dsub_words x y xl xh yl yh :
  both_small x y = false -> words x = Val (xl, xh) -> words y = Val (yl, yh) ->
  dsub x y = sub_words xl xh yl yh.
Proof. destruct x, y; cbn [both_small dsub]; intros E Hx Hy; try done; by rewrite Hx, Hy. Qed.

Lemma dadd_spec x y :
  well_formed x -> well_formed y ->
  (fits (value x + value y) /\ returns (dadd x y) (value x + value y)) \/
  (overflows (dadd x y) /\
     (fits (value x + value y) -> value x < 0 /\ value y < 0 /\ value x + value y < - 2 ^ 127 + 2 ^ 64 - 1)).
Proof.
  intros Hx Hy. destruct (both_small x y) eqn:E.
  { destruct x as [n|], y as [m|]; try done. left. cbn [value]. split; [|by apply dadd_small].
    cbn in Hx, Hy. dnums. lia. }
  destruct (words_spec x Hx) as (xl & xh & Ex & H1 & H2 & -> & _).
  destruct (words_spec y Hy) as (yl & yh & Ey & H3 & H4 & -> & _).
  rewrite (dadd_words x y xl xh yl yh) by done.
  destruct (add_words_spec xl xh yl yh) as [(?&?&?)|[? Hn]]; [done..|by left|right].
  split; [done|]. intros Hr.
  match type of Hn with ~ (?a /\ _) => assert (Hm : ~ a) by (intros Ha; by apply Hn) end. clear Hn.
  unfold pair_value in *. fold (unsigned xl) (unsigned yl) in *.
  pose proof (unsigned_range xl). pose proof (unsigned_range yl). dnums. lia.
Qed.
Lemma dsub_spec x y :
  well_formed x -> well_formed y ->
  (fits (value x - value y) /\ returns (dsub x y) (value x - value y)) \/
  (overflows (dsub x y) /\
     (fits (value x - value y) -> 0 <= value x /\ value y < 0 /\ 2 ^ 127 - 2 ^ 64 < value x - value y)).
Proof.
  intros Hx Hy. destruct (both_small x y) eqn:E.
  { destruct x as [n|], y as [m|]; try done. left. cbn [value]. split; [|by apply dsub_small].
    cbn in Hx, Hy. dnums. lia. }
  destruct (words_spec x Hx) as (xl & xh & Ex & H1 & H2 & -> & _).
  destruct (words_spec y Hy) as (yl & yh & Ey & H3 & H4 & -> & _).
  rewrite (dsub_words x y xl xh yl yh) by done.
  destruct (sub_words_spec xl xh yl yh) as [(?&?&?)|[? Hn]]; [done..|by left|right].
  split; [done|]. intros Hr.
  match type of Hn with ~ (?a /\ _) => assert (Hm : ~ a) by (intros Ha; by apply Hn) end. clear Hn.
  unfold pair_value in *. fold (unsigned xl) (unsigned yl) in *.
  pose proof (unsigned_range xl). pose proof (unsigned_range yl). dnums. lia.
Qed.

(** *** Double words *)

Lemma wrap_split (f : Z) : f = wrap (Z.shiftr (f mod 2 ^ 128) 64) * 2 ^ 64 + (wrap f) mod 2 ^ 64 + (f - f mod 2 ^ 128)
  + (((f mod 2 ^ 128) / 2 ^ 64) - wrap ((f mod 2 ^ 128) / 2 ^ 64)) * 2 ^ 64.
Proof.
  fold (unsigned (wrap f)). rewrite unsigned_wrap, Z.shiftr_div_pow2 by lia.
  set (w := wrap _). clearbody w. dnums. lia.
Qed.

(** The signed number with the same 128 low bits. *)
Lemma split_value f l h :
  split f = (l, h) -> inw l /\ inw h /\ pair_value l h = signed_double f.
Proof.
  unfold split. intros [= <- <-]. split; [apply wrap_range|]. split; [apply wrap_range|].
  rewrite Z.shiftr_div_pow2 by lia. unfold pair_value. fold (unsigned (wrap f)). rewrite unsigned_wrap.
  pose proof (wrap_range ((f mod 2 ^ 128) / 2 ^ 64)) as Hr.
  destruct (wrap_cong ((f mod 2 ^ 128) / 2 ^ 64)) as [k Hk]. unfold signed_double.
  set (w := wrap _) in *. clearbody w. dnums. lia.
Qed.
Lemma signed_double_fits v : fits v -> signed_double v = v.
Proof. unfold signed_double. intros. rewrite Z.mod_small; dnums; lia. Qed.
Lemma signed_double_eq u v : fits v -> (exists k, u = v + k * 2 ^ 128) -> signed_double u = v.
Proof.
  intros Hv [k ->]. unfold signed_double.
  replace (v + k * 2 ^ 128 + 2 ^ 127) with (v + 2 ^ 127 + k * 2 ^ 128) by lia.
  rewrite Z.mod_add by lia. by apply signed_double_fits.
Qed.
Lemma merge_pair l h : inw h -> exists k, merge l h = pair_value l h + k * 2 ^ 128.
Proof.
  intros Hh. unfold merge, pair_value. fold (unsigned l). rewrite (unsigned_case h Hh).
  case_bool_decide; [exists 1|exists 0]; dnums; lia.
Qed.
Lemma pair_value_inj l h l' h' :
  inw l -> inw h -> inw l' -> inw h' -> pair_value l h = pair_value l' h' -> l = l' /\ h = h'.
Proof.
  intros H1 H2 H3 H4. unfold pair_value. fold (unsigned l) (unsigned l').
  pose proof (unsigned_range l). pose proof (unsigned_range l').
  pose proof (unsigned_case l H1). pose proof (unsigned_case l' H3).
  intros E. assert (h = h') by (dnums; lia). split; [|done].
  repeat case_bool_decide; dnums; lia.
Qed.

(** *** Multiplication *)

Lemma dmul_small n m : representable n -> representable m -> returns (dmul (Small n) (Small m)) (n * m).
Proof.
  intros Hn Hm. cbn [dmul]. rewrite coerce_to_word_spec. cbn [obind]. rewrite strip_tag_tag by done.
  destruct (decide (inw (4 * n * m))) as [H|H].
  - rewrite with_overflow_ok by done.
    assert (representable (n * m)) by (dnums; lia).
    rewrite <- Z.mul_assoc. rewrite insert_tag_4 by done. rewrite untag_tag. by apply returns_small.
  - rewrite with_overflow_bad, coerce_to_word_spec by done. cbn [obind].
    unfold multiply_low_high. destruct (split (n * m)) as [l h] eqn:E.
    apply split_value in E as (Hl & Hh & E).
    assert (Hf : fits (n * m)).
    { assert (Z.abs n * Z.abs m <= 2 ^ 61 * 2 ^ 61) by (apply Z.mul_le_mono_nonneg; dnums; lia).
      dnums. nia. }
    rewrite signed_double_fits in E by done.
    apply returns_double; [done|done|done|]. dnums. nia.
Qed.

Definition mul_low_high (xl xh yl yh : Z) : Z * Z :=
  let '(low, xlyl_high) := unsigned_multiply xl yl in
  let '(xlyh_low, _) := unsigned_multiply xl yh in
  let '(xhyl_low, _) := unsigned_multiply xh yl in
  let '(high, _) := add_with_carry xlyh_low xhyl_low in
  let '(high, _) := add_with_carry xlyl_high high in
  (low, high).

Lemma mul_low_high_spec xl xh yl yh l h :
  inw xl -> inw xh -> inw yl -> inw yh ->
  mul_low_high xl xh yl yh = (l, h) ->
  inw l /\ inw h /\ pair_value l h = signed_double (pair_value xl xh * pair_value yl yh).
Proof.
  intros H1 H2 H3 H4. unfold mul_low_high, unsigned_multiply, split, add_with_carry.
  intros [= <- <-]. split; [apply wrap_range|]. split; [apply wrap_range|].
  symmetry. apply signed_double_eq; [apply pair_value_fits, wrap_range|].
  unfold pair_value. rewrite !Z.shiftr_div_pow2 by lia. rewrite !unsigned_wrap.
  fold (unsigned xl) (unsigned yl). fold (unsigned (wrap (unsigned xl * unsigned yl))).
  rewrite unsigned_wrap.
  pose proof (unsigned_range xl) as R1. pose proof (unsigned_range yl) as R2.
  set (a := unsigned xl) in *. set (b := unsigned yl) in *. clearbody a b.
  assert (Hx : exists i, unsigned xh = xh + i * 2 ^ 64).
  { unfold unsigned. exists (- (xh / 2 ^ 64)). dnums. lia. }
  assert (Hy : exists i, unsigned yh = yh + i * 2 ^ 64).
  { unfold unsigned. exists (- (yh / 2 ^ 64)). dnums. lia. }
  destruct Hx as [i Hi]. destruct Hy as [j Hj].
  set (u := unsigned xh) in *. set (v := unsigned yh) in *. clearbody u v.
  assert (Hab : 0 <= a * b < 2 ^ 128) by (dnums; nia).
  rewrite (Z.mod_small (a * b) (2 ^ 128)) by done.
  rewrite <- (Zplus_mod (a * v) (u * b)).
  assert (Hm : forall t, exists k, t mod 2 ^ 64 = t + k * 2 ^ 64).
  { intros t. exists (- (t / 2 ^ 64)). dnums. lia. }
  destruct (Hm (a * b / 2 ^ 64)) as [k1 ->]. destruct (Hm (a * v + u * b)) as [k2 ->].
  set (s := _ + _ * 2 ^ 64 + _). destruct (wrap_cong s) as [k ->]. subst s.
  pose proof (Z.div_mod (a * b) (2 ^ 64) ltac:(lia)) as E.
  set (q := a * b / 2 ^ 64) in *. set (r := (a * b) mod 2 ^ 64) in *. clearbody q r.
  exists (xh * yh - a * j - b * i - k - k1 - k2). subst u v.
  change (2 ^ 128) with (2 ^ 64 * 2 ^ 64). set (B := 2 ^ 64) in *. clearbody B. nia.
Qed.

Lemma dmul_words x y xl xh yl yh l h :
  both_small x y = false -> words x = Val (xl, xh) -> words y = Val (yl, yh) ->
  mul_low_high xl xh yl yh = (l, h) ->
  dmul x y = (do result <- interpret l h;
              if negb (Bool.eqb (dnegative_p result) (negb (Bool.eqb (dnegative_p x) (dnegative_p y))))
              then overflow else Val result).
Proof.
  unfold mul_low_high.
  destruct (unsigned_multiply xl yl) as [? ?] eqn:E1. destruct (unsigned_multiply xl yh) as [? ?] eqn:E2.
  destruct (unsigned_multiply xh yl) as [? ?] eqn:E3.
  destruct (add_with_carry _ _) as [? ?] eqn:E4. destruct (add_with_carry z0 _) as [? ?] eqn:E5.
  intros Hb Hx Hy [= <- <-].
  destruct x, y; try done; cbn [dmul]; rewrite Hx, Hy; cbn [obind];
    rewrite E1, E2, E3, E4, E5; reflexivity.
Qed.

(** Whatever the product, the result is it modulo 2^128, or an overflow when the sign of that
    is not the one the signs of the arguments ask for. *)
Lemma dmul_spec x y :
  well_formed x -> well_formed y -> both_small x y = false ->
  let r := signed_double (value x * value y) in
  let same := bool_decide (r < 0) = negb (Bool.eqb (bool_decide (value x < 0)) (bool_decide (value y < 0))) in
  (same /\ returns (dmul x y) r) \/ (~ same /\ overflows (dmul x y)).
Proof.
  intros Hx Hy Hb r same.
  pose proof (dnegative_p_spec x Hx) as Nx. pose proof (dnegative_p_spec y Hy) as Ny.
  destruct (words_spec x Hx) as (xl & xh & Ex & H1 & H2 & Vx & _).
  destruct (words_spec y Hy) as (yl & yh & Ey & H3 & H4 & Vy & _).
  destruct (mul_low_high xl xh yl yh) as [l h] eqn:E.
  rewrite (dmul_words x y xl xh yl yh l h) by done.
  apply mul_low_high_spec in E as (Hl & Hh & E); [|done..].
  rewrite <- Vx, <- Vy in E. fold r in E.
  destruct (interpret_spec l h Hl Hh) as (res & -> & Hw & Hv). cbn [obind].
  rewrite E in Hv. rewrite Nx, Ny, (dnegative_p_spec res Hw), Hv.
  destruct (Bool.eqb (bool_decide (r < 0)) _) eqn:Q; cbn [negb].
  - left. apply Bool.eqb_prop in Q. split; [done|]. by exists res.
  - right. apply Bool.eqb_false_iff in Q. by split.
Qed.

Lemma dmul_exact x y :
  well_formed x -> well_formed y -> fits (value x * value y) ->
  (value x * value y = 0 -> 0 <= value x /\ 0 <= value y) ->
  returns (dmul x y) (value x * value y).
Proof.
  intros Hx Hy Hf Hz. destruct (both_small x y) eqn:E.
  { destruct x as [n|], y as [m|]; try done. cbn [value]. by apply dmul_small. }
  destruct (dmul_spec x y Hx Hy E) as [[_ H]|[H _]].
  - by rewrite signed_double_fits in H.
  - destruct H. rewrite signed_double_fits by done.
    repeat case_bool_decide; cbn; try reflexivity; exfalso; nia.
Qed.

(** *** Comparison *)

Lemma value_inj x y : well_formed x -> well_formed y -> value x = value y -> x = y.
Proof.
  destruct x as [n|l h], y as [m|l' h']; cbn [well_formed]; rewrite ?word_inw; intros Hx Hy E.
  - cbn in E. congruence.
  - destruct Hy as (_ & _ & Hy). rewrite <- E in Hy. done.
  - destruct Hx as (_ & _ & Hx). rewrite E in Hx. done.
  - destruct Hx as (?&?&_), Hy as (?&?&_).
    destruct (pair_value_inj l h l' h') as [-> ->]; done.
Qed.

Lemma dequal_spec x y :
  well_formed x -> well_formed y -> dequal x y = bool_decide (value x = value y).
Proof.
  intros Hx Hy. apply Bool.eq_iff_eq_true. rewrite bool_decide_eq_true.
  destruct x as [n|l h], y as [m|l' h']; cbn [dequal].
  - unfold int_equal, tag. rewrite bool_decide_eq_true. cbn [value]. lia.
  - split; [done|]. intros E. by apply value_inj in E.
  - split; [done|]. intros E. by apply value_inj in E.
  - rewrite andb_true_iff, !bool_decide_eq_true. split; [by intros [-> ->]|].
    intros E. apply value_inj in E; [|done..]. by injection E.
Qed.

Lemma dless_spec x y :
  well_formed x -> well_formed y -> dless x y = bool_decide (value x < value y).
Proof.
  intros Hx Hy. pose proof (dnegative_p_spec x Hx) as Nx. pose proof (dnegative_p_spec y Hy) as Ny.
  destruct x as [n|l h], y as [m|l' h']; cbn [dless].
  - unfold int_less, tag. cbn [value]. repeat case_bool_decide; lia.
  - unfold dpositive, dzero. rewrite Ny. cbn [negb andb].
    destruct Hy as (_ & _ & Hy). set (v := value (Double l' h')) in *. clearbody v.
    cbn in Hx. cbn [value]. repeat case_bool_decide; cbn; try reflexivity; dnums; lia.
  - rewrite Nx. destruct Hx as (_ & _ & Hx). set (v := value (Double l h)) in *. clearbody v.
    cbn in Hy. cbn [value]. repeat case_bool_decide; cbn; try reflexivity; dnums; lia.
  - cbn [value]. fold (unsigned l) (unsigned l').
    pose proof (unsigned_range l). pose proof (unsigned_range l').
    repeat case_bool_decide; cbn; try reflexivity; dnums; lia.
Qed.

(** *** Bits *)

Lemma pair_bits l h i :
  0 <= i -> Z.testbit (pair_value l h) i = if bool_decide (i < 64) then Z.testbit l i else Z.testbit h (i - 64).
Proof.
  intros Hi. unfold pair_value. case_bool_decide.
  - rewrite <- (Z.mod_pow2_bits_low _ 64) by lia. rewrite Z.add_comm, Z.mod_add, Z.mod_mod by lia.
    by rewrite Z.mod_pow2_bits_low by lia.
  - replace i with (i - 64 + 64) at 1 by lia. rewrite <- Z.shiftr_spec by lia.
    rewrite Z.shiftr_div_pow2, Z.div_add_l by lia. fold (unsigned l).
    rewrite (Z.div_small (unsigned l)) by apply unsigned_range. by rewrite Z.add_0_r.
Qed.

Lemma dodd_spec x : well_formed x -> dodd x = Val (Z.odd (value x)).
Proof.
  destruct x as [n|l h]; cbn [dodd].
  - intros H. cbn [value]. by apply int_odd_spec.
  - intros _. rewrite <- Z.bit0_odd. cbn [value]. fold (pair_value l h). by rewrite pair_bits by lia.
Qed.

Lemma dlogical_spec small op g x y :
  (forall a b i, 0 <= i -> Z.testbit (op a b) i = g (Z.testbit a i) (Z.testbit b i)) ->
  (forall a b, inw a -> inw b -> inw (op a b)) ->
  (forall a b, representable a -> representable b -> small a b = op a b /\ representable (op a b)) ->
  well_formed x -> well_formed y ->
  returns (dlogical small op x y) (op (value x) (value y)).
Proof.
  intros Hop Hw Hs Hx Hy. destruct (both_small x y) eqn:E.
  { destruct x as [n|], y as [m|]; try done. cbn [dlogical value]. destruct (Hs n m) as [-> Hr]; [done..|].
    by apply returns_small. }
  destruct (words_spec x Hx) as (xl & xh & Ex & H1 & H2 & -> & _).
  destruct (words_spec y Hy) as (yl & yh & Ey & H3 & H4 & -> & _).
  assert (Hd : dlogical small op x y = interpret (op xl yl) (op xh yh)).
  { destruct x, y; try done; cbn [dlogical]; by rewrite Ex, Ey. }
  rewrite Hd. destruct (interpret_spec (op xl yl) (op xh yh)) as (r & Er & Hr & Hv); [auto..|].
  exists r. split; [done|]. split; [done|]. rewrite Hv. apply Z.bits_inj'. intros i Hi.
  rewrite Hop, !pair_bits by done. case_bool_decide; by rewrite Hop by lia.
Qed.

Lemma representable_shiftr x : representable x <-> Z.shiftr x 61 = 0 \/ Z.shiftr x 61 = -1.
Proof. rewrite Z.shiftr_div_pow2 by lia. dnums. lia. Qed.

Lemma dlogior_spec x y : well_formed x -> well_formed y -> returns (dlogior x y) (Z.lor (value x) (value y)).
Proof.
  apply (dlogical_spec _ _ orb).
  - intros. apply Z.lor_spec.
  - apply inw_lor.
  - intros a b Ha Hb. split; [by rewrite int_logior_spec|].
    revert Ha Hb. rewrite !representable_shiftr, Z.shiftr_lor. by intros [-> | ->] [-> | ->]; auto.
Qed.
Lemma dlogand_spec x y : well_formed x -> well_formed y -> returns (dlogand x y) (Z.land (value x) (value y)).
Proof.
  apply (dlogical_spec _ _ andb).
  - intros. apply Z.land_spec.
  - apply inw_land.
  - intros a b Ha Hb. split; [by rewrite int_logand_spec|].
    revert Ha Hb. rewrite !representable_shiftr, Z.shiftr_land. by intros [-> | ->] [-> | ->]; auto.
Qed.
Lemma dlogxor_spec x y : well_formed x -> well_formed y -> returns (dlogxor x y) (Z.lxor (value x) (value y)).
Proof.
  apply (dlogical_spec _ _ xorb).
  - intros. apply Z.lxor_spec.
  - apply inw_lxor.
  - intros a b Ha Hb. split; [by rewrite int_logxor_spec|].
    revert Ha Hb. rewrite !representable_shiftr, Z.shiftr_lxor. by intros [-> | ->] [-> | ->]; auto.
Qed.

Lemma lognot_val x : DblModel.lognot x = - x - 1.
Proof. unfold DblModel.lognot. rewrite Z.lxor_m1_r. unfold Z.lnot. lia. Qed.
Lemma lognot_inw x : inw x -> inw (DblModel.lognot x).
Proof. rewrite lognot_val. dnums. lia. Qed.
Lemma lognot_pair l h : inw l -> pair_value (DblModel.lognot l) (DblModel.lognot h) = - pair_value l h - 1.
Proof.
  intros Hl. unfold pair_value. fold (unsigned l) (unsigned (DblModel.lognot l)).
  rewrite unsigned_case by by apply lognot_inw. rewrite (unsigned_case l Hl), !lognot_val.
  repeat case_bool_decide; dnums; lia.
Qed.
Lemma dlognot_spec x : well_formed x -> returns (dlognot x) (- value x - 1).
Proof.
  destruct x as [n|l h]; cbn [well_formed dlognot value].
  - intros H. rewrite int_lognot_spec by done. apply returns_small; unfold Z.lnot; dnums; lia.
  - rewrite !word_inw. intros (Hl & Hh & _). fold (pair_value l h). rewrite <- lognot_pair by done.
    apply interpret_spec; by apply lognot_inw.
Qed.

Lemma dlogbit_double l h i :
  inw h -> 0 <= i -> dlogbit i (Double l h) = Val (Z.testbit (value (Double l h)) i).
Proof.
  intros Hh Hi. cbn [dlogbit dnegative_p value]. fold (pair_value l h). rewrite pair_bits by done.
  rewrite bool_decide_false by lia. case_bool_decide; [done|]. case_bool_decide; [done|].
  f_equal. rewrite inw_high by (done || lia).
  apply inw_shiftr in Hh. replace 63 with (0 + 63) by lia.
  rewrite <- Z.shiftr_spec by lia.
  assert (Z.shiftr h 63 < 0 <-> h < 0) by apply Z.shiftr_neg.
  destruct Hh as [Hh|Hh]; rewrite Hh in *; case_bool_decide; cbn; lia || done.
Qed.

(** *** Negation *)

Lemma negate_words_spec l h :
  inw l -> inw h ->
  (fits (- pair_value l h) /\ exists l' h', negate_words l h = Val (l', h') /\ inw l' /\ inw h' /\
     pair_value l' h' = - pair_value l h) \/
  (pair_value l h = - 2 ^ 127 /\ overflows (negate_words l h)).
Proof.
  intros Hl Hh. unfold negate_words.
  destruct (add_with_carry_spec (DblModel.lognot l) 1) as (l' & c & -> & Hl' & Hc & E).
  unfold add_signal_overflow.
  pose proof (lognot_pair l h Hl) as E2. pose proof (lognot_inw h Hh) as Hn.
  change (unsigned 1) with 1 in E.
  assert (E3 : pair_value l' (DblModel.lognot h + c) = - pair_value l h).
  { unfold pair_value in *. fold (unsigned l) (unsigned l') (unsigned (DblModel.lognot l)) in *. lia. }
  destruct (decide (inw (DblModel.lognot h + c))) as [H|H].
  - left. rewrite checked_ok by done. cbn [obind]. split; [rewrite <- E3; by apply pair_value_fits|].
    eexists _, _. done.
  - right. rewrite checked_bad by done. split; [|done].
    pose proof (unsigned_range l'). pose proof (unsigned_range (DblModel.lognot l)).
    unfold pair_value in *. fold (unsigned l) (unsigned l') (unsigned (DblModel.lognot l)) in *.
    rewrite lognot_val in *. dnums. lia.
Qed.

Lemma dnegative_small n : representable n -> returns (dnegative (Small n)) (- n).
Proof.
  intros Hn. cbn [dnegative]. rewrite strip_tag_tag by done.
  destruct (decide (inw (0 - 4 * n))) as [H|H].
  - rewrite with_overflow_ok by done. replace (0 - 4 * n) with (4 * (- n)) by lia.
    assert (representable (- n)) by (dnums; lia).
    rewrite insert_tag_4, untag_tag by done. by apply returns_small.
  - rewrite with_overflow_bad by done. rewrite coerce_to_word_spec. cbn [obind].
    assert (n = - 2 ^ 61) as -> by (dnums; lia).
    exists (Double (2 ^ 61) 0). split; [reflexivity|]. cbn [well_formed value]. dnums. lia.
Qed.
Lemma dnegative_spec x :
  well_formed x ->
  (fits (- value x) /\ returns (dnegative x) (- value x)) \/
  (value x = - 2 ^ 127 /\ overflows (dnegative x)).
Proof.
  destruct x as [n|l h]; intros Hx.
  - left. split; [cbn in *; dnums; lia|]. by apply dnegative_small.
  - cbn [dnegative value]. fold (pair_value l h). destruct Hx as (Hl & Hh & _). rewrite word_inw in Hl, Hh.
    destruct (negate_words_spec l h Hl Hh) as [(Hf & l' & h' & -> & H1 & H2 & <-)|[-> ->]]; [left|by right].
    split; [by apply pair_value_fits|]. by apply interpret_spec.
Qed.

Lemma dabs_spec x :
  well_formed x ->
  (fits (Z.abs (value x)) /\ returns (dabs x) (Z.abs (value x))) \/
  (value x = - 2 ^ 127 /\ overflows (dabs x)).
Proof.
  intros Hw. pose proof (dnegative_p_spec x Hw) as Hn. destruct x as [n|l h].
  - left. cbn [well_formed value] in *. split; [dnums; lia|]. cbn [dabs]. rewrite strip_tag_tag by done.
    unfold abs_with_overflow.
    destruct (decide (inw (0 - 4 * n))) as [H|H].
    + rewrite in_word_true by done. cbn [negb].
      assert (Ha : (if bool_decide (4 * n < 0) then wrap (0 - 4 * n) else 4 * n) = 4 * Z.abs n).
      { clear Hn. case_bool_decide; [rewrite wrap_id by done|]; lia. }
      rewrite Ha. assert (representable (Z.abs n)) by (dnums; lia).
      rewrite insert_tag_4, untag_tag by done. by apply returns_small.
    + rewrite in_word_false by done. cbn [negb]. rewrite coerce_to_word_spec. cbn [obind].
      assert (n = - 2 ^ 61) as -> by (dnums; lia).
      exists (Double (2 ^ 61) 0). split; [reflexivity|]. cbn [well_formed value]. dnums. lia.
  - cbn [dabs]. rewrite Hn. case_bool_decide as H.
    + destruct Hw as (Hl & Hh & _). rewrite word_inw in Hl, Hh. cbn [value] in *. fold (pair_value l h) in *.
      rewrite (Z.abs_neq (pair_value l h)) by lia.
      destruct (negate_words_spec l h Hl Hh) as [(Hf & l' & h' & -> & H1 & H2 & <-)|[-> ->]]; [left|by right].
      split; [by apply pair_value_fits|]. by apply interpret_spec.
    + left. pose proof (value_fits _ Hw). rewrite Z.abs_eq by lia. split; [done|]. by eexists.
Qed.
