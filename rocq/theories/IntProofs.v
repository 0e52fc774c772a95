(** Proofs about the model of <integer>. *)
From Coq Require Import ZifyBool ZifyNat ZifyN Lia Znumtheory Zquot.
From Verif Require Import Base IntModel IntSpec.
Local Open Scope Z_scope.
Local Open Scope outcome_scope.
Ltac Zify.zify_post_hook ::= Z.div_mod_to_equations.

Lemma word_limit_eq : word_limit = 9223372036854775808.
Proof. reflexivity. Qed.
Lemma p61 : 2 ^ 61 = 2305843009213693952. Proof. reflexivity. Qed.
Lemma p62 : 2 ^ 62 = 4611686018427387904. Proof. reflexivity. Qed.
Lemma p64 : 2 ^ 64 = 18446744073709551616. Proof. reflexivity. Qed.

Definition inw (x : Z) : Prop := - word_limit <= x < word_limit.

Ltac nums := unfold inw, representable in *; rewrite ?word_limit_eq, ?p61, ?p62, ?p64 in *.

Lemma in_word_true x : inw x -> in_word x = true.
Proof. intros. unfold in_word. by rewrite bool_decide_true. Qed.
Lemma in_word_false x : ~ inw x -> in_word x = false.
Proof. intros. unfold in_word. by rewrite bool_decide_false. Qed.

Lemma wrap_id x : inw x -> wrap x = x.
Proof. intros. unfold wrap. nums. rewrite Z.mod_small; lia. Qed.
Lemma wrap_range x : inw (wrap x).
Proof. unfold wrap. nums. pose proof (Z.mod_pos_bound (x + 9223372036854775808) (2 * 9223372036854775808)). lia. Qed.
Lemma wrap_cong x : exists k, wrap x = x + k * 2 ^ 64.
Proof.
  exists (- ((x + word_limit) / (2 * word_limit))). unfold wrap. nums. lia.
Qed.

Global Opaque wrap word_limit.

Lemma tag_inw x : representable x -> inw (tag x).
Proof. unfold tag. nums. lia. Qed.
Lemma untag_tag x : untag (tag x) = x.
Proof. unfold untag, tag. lia. Qed.
Lemma untag_4 x : untag (4 * x + 1) = x.
Proof. unfold untag. lia. Qed.
Lemma strip_tag_tag x : representable x -> strip_tag (tag x) = 4 * x.
Proof. intros. unfold strip_tag, tag. rewrite wrap_id; [lia|]. nums. lia. Qed.
Lemma insert_tag_4 x : representable x -> insert_tag (4 * x) = tag x.
Proof. intros. unfold insert_tag, tag. rewrite wrap_id; [lia|]. nums. lia. Qed.
Lemma land_m4 w : Z.land w (-4) = 4 * (w / 4).
Proof.
  change (-4) with (Z.lnot (Z.ones 2)). rewrite <- Z.ldiff_land, Z.ldiff_ones_r by lia.
  rewrite Z.shiftl_mul_pow2, Z.shiftr_div_pow2 by lia. lia.
Qed.
Lemma force_tag_inw w : inw w -> force_tag w = tag (w / 4).
Proof.
  intros. unfold force_tag. rewrite land_m4. apply insert_tag_4. nums. lia.
Qed.
Lemma untag_force w : inw w -> untag (force_tag w) = w / 4.
Proof. intros. rewrite force_tag_inw by done. apply untag_tag. Qed.

Lemma min_integer_eq : min_integer = - 2 ^ 61.
Proof. unfold min_integer. rewrite untag_force by (nums; lia). nums. reflexivity. Qed.
Lemma max_integer_eq : max_integer = 2 ^ 61 - 1.
Proof. unfold max_integer. rewrite untag_force by (nums; lia). nums. reflexivity. Qed.

Lemma checked_spec n :
  checked (4 * n) = if bool_decide (- 2 ^ 61 <= n < 2 ^ 61) then Val (4 * n) else overflow.
Proof.
  unfold checked. case_bool_decide as H.
  - rewrite in_word_true; [done|]. nums. lia.
  - rewrite in_word_false; [done|]. nums. lia.
Qed.
Lemma checked_spec1 n :
  checked (4 * n + 1) = if bool_decide (- 2 ^ 61 <= n < 2 ^ 61) then Val (4 * n + 1) else overflow.
Proof.
  unfold checked. case_bool_decide as H.
  - rewrite in_word_true; [done|]. nums. lia.
  - rewrite in_word_false; [done|]. nums. lia.
Qed.

Lemma int_add_spec x y : representable x -> representable y -> int_add x y = exact_or_overflow (x + y).
Proof.
  intros. unfold int_add, add_signal_overflow. rewrite strip_tag_tag by done.
  replace (tag x + 4 * y) with (4 * (x + y) + 1) by (unfold tag; lia).
  rewrite checked_spec1. unfold exact_or_overflow. case_bool_decide; cbn [obind]; [|done].
  by rewrite untag_4.
Qed.
Lemma int_sub_spec x y : representable x -> representable y -> int_sub x y = exact_or_overflow (x - y).
Proof.
  intros. unfold int_sub, subtract_signal_overflow. rewrite strip_tag_tag by done.
  replace (tag x - 4 * y) with (4 * (x - y) + 1) by (unfold tag; lia).
  rewrite checked_spec1. unfold exact_or_overflow. case_bool_decide; cbn [obind]; [|done].
  by rewrite untag_4.
Qed.
Lemma coerce_to_word_spec y : coerce_to_word y = Val y.
Proof.
  unfold coerce_to_word, ashr. rewrite bool_decide_true by lia. f_equal.
  rewrite Z.shiftr_div_pow2 by lia. unfold tag. change (2 ^ 2) with 4. lia.
Qed.
Lemma int_mul_spec x y : representable x -> representable y -> int_mul x y = exact_or_overflow (x * y).
Proof.
  intros. unfold int_mul, multiply_signal_overflow. rewrite strip_tag_tag, coerce_to_word_spec by done.
  cbn [obind]. replace (4 * x * y) with (4 * (x * y)) by lia.
  rewrite checked_spec. unfold exact_or_overflow. case_bool_decide; cbn [obind]; [|done].
  rewrite insert_tag_4 by done. by rewrite untag_tag.
Qed.
Lemma int_negative_spec x : representable x -> int_negative x = exact_or_overflow (- x).
Proof.
  intros. unfold int_negative, negative_signal_overflow. rewrite strip_tag_tag by done.
  replace (0 - 4 * x) with (4 * (- x)) by lia.
  rewrite checked_spec. unfold exact_or_overflow. case_bool_decide; cbn [obind]; [|done].
  rewrite insert_tag_4 by done. by rewrite untag_tag.
Qed.
Lemma int_abs_spec x : representable x -> int_abs x = exact_or_overflow (Z.abs x).
Proof.
  intros. unfold int_abs, abs_signal_overflow. rewrite strip_tag_tag by done.
  replace (0 - 4 * x) with (4 * (- x)) by lia.
  rewrite checked_spec. unfold exact_or_overflow.
  destruct (bool_decide (- 2 ^ 61 <= - x < 2 ^ 61)) eqn:E; cbn [obind].
  - apply bool_decide_eq_true in E. rewrite (bool_decide_true (- 2 ^ 61 <= Z.abs x < 2 ^ 61)) by (nums; lia).
    case_bool_decide.
    + rewrite insert_tag_4 by done. rewrite untag_tag. f_equal. lia.
    + rewrite insert_tag_4 by done. rewrite untag_tag. f_equal. lia.
  - apply bool_decide_eq_false in E. rewrite (bool_decide_false (- 2 ^ 61 <= Z.abs x < 2 ^ 61)); [done|].
    nums. lia.
Qed.

(** *** Shifts *)
Lemma shl_val x n : 0 <= n < 64 -> shl x n = Val (wrap (x * 2 ^ n)).
Proof. intros. unfold shl. rewrite bool_decide_true by done. by rewrite Z.shiftl_mul_pow2 by lia. Qed.
Lemma ashr_val x n : 0 <= n < 64 -> ashr x n = Val (x / 2 ^ n).
Proof. intros. unfold ashr. rewrite bool_decide_true by done. by rewrite Z.shiftr_div_pow2 by lia. Qed.

Lemma pow_split n : 0 <= n < 64 -> 2 ^ 64 = 2 ^ (64 - n) * 2 ^ n.
Proof. intros. rewrite <- Z.pow_add_r by lia. f_equal. lia. Qed.

Lemma shift_left_signal_overflow_spec x n :
  inw x -> 0 <= n < 64 ->
  shift_left_signal_overflow x n = checked (x * 2 ^ n).
Proof.
  intros Hx Hn. unfold shift_left_signal_overflow. rewrite shl_val by done. cbn [obind].
  rewrite ashr_val by done. cbn [obind].
  pose proof (Z.pow_pos_nonneg 2 n ltac:(lia) ltac:(lia)) as Hp.
  unfold checked. destruct (decide (inw (x * 2 ^ n))) as [H|H].
  - rewrite in_word_true, wrap_id by done. rewrite bool_decide_true; [done|].
    rewrite Z.div_mul by lia. done.
  - rewrite in_word_false by done. rewrite bool_decide_false; [done|]. intros E.
    destruct (wrap_cong (x * 2 ^ n)) as [k Hk]. pose proof (wrap_range (x * 2 ^ n)) as Hr.
    rewrite (pow_split n Hn), Z.mul_assoc, <- Z.mul_add_distr_r in Hk.
    rewrite Hk, Z.div_mul in E by lia.
    assert (Hz : k * 2 ^ (64 - n) = 0) by lia. rewrite Hz, Z.add_0_r in Hk.
    apply H. by rewrite <- Hk.
Qed.

Lemma coerce_to_integer_spec w : inw w -> coerce_to_integer w = exact_or_overflow w.
Proof.
  intros. unfold coerce_to_integer. rewrite shift_left_signal_overflow_spec by (done || lia).
  change (2 ^ 2) with 4. rewrite (Z.mul_comm w), checked_spec. unfold exact_or_overflow.
  case_bool_decide; cbn [obind]; [|done]. rewrite insert_tag_4 by done. by rewrite untag_tag.
Qed.

Lemma representable_inw x : representable x -> inw x.
Proof. nums. lia. Qed.
Lemma exact_ok x : representable x -> exact_or_overflow x = Val x.
Proof. intros. unfold exact_or_overflow. by rewrite bool_decide_true. Qed.
Lemma exact_bad x : ~ representable x -> exact_or_overflow x = overflow.
Proof. intros. unfold exact_or_overflow. by rewrite bool_decide_false. Qed.

(** *** Division *)
Lemma quot_bound x d : representable x -> d <> 0 -> - 2 ^ 61 <= Z.quot x d <= 2 ^ 61.
Proof.
  unfold representable. intros H Hd. generalize dependent (2 ^ 61). intros B HB.
  assert (Hx : Z.abs x <= B) by lia.
  assert (Hq : Z.abs (Z.quot x d) <= Z.abs x).
  { rewrite <- Z.quot_abs by done. rewrite Z.quot_div_nonneg by lia.
    apply Z.div_le_upper_bound; [lia|]. clear -Hd. assert (1 <= Z.abs d) by lia.
    assert (0 <= Z.abs x) by lia. generalize dependent (Z.abs x). generalize dependent (Z.abs d).
    clear. intros. rewrite <- (Z.mul_1_l z0) at 1. apply Z.mul_le_mono_nonneg_r; done. }
  clear -Hx Hq. lia.
Qed.

Lemma sdiv_val x d : representable x -> d <> 0 -> sdiv x d = Val (Z.quot x d).
Proof.
  intros H Hd. unfold sdiv. rewrite bool_decide_false by done.
  rewrite in_word_true; [done|]. pose proof (quot_bound x d H Hd). nums. lia.
Qed.
Lemma srem_val x d : representable x -> d <> 0 -> srem x d = Val (Z.rem x d).
Proof.
  intros H Hd. unfold srem. rewrite bool_decide_false by done.
  rewrite in_word_true; [done|]. pose proof (quot_bound x d H Hd). nums. lia.
Qed.

Lemma rem_facts x d : d <> 0 ->
  x = Z.quot x d * d + Z.rem x d /\ Z.abs (Z.rem x d) < Z.abs d /\
  (0 <= x -> 0 <= Z.rem x d) /\ (x <= 0 -> Z.rem x d <= 0).
Proof.
  intros Hd. pose proof (Z.quot_rem x d Hd). split; [lia|]. split.
  - apply Z.rem_bound_abs. done.
  - split; intros.
    + destruct (Z_lt_le_dec d 0).
      * pose proof (Z.rem_bound_pos_neg x d). lia.
      * pose proof (Z.rem_bound_pos x d). lia.
    + destruct (Z_lt_le_dec d 0).
      * pose proof (Z.rem_bound_neg_neg x d). lia.
      * pose proof (Z.rem_bound_neg_pos x d). lia.
Qed.

(** What the conversion back to <integer> makes of a quotient and a remainder. *)
Lemma division_finish f (rule : Z -> Z -> Z -> Z -> Prop) x d q r :
  representable x -> representable d -> f x d = Val (q, r) -> rule x d q r ->
  inw q -> Z.abs r < Z.abs d ->
  division_ok rule x d (int_division f x d).
Proof.
  intros Hx Hd Hf Hrule Hq Hr. unfold int_division. rewrite !coerce_to_word_spec. cbn [obind].
  rewrite Hf. cbn [obind]. 
  assert (Hr' : representable r) by (nums; lia).
  exists q, r. split; [done|]. split; [done|].
  rewrite (coerce_to_integer_spec q Hq). 
  rewrite (coerce_to_integer_spec r) by (by apply representable_inw).
  rewrite (exact_ok r) by done.
  destruct (decide (- 2 ^ 61 <= q < 2 ^ 61)) as [Hq'|Hq'].
  - left. split; [done|]. by rewrite exact_ok.
  - right. split; [done|]. by rewrite exact_bad.
Qed.

Lemma int_truncate_spec x d :
  representable x -> representable d -> d <> 0 ->
  division_ok is_truncate x d (int_truncate x d).
Proof.
  intros Hx Hd H0. pose proof (rem_facts x d H0) as (E & A & P & N).
  pose proof (quot_bound x d Hx H0).
  apply (division_finish word_truncate is_truncate x d (Z.quot x d) (Z.rem x d)); try done.
  - unfold word_truncate. rewrite sdiv_val, srem_val by done. reflexivity.
  - repeat split; auto; intros; lia.
  - nums; lia.
Qed.

Lemma word_floor_spec x d :
  representable x -> d <> 0 ->
  exists q r, word_floor x d = Val (q, r) /\ is_floor x d q r /\ - 2 ^ 61 - 1 <= q <= 2 ^ 61.
Proof.
  intros Hx H0. pose proof (rem_facts x d H0) as (E & A & P & N).
  pose proof (quot_bound x d Hx H0). unfold word_floor.
  rewrite sdiv_val, srem_val by done. cbn [obind].
  set (q := Z.quot x d) in *. set (r := Z.rem x d) in *.
  repeat case_bool_decide; (eexists _, _; split; [reflexivity|]; unfold is_floor; split; [split|]); nia || lia.
Qed.

Lemma word_ceiling_spec x d :
  representable x -> d <> 0 ->
  exists q r, word_ceiling x d = Val (q, r) /\ is_ceiling x d q r /\ - 2 ^ 61 <= q <= 2 ^ 61 + 1.
Proof.
  intros Hx H0. pose proof (rem_facts x d H0) as (E & A & P & N).
  pose proof (quot_bound x d Hx H0). unfold word_ceiling.
  rewrite sdiv_val, srem_val by done. cbn [obind].
  set (q := Z.quot x d) in *. set (r := Z.rem x d) in *.
  repeat case_bool_decide; (eexists _, _; split; [reflexivity|]; unfold is_ceiling; split; [split|]); nia || lia.
Qed.

Lemma int_floor_spec x d :
  representable x -> representable d -> d <> 0 ->
  division_ok is_floor x d (int_floor x d).
Proof.
  intros Hx Hd H0. destruct (word_floor_spec x d Hx H0) as (q & r & E & F & B).
  apply (division_finish word_floor is_floor x d q r); try done; unfold is_floor in F; nums; lia.
Qed.
Lemma int_ceiling_spec x d :
  representable x -> representable d -> d <> 0 ->
  division_ok is_ceiling x d (int_ceiling x d).
Proof.
  intros Hx Hd H0. destruct (word_ceiling_spec x d Hx H0) as (q & r & E & F & B).
  apply (division_finish word_ceiling is_ceiling x d q r); try done; unfold is_ceiling in F; nums; lia.
Qed.

Lemma raw_as_integer_spec w : representable w -> raw_as_integer w = w.
Proof.
  intros. unfold raw_as_integer. rewrite wrap_id by (nums; lia). apply untag_4.
Qed.
Lemma int_modulo_spec x d :
  representable x -> representable d -> d <> 0 ->
  int_modulo x d = Val (x mod d).
Proof.
  intros Hx Hd H0. destruct (word_floor_spec x d Hx H0) as (q & r & E & F & B).
  unfold int_modulo. rewrite !coerce_to_word_spec. cbn [obind]. rewrite E. cbn [obind].
  rewrite raw_as_integer_spec by (unfold is_floor in F; nums; lia). f_equal.
  unfold is_floor in F. destruct F as [F1 F2].
  apply (Z.mod_unique x d q r); lia.
Qed.
Lemma int_remainder_spec x d :
  representable x -> representable d -> d <> 0 ->
  int_remainder x d = Val (Z.rem x d).
Proof.
  intros Hx Hd H0. pose proof (rem_facts x d H0) as (E & A & P & N).
  unfold int_remainder. rewrite !coerce_to_word_spec. cbn [obind]. unfold word_truncate.
  rewrite sdiv_val, srem_val by done. cbn [obind].
  by rewrite raw_as_integer_spec by (nums; lia).
Qed.

(** round/: what it does compute.  It is right unless the divisor is odd, the truncated
    quotient odd and the remainder exactly half the divisor rounded down. *)
Lemma word_round_spec x d :
  representable x -> representable d -> d <> 0 ->
  exists q r, word_round x d = Val (q, r) /\ x = q * d + r /\
    Z.abs r <= Z.abs d /\ - 2 ^ 61 - 1 <= q <= 2 ^ 61 + 1 /\
    ((Z.even d = true \/ Z.even (Z.quot x d) = true \/
      2 * Z.abs (Z.rem x d) + 1 <> Z.abs d) -> is_round x d q r).
Proof.
  intros Hx Hd H0. pose proof (rem_facts x d H0) as (E & A & P & N).
  pose proof (quot_bound x d Hx H0). unfold word_round.
  rewrite sdiv_val, srem_val by done. cbn [obind].
  set (q := Z.quot x d) in *. set (r := Z.rem x d) in *.
  assert (Ht : sdiv (if bool_decide (d < 0) then 0 - d else d) 2 = Val (Z.abs d / 2)).
  { unfold sdiv. rewrite bool_decide_false by lia.
    assert (Ha : (if bool_decide (d < 0) then 0 - d else d) = Z.abs d) by (case_bool_decide; lia).
    rewrite Ha, Z.quot_div_nonneg by lia. rewrite in_word_true; [done|]. nums. lia. }
  rewrite Ht. cbn [obind]. set (t := Z.abs d / 2).
  assert (Htb : Z.abs d = 2 * t \/ Z.abs d = 2 * t + 1) by lia.
  assert (Hev : Z.even d = true -> Z.abs d = 2 * t).
  { intros Hev. apply Z.even_spec in Hev as [k Hk]. lia. }
  destruct (Z.even q) eqn:Eq.
  - assert (HE : Z.Even q) by by apply Z.even_spec.
    cbn [negb]. rewrite !andb_false_r, !orb_false_r.
    unfold is_round.
    repeat case_bool_decide;
      (eexists _, _; split; [reflexivity|]; split; [nia|]; split; [lia|]; split; [lia|];
       intros _; split; [nia|]; split; [lia|]; try (intros; done); intros; exfalso; lia).
  - assert (HO : Z.Odd q) by (apply Z.odd_spec; rewrite <- Z.negb_even; by rewrite Eq).
    assert (HE1 : Z.Even (q + 1)) by (destruct HO as [m ->]; exists (m + 1); lia).
    assert (HE2 : Z.Even (q + -1)) by (destruct HO as [m ->]; exists m; lia).
    cbn [negb]. rewrite !andb_true_r. unfold is_round.
    repeat case_bool_decide; cbn [orb];
      (eexists _, _; split; [reflexivity|]; split; [nia|]; split; [lia|]; split; [lia|];
       intros [Hd2|[?|Hd2]]; [pose proof (Hev Hd2)|discriminate|];
       (split; [nia|]; split; [lia|]; first [intros; done | intros; exfalso; lia])).
Qed.
