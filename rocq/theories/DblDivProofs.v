(** Proofs about the model of double integers: division, powers, printing. *)
From Coq Require Import ZifyBool ZifyNat ZifyN Lia.
From Verif Require Import Base IntModel IntSpec IntProofs IntBitsProofs DblModel DblSpec DblProofs DblShiftProofs.
Local Open Scope Z_scope.
Local Open Scope outcome_scope.
Ltac Zify.zify_post_hook ::= Z.div_mod_to_equations.

Lemma p32 : 2 ^ 32 = 4294967296. Proof. reflexivity. Qed.

Lemma double_truncate_nonneg l d :
  0 <= l < 2 ^ 63 -> 0 < d -> double_truncate l 0 d = Val (l / d, l mod d).
Proof.
  intros Hl Hd. unfold double_truncate.
  assert (E : merge l 0 = l).
  { unfold merge. change (unsigned 0) with 0. unfold unsigned. rewrite Z.mod_small by (dnums; lia). lia. }
  rewrite E, signed_double_fits by (dnums; lia).
  rewrite Z.quot_div_nonneg, Z.rem_mod_nonneg by lia.
  assert (0 <= l / d <= l) by (split; [apply Z.div_pos|apply Z.div_le_upper_bound]; nia).
  assert (0 <= l mod d <= l) by (split; [apply Z.mod_pos_bound|apply Z.mod_le]; lia).
  rewrite bool_decide_false by lia. rewrite bool_decide_false by (dnums; lia).
  by rewrite !wrap_id by (dnums; lia).
Qed.

Lemma high_half low : double_shift_left low 0 32 = Val (wrap (unsigned low * 2 ^ 32), unsigned low / 2 ^ 32).
Proof.
  unfold double_shift_left. rewrite bool_decide_true by lia. unfold split. do 2 f_equal.
  - f_equal. unfold merge. change (unsigned 0) with 0. by rewrite Z.shiftl_mul_pow2 by lia.
  - unfold merge. change (unsigned 0) with 0. rewrite Z.mul_0_l, Z.add_0_l.
    rewrite Z.shiftl_mul_pow2, Z.shiftr_div_pow2 by lia. pose proof (unsigned_range low).
    rewrite Z.mod_small by (rewrite p32; dnums; lia).
    rewrite wrap_id by (rewrite p32; dnums; lia). rewrite p32. dnums. lia.
Qed.
Lemma low_half x :
  (do l <- unsigned_shift_left x 32; lshr l 32) = Val (x mod 2 ^ 32).
Proof.
  rewrite unsigned_shift_left_spec by lia. cbn [obind]. unfold lshr. rewrite bool_decide_true by lia.
  fold (unsigned (wrap (x * 2 ^ 32))). rewrite unsigned_wrap, Z.shiftr_div_pow2 by lia.
  change (2 ^ 64) with (2 ^ 32 * 2 ^ 32). rewrite Z.mul_mod_distr_r, Z.div_mul by lia.
  f_equal. apply wrap_id. rewrite p32. dnums. lia.
Qed.

(** Dividing a positive double integer by a positive integer. *)
Lemma by_integer_pos low high d :
  inw low -> inw high -> 0 <= high -> 0 < d -> representable d ->
  (exists ql qh r, by_integer_truncate low high d = Val (ql, qh, r) /\ inw ql /\ inw qh /\ 0 <= qh /\
     pair_value low high = pair_value ql qh * d + r /\ 0 <= r < d) \/
  (2 ^ 31 < d /\ overflows (by_integer_truncate low high d)).
Proof.
  intros Hl Hh Hh0 Hd0 Hd. unfold by_integer_truncate.
  rewrite coerce_to_word_spec. cbn [obind].
  rewrite (bool_decide_false (high < 0)), (bool_decide_false (d < 0)) by lia. cbn [Bool.eqb].
  replace (sign_word high) with 0 by (unfold sign_word; by rewrite bool_decide_false by lia).
  rewrite double_truncate_nonneg by (dnums; lia). cbn [obind].
  pose proof (Z.div_mod high d ltac:(lia)) as E1. pose proof (Z.mod_pos_bound high d ltac:(lia)) as B1.
  assert (Q1 : 0 <= high / d <= high) by (split; [apply Z.div_pos|apply Z.div_le_upper_bound]; nia).
  set (qh := high / d) in *. set (ch := high mod d) in *. clearbody qh ch.
  rewrite shift_left_signal_overflow_spec by (dnums; lia).
  destruct (decide (inw (ch * 2 ^ 32))) as [Hc|Hc].
  2:{ right. rewrite checked_bad by done. split; [|done]. rewrite p32 in Hc. change (2 ^ 31) with 2147483648. dnums. lia. }
  rewrite checked_ok by done. cbn [obind]. rewrite high_half. cbn [obind].
  pose proof (unsigned_range low) as Ru. 
  assert (Em : Z.lor (ch * 2 ^ 32) (unsigned low / 2 ^ 32) = ch * 2 ^ 32 + unsigned low / 2 ^ 32).
  { apply lor_add; [lia|]. rewrite p32. dnums. lia. }
  rewrite Em. replace (sign_word ch) with 0 by (unfold sign_word; by rewrite bool_decide_false by lia).
  assert (Bm : 0 <= ch * 2 ^ 32 + unsigned low / 2 ^ 32 < 2 ^ 63) by (rewrite p32 in *; dnums; lia).
  rewrite double_truncate_nonneg by done. cbn [obind].
  set (u := unsigned low) in *.
  assert (Mlt : ch * 2 ^ 32 + u / 2 ^ 32 < d * 2 ^ 32) by (rewrite p32 in *; dnums; lia).
  set (mid := ch * 2 ^ 32 + u / 2 ^ 32) in *.
  pose proof (Z.div_mod mid d ltac:(lia)) as E2. pose proof (Z.mod_pos_bound mid d ltac:(lia)) as B2.
  assert (Q2 : 0 <= mid / d < 2 ^ 32).
  { split; [apply Z.div_pos|apply Z.div_lt_upper_bound]; lia. }
  set (qm := mid / d) in *. set (cm := mid mod d) in *. clearbody qm cm.
  rewrite shift_left_signal_overflow_spec by (dnums; lia).
  destruct (decide (inw (cm * 2 ^ 32))) as [Hc2|Hc2].
  2:{ right. rewrite checked_bad by done. split; [|done]. rewrite p32 in Hc2. change (2 ^ 31) with 2147483648. dnums. lia. }
  rewrite checked_ok by done. cbn [obind].
  pose proof (low_half low) as LH.
  destruct (unsigned_shift_left low 32) as [l1| | |]; try done. cbn [obind] in LH |- *. rewrite LH. cbn [obind].
  assert (El : low mod 2 ^ 32 = u mod 2 ^ 32).
  { subst u. destruct (unsigned_cong low) as [k ->]. change (2 ^ 64) with (2 ^ 32 * 2 ^ 32).
    rewrite Z.mul_assoc, Z.mod_add by lia. done. }
  rewrite El.
  assert (Rl : 0 <= u mod 2 ^ 32 < 2 ^ 32) by (apply Z.mod_pos_bound; lia).
  rewrite lor_add by lia.
  replace (sign_word cm) with 0 by (unfold sign_word; by rewrite bool_decide_false by lia).
  assert (Bl : 0 <= cm * 2 ^ 32 + u mod 2 ^ 32 < 2 ^ 63) by (rewrite p32 in *; dnums; lia).
  rewrite double_truncate_nonneg by done. cbn [obind].
  set (lw := cm * 2 ^ 32 + u mod 2 ^ 32) in *.
  assert (Llt : lw < d * 2 ^ 32) by (subst lw; rewrite p32 in *; dnums; lia).
  pose proof (Z.div_mod lw d ltac:(lia)) as E3. pose proof (Z.mod_pos_bound lw d ltac:(lia)) as B3.
  assert (Q3 : 0 <= lw / d < 2 ^ 32).
  { split; [apply Z.div_pos|apply Z.div_lt_upper_bound]; lia. }
  set (ql := lw / d) in *. set (r := lw mod d) in *. clearbody ql r.
  assert (Hadj : (if bool_decide (ch = 0) then 0 else 0) = 0) by by case_bool_decide.
  rewrite Hadj, !Z.add_0_r, !wrap_id by (rewrite p32 in *; dnums; lia).
  rewrite unsigned_shift_left_spec by lia. cbn [obind].
  pose proof (low_half ql) as LH2.
  destruct (unsigned_shift_left ql 32) as [l2| | |]; try done. cbn [obind] in LH2 |- *. rewrite LH2. cbn [obind].
  rewrite (Z.mod_small ql) by done.
  rewrite coerce_to_integer_spec, exact_ok by (dnums; lia). cbn [obind].
  rewrite (bool_decide_false (r < 0)) by lia. cbn [Bool.eqb negb]. rewrite andb_false_r.
  destruct (wrap_cong (qm * 2 ^ 32)) as [k Hk].
  assert (Hlor : Z.lor (wrap (qm * 2 ^ 32)) ql = wrap (qm * 2 ^ 32) + ql).
  { rewrite Hk. change (2 ^ 64) with (2 ^ 32 * 2 ^ 32). rewrite Z.mul_assoc, <- Z.mul_add_distr_r.
    by rewrite lor_add by lia. }
  assert (Hq : unsigned (Z.lor (wrap (qm * 2 ^ 32)) ql) = qm * 2 ^ 32 + ql).
  { rewrite Hlor. unfold unsigned. rewrite Hk.
    replace (qm * 2 ^ 32 + k * 2 ^ 64 + ql) with (qm * 2 ^ 32 + ql + k * 2 ^ 64) by lia.
    rewrite Z.mod_add, Z.mod_small by (rewrite p32 in *; dnums; lia). done. }
  set (q := Z.lor (wrap (qm * 2 ^ 32)) ql) in *. clearbody q.
  destruct (add_with_carry_spec q 0) as (q' & c & -> & Hq' & Hc' & Eq).
  change (unsigned 0) with 0 in Eq. pose proof (unsigned_range q'). pose proof (unsigned_range q).
  assert (c = 0) as -> by (dnums; lia).
  change (sign_word 0) with 0. unfold add_signal_overflow. rewrite !Z.add_0_r.
  rewrite checked_ok by (dnums; lia). cbn [obind]. rewrite Z.add_0_r. rewrite checked_ok by (dnums; lia). cbn [obind].
  rewrite int_sub_spec by (dnums; lia). rewrite Z.sub_0_r, exact_ok by (dnums; lia). cbn [obind].
  left. exists q', qh, r. split; [done|]. split; [done|]. split; [dnums; lia|]. split; [lia|]. split; [|done].
  unfold pair_value. fold u (unsigned low) (unsigned q'). fold u.
  assert (Eu : u = u / 2 ^ 32 * 2 ^ 32 + u mod 2 ^ 32) by (rewrite p32; lia).
  replace (unsigned q') with (qm * 2 ^ 32 + ql) by lia.
  change (2 ^ 64) with (2 ^ 32 * 2 ^ 32). rewrite Eu. subst mid lw.
  set (P := 2 ^ 32) in *. set (a := u / P) in *. set (b := u mod P) in *. clearbody P a b.
  nia.
Qed.

Lemma returns_add x y : well_formed x -> well_formed y ->
  fits (value x + value y) -> (0 <= value x \/ 0 <= value y) -> returns (dadd x y) (value x + value y).
Proof. intros Hx Hy Hf H. destruct (dadd_spec x y Hx Hy) as [[_ ?]|[_ Hn]]; [done|]. specialize (Hn Hf). lia. Qed.
Lemma returns_sub x y : well_formed x -> well_formed y ->
  fits (value x - value y) -> (value x < 0 \/ 0 <= value y) -> returns (dsub x y) (value x - value y).
Proof. intros Hx Hy Hf H. destruct (dsub_spec x y Hx Hy) as [[_ ?]|[_ Hn]]; [done|]. specialize (Hn Hf). lia. Qed.

(** *** A positive double integer by a positive integer *)

Lemma wf_small n : representable n -> well_formed (Small n).
Proof. done. Qed.

Lemma dtruncate_pos low high m :
  well_formed (Double low high) -> 0 <= high -> 0 < m -> representable m ->
  returns2 (dtruncate (Double low high) (Small m)) (is_truncate (value (Double low high)) m) \/
  (2 ^ 31 < m /\ overflows (dtruncate (Double low high) (Small m))).
Proof.
  intros (Hl & Hh & _) Hh0 Hm0 Hm. rewrite word_inw in Hl, Hh. cbn [dtruncate value]. fold (pair_value low high).
  destruct (by_integer_pos low high m) as [(ql & qh & r & -> & Hql & Hqh & Hq0 & E & Hr)|[? ->]]; [done..|left|by right].
  cbn [obind]. destruct (interpret_spec ql qh) as (q & -> & Hq & Vq); [done..|]. cbn [obind].
  exists q, (Small r). split; [done|]. split; [done|]. split; [apply wf_small; dnums; lia|].
  rewrite Vq. cbn [value]. pose proof (pair_value_neg low high).
  unfold is_truncate. split; [done|]. split; [lia|]. split; lia.
Qed.

Lemma dfloor_pos low high m :
  well_formed (Double low high) -> 0 <= high -> 0 < m -> representable m ->
  returns2 (dfloor (Double low high) (Small m)) (is_floor (value (Double low high)) m) \/
  (2 ^ 31 < m /\ overflows (dfloor (Double low high) (Small m))).
Proof.
  intros (Hl & Hh & _) Hh0 Hm0 Hm. rewrite word_inw in Hl, Hh. cbn [dfloor value dnegative_p].
  fold (pair_value low high).
  destruct (by_integer_pos low high m) as [(ql & qh & r & -> & Hql & Hqh & Hq0 & E & Hr)|[? ->]]; [done..|left|by right].
  cbn [obind]. rewrite (bool_decide_false (m < 0)), (bool_decide_false (high < 0)), andb_false_r by lia.
  destruct (interpret_spec ql qh) as (q & -> & Hq & Vq); [done..|]. cbn [obind].
  exists q, (Small r). split; [done|]. split; [done|]. split; [apply wf_small; dnums; lia|].
  rewrite Vq. cbn [value]. unfold is_floor. split; [done|]. lia.
Qed.

Lemma dceiling_pos low high m :
  well_formed (Double low high) -> 0 <= high -> 0 < m -> representable m ->
  returns2 (dceiling (Double low high) (Small m)) (is_ceiling (value (Double low high)) m) \/
  (2 ^ 31 < m /\ overflows (dceiling (Double low high) (Small m))).
Proof.
  intros (Hl & Hh & _) Hh0 Hm0 Hm. rewrite word_inw in Hl, Hh. cbn [dceiling value dnegative_p dpositive dzero].
  fold (pair_value low high).
  destruct (by_integer_pos low high m) as [(ql & qh & r & -> & Hql & Hqh & Hq0 & E & Hr)|[? ->]]; [done..|left|by right].
  cbn [obind]. rewrite (bool_decide_false (m < 0)), (bool_decide_false (high < 0)) by lia.
  cbn [negb andb]. rewrite andb_true_r. case_bool_decide as Hr0; cbn [negb].
  - destruct (interpret_spec ql qh) as (q & -> & Hq & Vq); [done..|]. cbn [obind].
    exists q, (Small r). split; [done|]. split; [done|]. split; [apply wf_small; dnums; lia|].
    rewrite Vq. cbn [value]. unfold is_ceiling. split; [done|]. lia.
  - destruct (add_with_carry_spec ql 1) as (ql' & c & -> & Hql' & Hc & Ec). change (unsigned 1) with 1 in Ec.
    unfold add_signal_overflow.
    pose proof (pair_value_fits low high Hh) as Hf. pose proof (unsigned_range ql) as Hu.
    pose proof (unsigned_range ql') as Hu'.
    assert (Hqc : inw (qh + c)).
    { assert (pair_value ql qh * m < 2 ^ 127) by (dnums; lia).
      assert (m = 1 \/ 2 <= m) as [->|Hm2] by lia; [lia|].
      assert (pair_value ql qh < 2 ^ 126).
      { change (2 ^ 126) with 85070591730234615865843651857942052864. dnums. nia. }
      change (2 ^ 126) with 85070591730234615865843651857942052864 in *.
      unfold pair_value in *. fold (unsigned ql) in *. dnums. lia. }
    rewrite checked_ok by done. cbn [obind].
    destruct (interpret_spec ql' (qh + c)) as (q & -> & Hq & Vq); [done..|]. cbn [obind].
    destruct (returns_sub (Small r) (Small m)) as (r' & -> & Hr' & Vr); [apply wf_small; dnums; lia|done|cbn [value]; dnums; lia|cbn [value]; lia|].
    cbn [obind]. exists q, r'. split; [done|]. split; [done|]. split; [done|].
    rewrite Vq, Vr. cbn [value]. unfold is_ceiling. split; [|lia].
    assert (pair_value ql' (qh + c) = pair_value ql qh + 1) as ->; [|lia].
    unfold pair_value. fold (unsigned ql) (unsigned ql'). lia.
Qed.

(** *** An integer by a double integer *)

Lemma double_big low high : well_formed (Double low high) ->
  value (Double low high) < - 2 ^ 61 \/ 2 ^ 61 <= value (Double low high).
Proof. intros (_ & _ & H). unfold representable in H. lia. Qed.

Lemma dtruncate_by_double n low high :
  representable n -> well_formed (Double low high) -> ~ (n = - 2 ^ 61 /\ value (Double low high) = 2 ^ 61) ->
  returns2 (dtruncate (Small n) (Double low high)) (is_truncate n (value (Double low high))).
Proof.
  intros Hn Hd Hx. cbn [dtruncate]. pose proof (double_big _ _ Hd).
  exists (Small 0), (Small n). split; [done|]. split; [apply wf_small; dnums; lia|]. split; [done|].
  change (value (Small 0)) with 0. change (value (Small n)) with n.
  unfold is_truncate. set (v := value (Double low high)) in *. clearbody v. dnums. lia.
Qed.
Lemma dfloor_by_double n low high :
  representable n -> well_formed (Double low high) -> ~ (n = 0 /\ value (Double low high) < 0) ->
  returns2 (dfloor (Small n) (Double low high)) (is_floor n (value (Double low high))).
Proof.
  intros Hn Hd Hx. cbn [dfloor]. pose proof (double_big _ _ Hd).
  pose proof (value_fits _ Hd) as Hf.
  rewrite (dnegative_p_spec _ Hd), (dnegative_p_spec (Small n) Hn). change (value (Small n)) with n.
  pose proof (returns_add (Double low high) (Small n) Hd Hn) as Ha. change (value (Small n)) with n in Ha.
  set (v := value (Double low high)) in *. clearbody v.
  destruct (Bool.eqb _ _) eqn:E.
  - apply Bool.eqb_prop in E. exists (Small 0), (Small n). split; [done|]. split; [apply wf_small; dnums; lia|]. split; [done|].
    change (value (Small 0)) with 0. change (value (Small n)) with n.
    unfold is_floor. revert E. repeat case_bool_decide; intros; try done; dnums; lia.
  - assert (S : (n < 0 /\ 0 <= v) \/ (0 <= n /\ v < 0)).
    { revert E. repeat case_bool_decide; cbn; intros; try done; lia. }
    destruct Ha as (r & -> & Hr & Vr); [dnums; lia|lia|]. cbn [obind].
    exists (Small (-1)), r. split; [done|]. split; [apply wf_small; dnums; lia|]. split; [done|].
    rewrite Vr. change (value (Small (-1))) with (-1). unfold is_floor. dnums. lia.
Qed.
Lemma dceiling_by_double n low high :
  representable n -> well_formed (Double low high) ->
  ~ (n = 0 /\ 0 < value (Double low high)) -> ~ (n = - 2 ^ 61 /\ value (Double low high) = 2 ^ 61) ->
  returns2 (dceiling (Small n) (Double low high)) (is_ceiling n (value (Double low high))).
Proof.
  intros Hn Hd Hx Hx2. cbn [dceiling]. pose proof (double_big _ _ Hd).
  pose proof (value_fits _ Hd) as Hf.
  rewrite (dnegative_p_spec _ Hd), (dnegative_p_spec (Small n) Hn). change (value (Small n)) with n.
  pose proof (returns_sub (Small n) (Double low high) Hn Hd) as Ha. change (value (Small n)) with n in Ha.
  set (v := value (Double low high)) in *. clearbody v.
  destruct (Bool.eqb _ _) eqn:E.
  - assert (S : (n < 0 /\ v < 0) \/ (0 <= n /\ 0 <= v)).
    { revert E. repeat case_bool_decide; cbn; intros; try done; lia. }
    destruct Ha as (r & -> & Hr & Vr); [dnums; lia|lia|]. cbn [obind].
    exists (Small 1), r. split; [done|]. split; [apply wf_small; dnums; lia|]. split; [done|].
    rewrite Vr. change (value (Small 1)) with 1. unfold is_ceiling. dnums. lia.
  - exists (Small 0), (Small n). split; [done|]. split; [apply wf_small; dnums; lia|]. split; [done|].
    change (value (Small 0)) with 0. change (value (Small n)) with n.
    unfold is_ceiling. revert E. repeat case_bool_decide; cbn; intros; try done; dnums; lia.
Qed.

(** *** floor/ and ceiling/ whenever truncate/ is right *)

Lemma obind_inv {A B} (m : outcome A) (f : A -> outcome B) y : obind m f = Val y -> exists x, m = Val x /\ f x = Val y.
Proof. destruct m; cbn; try done. intros H. by eexists. Qed.

Lemma checked_inv x y : checked x = Val y -> inw y.
Proof.
  destruct (decide (inw x)) as [H|H]; [rewrite checked_ok by done; by intros [= <-]|rewrite checked_bad by done; done].
Qed.

Lemma by_integer_inw low high m ql qh r : by_integer_truncate low high m = Val (ql, qh, r) -> inw ql /\ inw qh.
Proof.
  unfold by_integer_truncate. intros H. repeat (apply obind_inv in H as (? & ? & H); try match type of H with context [let '(_, _) := ?p in _] => destruct p as [? ?] eqn:? end).
  injection H as <- <- _.
  match goal with E : add_with_carry ?a ?b = (?l, ?c) |- inw ?l /\ _ => destruct (add_with_carry_spec a b) as (l' & c' & E' & Hl & _); rewrite E in E'; injection E' as <- <- end.
  split; [done|]. match goal with E : add_signal_overflow _ _ = Val ?q |- inw ?q => by apply checked_inv in E end.
Qed.

Lemma floor_from_truncate low high m : well_formed (Double low high) -> representable m -> m <> 0 ->
  returns2 (dtruncate (Double low high) (Small m)) (is_truncate (value (Double low high)) m) ->
  returns2 (dfloor (Double low high) (Small m)) (is_floor (value (Double low high)) m) /\
  returns2 (dceiling (Double low high) (Small m)) (is_ceiling (value (Double low high)) m).
Proof.
  intros Hw Hm Hm0 (q & r & E & Hq & Hr & E1 & E2 & E3 & E4). cbn [dtruncate] in E.
  apply obind_inv in E as ([[ql qh] r0] & Eb & E). destruct (by_integer_inw _ _ _ _ _ _ Eb) as [Hql Hqh].
  destruct (interpret_spec ql qh Hql Hqh) as (q0 & Ei & _ & Vq). rewrite Ei in E. cbn [obind] in E. injection E as <- <-.
  change (value (Small r0)) with r0 in E1, E2, E3, E4. rewrite Vq in E1. cbn [dfloor dceiling]. rewrite Eb. cbn [obind].
  pose proof (dnegative_p_spec _ Hw) as Hneg.
  pose proof (double_big _ _ Hw) as Hbig.
  assert (Hpos : dpositive (Double low high) = bool_decide (0 < value (Double low high))).
  { cbn [dpositive dzero negb andb]. rewrite Hneg. set (v := value (Double low high)) in *. clearbody v. repeat case_bool_decide; try done; dnums; lia. }
  rewrite Hpos. rewrite Hneg. set (v := value (Double low high)) in *.
  assert (Hf : fits v) by (apply (value_fits _ Hw)).
  clearbody v. clear Hpos Hneg.
  assert (Hrr : representable r0) by (apply Hr).
  split.
  - destruct (negb (bool_decide (r0 = 0)) && _) eqn:Ec.
    + assert (Hc : r0 <> 0 /\ ((m < 0 /\ 0 < v) \/ (0 < m /\ v < 0))). { revert Ec. repeat case_bool_decide; cbn; intros; try done; lia. }
      clear Ec. destruct (subtract_with_borrow_spec ql 1) as (l & b & -> & Hl & Hb & Eb'). change (unsigned 1) with 1 in Eb'.
      assert (Hqq : inw (qh - b)).
      { assert (pair_value ql qh <= 0) by nia. assert (- 2 ^ 126 <= pair_value ql qh) by (dnums; nia).
        unfold pair_value in *. fold (unsigned ql) in *. pose proof (unsigned_range ql). dnums. lia. }
      unfold subtract_signal_overflow. rewrite checked_ok by done. cbn [obind].
      destruct (interpret_spec l (qh - b) Hl Hqq) as (q1 & -> & Hw1 & V1). cbn [obind].
      destruct (returns_add (Small r0) (Small m)) as (r1 & -> & Hr1 & V2); [done|done|cbn [value]; dnums; lia|cbn [value]; lia|].
      cbn [obind]. exists q1, r1. split; [done|]. split; [done|]. split; [done|]. rewrite V1, V2. cbn [value].
      assert (pair_value l (qh - b) = pair_value ql qh - 1) as ->. { unfold pair_value. fold (unsigned ql) (unsigned l). lia. }
      unfold is_floor. split; [lia|]. lia.
    + rewrite Ei. cbn [obind]. exists q0, (Small r0). split; [done|]. split; [done|]. split; [done|]. rewrite Vq. cbn [value]. split; [done|].
      revert Ec. repeat case_bool_decide; cbn; intros; try done; lia.
  - destruct (negb (bool_decide (r0 = 0)) && _) eqn:Ec.
    + assert (Hc : r0 <> 0 /\ ((m < 0 /\ v < 0) \/ (0 < m /\ 0 < v))). { revert Ec. repeat case_bool_decide; cbn; intros; try done; lia. }
      clear Ec. destruct (add_with_carry_spec ql 1) as (l & b & -> & Hl & Hb & Eb'). change (unsigned 1) with 1 in Eb'.
      assert (Hqq : inw (qh + b)).
      { assert (0 <= pair_value ql qh) by nia. assert (pair_value ql qh <= 2 ^ 126) by (dnums; nia).
        unfold pair_value in *. fold (unsigned ql) in *. pose proof (unsigned_range ql). pose proof (unsigned_range l). dnums. lia. }
      unfold add_signal_overflow. rewrite checked_ok by done. cbn [obind].
      destruct (interpret_spec l (qh + b) Hl Hqq) as (q1 & -> & Hw1 & V1). cbn [obind].
      destruct (returns_sub (Small r0) (Small m)) as (r1 & -> & Hr1 & V2); [done|done|cbn [value]; dnums; lia|cbn [value]; lia|].
      cbn [obind]. exists q1, r1. split; [done|]. split; [done|]. split; [done|]. rewrite V1, V2. cbn [value].
      assert (pair_value l (qh + b) = pair_value ql qh + 1) as ->. { unfold pair_value. fold (unsigned ql) (unsigned l). lia. }
      unfold is_ceiling. split; [lia|]. lia.
    + rewrite Ei. cbn [obind]. exists q0, (Small r0). split; [done|]. split; [done|]. split; [done|]. rewrite Vq. cbn [value]. split; [done|].
      revert Ec. repeat case_bool_decide; cbn; intros; try done; lia.
Qed.
