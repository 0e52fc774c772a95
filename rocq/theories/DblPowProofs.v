(** Proofs about the model of double integers: powers, gcd, printing, words. *)
From Coq Require Import ZifyBool ZifyNat ZifyN Lia.
From Verif Require Import Base IntModel IntSpec IntProofs IntBitsProofs IntGcdProofs.
From Verif Require Import DblModel DblSpec DblProofs DblShiftProofs DblDivProofs.
Local Open Scope Z_scope.
Local Open Scope outcome_scope.
Ltac Zify.zify_post_hook ::= Z.div_mod_to_equations.

(** *** Powers *)

Lemma returns_mul x y : well_formed x -> well_formed y -> 0 <= value x -> 0 <= value y ->
  value x * value y < 2 ^ 127 -> returns (dmul x y) (value x * value y).
Proof. intros Hx Hy H1 H2 H. apply dmul_exact; [done|done|dnums; nia|nia]. Qed.

Lemma pow_ge_self b p : 1 <= b -> 1 <= p -> b <= b ^ p.
Proof. intros. rewrite <- (Z.pow_1_r b) at 1. apply Z.pow_le_mono_r; lia. Qed.
Lemma pow_ge_square b p : 1 <= b -> 2 <= p -> b * b <= b ^ p.
Proof. intros. rewrite <- Z.pow_2_r. apply Z.pow_le_mono_r; lia. Qed.
Lemma shiftr1 p : Z.shiftr p 1 = p / 2.
Proof. by rewrite Z.shiftr_div_pow2 by lia. Qed.

Lemma dpower_loop_spec fuel b p x :
  well_formed b -> well_formed x -> 0 <= value b -> 0 <= p -> 0 <= value x ->
  (1 <= value x \/ value b = 0) -> p < 2 ^ Z.of_nat fuel -> value b ^ p * value x < 2 ^ 127 ->
  returns (dpower_loop fuel b p x) (value b ^ p * value x).
Proof.
  revert b p x. induction fuel as [|f IH]; intros b p x Hb Hx Hb0 Hp Hx0 Hxb Hf Hlt; cbn [dpower_loop].
  { change (2 ^ Z.of_nat 0) with 1 in Hf. rewrite bool_decide_true by lia.
    replace p with 0 by lia. rewrite Z.pow_0_r, Z.mul_1_l. by exists x. }
  case_bool_decide as Hp0.
  { subst p. rewrite Z.pow_0_r, Z.mul_1_l. by exists x. }
  assert (Hp2 : p / 2 < 2 ^ Z.of_nat f).
  { rewrite Nat2Z.inj_succ, Z.pow_succ_r in Hf by lia. lia. }
  pose proof (pow_half (value b) p ltac:(lia)) as Hh. rewrite odd_mod in Hh.
  assert (Hsq : returns (if bool_decide (p > 1) then dmul b b else Val b)
                  (if bool_decide (p > 1) then value b * value b else value b)).
  { case_bool_decide; [|by exists b]. apply returns_mul; [done..|].
    destruct (decide (value b = 0)) as [E|E]; [rewrite E; dnums; lia|].
    pose proof (pow_ge_square (value b) p). nia. }
  destruct Hsq as (b' & -> & Hb' & Vb'). cbn [obind].
  assert (Hpow : value b' ^ (p / 2) = (value b * value b) ^ (p / 2)).
  { rewrite Vb'. case_bool_decide; [done|]. assert (p = 1) as -> by lia. done. }
  assert (Hxx : returns (if Z.odd p then dmul b x else Val x) (if Z.odd p then value b * value x else value x)).
  { destruct (Z.odd p); [|by exists x]. apply returns_mul; [done..|].
    destruct (decide (value b = 0)) as [E|E]; [rewrite E; dnums; lia|].
    pose proof (pow_ge_self (value b) p). nia. }
  destruct Hxx as (x' & -> & Hx' & Vx'). cbn [obind]. rewrite shiftr1.
  assert (Heq : value b ^ p * value x = value b' ^ (p / 2) * value x').
  { rewrite Hpow, Vx', Hh. destruct (Z.odd p); lia. }
  rewrite Heq. rewrite Heq in Hlt. apply IH; try done.
  - rewrite Vb'. case_bool_decide; nia.
  - lia.
  - rewrite Vx'. destruct (Z.odd p); nia.
  - rewrite Vb', Vx'. destruct Hxb as [Hxb|Hxb].
    + destruct (decide (value b = 0)) as [E|E]; [right; rewrite E; by case_bool_decide|].
      left. destruct (Z.odd p); nia.
    + right. rewrite Hxb. by case_bool_decide.
Qed.

Lemma wf_int n : - 2 ^ 61 <= n < 2 ^ 61 -> well_formed (Small n).
Proof. done. Qed.

Lemma dpower_nonneg_spec b p :
  well_formed b -> 0 <= value b -> 0 <= p < 2 ^ 61 -> value b ^ p < 2 ^ 127 ->
  returns (dpower_nonneg b p) (value b ^ p).
Proof.
  intros Hb Hb0 Hp Hlt. unfold dpower_nonneg.
  rewrite dequal_spec by (done || by apply wf_int). change (value (Small 2)) with 2.
  case_bool_decide as H2.
  { rewrite H2 in *. pose proof (dash_spec (Small 1) p ltac:(by apply wf_int) ltac:(lia)) as H.
    rewrite bool_decide_false in H by lia. change (value (Small 1)) with 1 in H. rewrite Z.mul_1_l in H.
    destruct H as [[_ H]|[H _]]; [done|]. destruct H. pose proof (Z.pow_nonneg 2 p). dnums. lia. }
  assert (Hfuel : p / 2 < 2 ^ Z.of_nat (Z.to_nat (Z.log2 p + 1))).
  { pose proof (Z.log2_nonneg p). rewrite Z2Nat.id by lia.
    destruct (decide (p = 0)) as [->|]; [reflexivity|].
    pose proof (Z.log2_spec p ltac:(lia)) as [_ Hl]. rewrite Z.add_1_r. lia. }
  assert (Hh : value b ^ p = (value b * value b) ^ (p / 2) * (if Z.odd p then value b else 1)).
  { destruct (decide (p = 0)) as [->|]; [reflexivity|]. pose proof (pow_half (value b) p ltac:(lia)) as Hh.
    rewrite odd_mod in Hh. rewrite Hh. destruct (Z.odd p); lia. }
  assert (Hsq : returns (if bool_decide (p > 1) then dmul b b else Val b)
                  (if bool_decide (p > 1) then value b * value b else value b)).
  { clear Hfuel. case_bool_decide; [|by exists b]. apply returns_mul; [done..|].
    destruct (decide (value b = 0)) as [E|E]; [rewrite E; dnums; lia|].
    pose proof (pow_ge_square (value b) p). nia. }
  destruct Hsq as (b' & -> & Hb' & Vb'). cbn [obind]. rewrite shiftr1.
  assert (Hpow : value b' ^ (p / 2) = (value b * value b) ^ (p / 2)).
  { rewrite Vb'. case_bool_decide; [done|]. assert (p = 0 \/ p = 1) as [-> | ->] by lia; done. }
  set (x := if Z.odd p then b else Small 1).
  assert (Hx : well_formed x) by (subst x; destruct (Z.odd p); [done|by apply wf_int]).
  assert (Vx : value x = if Z.odd p then value b else 1) by (subst x; by destruct (Z.odd p)).
  assert (Heq : value b ^ p = value b' ^ (p / 2) * value x).
  { rewrite Hpow, Vx, Hh. destruct (Z.odd p); lia. }
  rewrite Heq. rewrite Heq in Hlt. apply dpower_loop_spec; try done.
  - rewrite Vb'. case_bool_decide; nia.
  - lia.
  - rewrite Vx. destruct (Z.odd p); lia.
  - rewrite Vb', Vx. destruct (decide (value b = 0)) as [E|E]; [right; rewrite E; by case_bool_decide|].
    left. destruct (Z.odd p); lia.
Qed.

Lemma dpower_spec b p :
  well_formed b -> 0 <= p < 2 ^ 61 -> Z.abs (value b) < 2 ^ 127 -> Z.abs (value b ^ p) < 2 ^ 127 ->
  returns (dpower b p) (value b ^ p).
Proof.
  intros Hb Hp Hb1 Hlt. unfold dpower. rewrite bool_decide_false by lia.
  rewrite dnegative_p_spec by done. case_bool_decide as Hn.
  2:{ apply dpower_nonneg_spec; lia || done. }
  destruct (dnegative_spec b Hb) as [[_ H]|[H _]]; [|lia]. destruct H as (nb & -> & Hnb & Vnb). cbn [obind].
  assert (Ha : Z.abs (value b ^ p) = (- value b) ^ p).
  { rewrite Z.abs_pow. f_equal. lia. }
  destruct (dpower_nonneg_spec nb p Hnb) as (r & -> & Hr & Vr); [lia..|rewrite Vnb; lia|]. cbn [obind].
  rewrite Vnb in Vr.
  destruct (Z.odd p) eqn:Eo.
  - assert (HO : Z.Odd p) by by apply Z.odd_spec. rewrite Z.pow_opp_odd in Vr by done.
    destruct (dnegative_spec r Hr) as [[_ H]|[H _]].
    + rewrite Vr, Z.opp_involutive in H. done.
    + dnums. lia.
  - assert (HE : Z.Even p) by (apply Z.even_spec; rewrite <- Z.negb_odd; by rewrite Eo).
    rewrite Z.pow_opp_even in Vr by done. by exists r.
Qed.

(** *** gcd *)

Lemma dash_m1 x : well_formed x -> returns (dash x (-1)) (value x / 2).
Proof. intros Hx. exact (dash_spec x (-1) Hx ltac:(lia)). Qed.
Lemma dzero_spec x : well_formed x -> dzero x = bool_decide (value x = 0).
Proof.
  destruct x as [n|l h]; [done|]. intros H. cbn [dzero]. rewrite bool_decide_false; [done|].
  destruct H as (_ & _ & H). dnums. lia.
Qed.
Lemma dpositive_spec x : well_formed x -> dpositive x = bool_decide (0 < value x).
Proof.
  intros H. destruct x as [n|l h]; [done|].
  unfold dpositive. rewrite dnegative_p_spec, dzero_spec by done. repeat case_bool_decide; cbn; lia || done.
Qed.
Lemma dneg_returns x : well_formed x -> value x <> - 2 ^ 127 -> returns (dnegative x) (- value x).
Proof. intros Hx H. destruct (dnegative_spec x Hx) as [[_ ?]|[? _]]; done. Qed.

Lemma dgcd_halve_spec fuel k u v :
  well_formed u -> well_formed v -> 0 < value u -> 0 < value v -> 0 <= k ->
  value u < 2 ^ (Z.of_nat fuel + 1) ->
  exists k' u' v', dgcd_halve fuel k u v = Val (k', u', v') /\ well_formed u' /\ well_formed v' /\
    k <= k' <= k + Z.of_nat fuel /\ 0 < value u' <= value u /\ 0 < value v' <= value v /\
    (Z.odd (value u') || Z.odd (value v')) = true /\
    value u = value u' * 2 ^ (k' - k) /\ value v = value v' * 2 ^ (k' - k).
Proof.
  revert k u v. induction fuel as [|f IH]; intros k u v Hu Hv Hu0 Hv0 Hk Hf; cbn [dgcd_halve].
  - change (2 ^ (Z.of_nat 0 + 1)) with 2 in Hf. assert (value u = 1) as E1 by lia.
    destruct (dlogior_spec u v Hu Hv) as (w & -> & Hw & Vw). cbn [obind].
    rewrite dodd_spec, Vw, odd_lor, E1 by done. cbn [obind].
    exists k, u, v. replace (k - k) with 0 by lia. rewrite Z.pow_0_r, E1.
    split; [done|]. change (Z.of_nat 0) with 0. split; [done|]. split; [done|]. split; [lia|].
    split; [lia|]. split; [lia|]. split; [done|]. lia.
  - destruct (dlogior_spec u v Hu Hv) as (w & -> & Hw & Vw). cbn [obind].
    rewrite dodd_spec, Vw, odd_lor by done. cbn [obind].
    destruct (Z.odd (value u) || Z.odd (value v)) eqn:Eo.
    + exists k, u, v. replace (k - k) with 0 by lia. rewrite Z.pow_0_r. split; [done|]. split; [done|]. split; [done|].
      split; [lia|]. split; [lia|]. split; [lia|]. split; [done|]. lia.
    + apply orb_false_iff in Eo as [Eu Ev].
      apply odd_false_half in Eu. apply odd_false_half in Ev.
      destruct (dash_m1 u Hu) as (u1 & -> & Hu1 & Vu1). cbn [obind].
      destruct (dash_m1 v Hv) as (v1 & -> & Hv1 & Vv1). cbn [obind].
      destruct (IH (k + 1) u1 v1) as (k' & u' & v' & E & Hu2 & Hv2 & Hk' & Hu' & Hv' & Ho & E1 & E2);
        try done; try lia.
      { rewrite Nat2Z.inj_succ in Hf. 
        replace (Z.succ (Z.of_nat f) + 1) with (Z.succ (Z.of_nat f + 1)) in Hf by lia.
        rewrite Z.pow_succ_r in Hf by lia. lia. }
      exists k', u', v'. split; [done|]. split; [done|]. split; [done|]. split; [lia|]. split; [lia|]. split; [lia|].
      split; [done|].
      replace (k' - k) with (Z.succ (k' - (k + 1))) by lia. rewrite Z.pow_succ_r by lia. lia.
Qed.

Lemma dgcd_loop_spec fuel k u v t g :
  well_formed u -> well_formed v -> well_formed t ->
  0 < value u -> 0 < value v -> value t <> 0 -> value t <> - 2 ^ 127 -> 
  0 <= k < 2 ^ 61 -> fits (g * 2 ^ k) ->
  (0 < value t -> Z.odd (value v) = true /\ Z.gcd (value v) (value t) = g /\
     Z.log2 (value v) + Z.log2 (value t) < Z.of_nat fuel) ->
  (value t < 0 -> Z.odd (value u) = true /\ Z.gcd (value u) (- value t) = g /\
     Z.log2 (value u) + Z.log2 (- value t) < Z.of_nat fuel) ->
  returns (dgcd_loop fuel k u v t) (g * 2 ^ k).
Proof.
  revert u v t. induction fuel as [|f IH]; intros u v t Hu Hv Ht Hu0 Hv0 Ht0 Htn Hk Hfit Hpos Hneg.
  { exfalso. destruct (Z_lt_le_dec 0 (value t)) as [H|H].
    - destruct (Hpos H) as (_ & _ & Hl). pose proof (Z.log2_nonneg (value v)). pose proof (Z.log2_nonneg (value t)). lia.
    - destruct (Hneg ltac:(lia)) as (_ & _ & Hl). pose proof (Z.log2_nonneg (value u)).
      pose proof (Z.log2_nonneg (- value t)). lia. }
  cbn [dgcd_loop]. rewrite dodd_spec by done. cbn [obind].
  destruct (Z.odd (value t)) eqn:Eo.
  - assert (Hstep : forall u' v', well_formed u' -> well_formed v' -> 0 < value u' -> 0 < value v' ->
        Z.odd (value u') = true -> Z.odd (value v') = true -> Z.gcd (value u') (value v') = g ->
        Z.log2 (value u') + Z.log2 (value v') <= Z.of_nat f ->
        returns (do tmp <- dsub u' v';
         if dzero tmp then dash u' k
         else do t <- dash tmp (-1); dgcd_loop f k u' v' t) (g * 2 ^ k)).
    { clear - IH Hk Hfit. intros u v Hu Hv Hu0 Hv0 Hou Hov Hg Hl.
      pose proof (value_fits u Hu) as Fu. pose proof (value_fits v Hv) as Fv.
      destruct (returns_sub u v) as (d & -> & Hd & Vd); [done|done|dnums; lia|lia|]. cbn [obind].
      rewrite dzero_spec, Vd by done. case_bool_decide as E.
      - assert (E2 : value u = value v) by lia. rewrite <- E2, Z.gcd_diag in Hg.
        pose proof (dash_spec u k Hu ltac:(lia)) as Ha. rewrite bool_decide_false in Ha by lia.
        replace (value u) with g in Ha by lia. destruct Ha as [[_ ?]|[? _]]; done.
      - destruct (dash_m1 d Hd) as (t & -> & Ht & Vt). cbn [obind]. rewrite Vd in Vt.
        apply Z.odd_spec in Hou as Hou'. apply Z.odd_spec in Hov as Hov'.
        destruct Hou' as [a Ha]. destruct Hov' as [b Hb].
        assert (Ed : value u - value v = 2 * (a - b)) by lia.
        assert (Ed2 : value t = a - b) by lia.
        apply IH; try done; try (dnums; lia).
        + intros Hp. split; [done|]. rewrite Ed2 in *. split.
          * rewrite <- (gcd_even_odd (value v) (a - b)), <- Ed, Z.gcd_sub_diag_r by done. 
            by rewrite Z.gcd_comm.
          * pose proof (log2_half (value u - value v) ltac:(lia)) as Hh. rewrite <- Vt in Hh.
            pose proof (Z.log2_le_mono (value u - value v) (value u) ltac:(lia)). lia.
        + intros Hn. split; [done|]. rewrite Ed2 in *. split.
          * rewrite <- (gcd_even_odd (value u) (- (a - b))) by done.
            replace (2 * - (a - b)) with (value v - value u) by lia. by rewrite Z.gcd_sub_diag_r.
          * pose proof (log2_half (value v - value u) ltac:(lia)) as Hh.
            replace ((value v - value u) / 2) with (- (a - b)) in Hh by lia.
            pose proof (Z.log2_le_mono (value v - value u) (value v) ltac:(lia)). lia. }
    rewrite dpositive_spec by done. case_bool_decide as Es; cbn [obind].
    + destruct (Hpos ltac:(lia)) as (Ho & Hg & Hl).
      apply Hstep; try done; try lia. by rewrite Z.gcd_comm.
    + destruct (dneg_returns t Ht Htn) as (n & -> & Hn & Vn). cbn [obind].
      destruct (Hneg ltac:(lia)) as (Ho & Hg & Hl).
      apply Hstep; rewrite ?Vn; try done; try lia. by rewrite Z.odd_opp.
  - apply odd_false_half in Eo. destruct (dash_m1 t Ht) as (t2 & -> & Ht2 & Vt). cbn [obind].
    pose proof (value_fits t Ht) as Ft.
    apply IH; try done; try (dnums; lia); rewrite Vt.
    + intros Hp. destruct (Hpos ltac:(lia)) as (Ho & Hg & Hl). split; [done|]. split.
      * rewrite <- (gcd_even_odd (value v) (value t / 2)) by done. by rewrite <- Eo.
      * rewrite log2_half by lia. lia.
    + intros Hn. destruct (Hneg ltac:(lia)) as (Ho & Hg & Hl). split; [done|]. split.
      * rewrite <- (gcd_even_odd (value u) (- (value t / 2))) by done.
        by replace (2 * - (value t / 2)) with (- value t) by lia.
      * replace (- (value t / 2)) with (- value t / 2) by lia. rewrite log2_half by lia. lia.
Qed.

Lemma log2_fits x : 0 < x < 2 ^ 127 -> Z.log2 x < 127.
Proof. intros. apply Z.log2_lt_pow2; lia. Qed.

Lemma dgcd_spec fuel n m :
  (255 <= fuel)%nat ->
  well_formed n -> well_formed m -> value n <> 0 -> value m <> 0 -> value n <> value m ->
  value n <> - 2 ^ 127 -> value m <> - 2 ^ 127 ->
  returns (dgcd fuel n m) (Z.gcd (value n) (value m)).
Proof.
  intros Hfu Hn Hm Hn0 Hm0 Hnm Hn1 Hm1. unfold dgcd.
  rewrite !dequal_spec, !bool_decide_false by (done || by apply wf_int).
  destruct (dabs_spec n Hn) as [[Fn H]|[? _]]; [|done]. destruct H as (u0 & -> & Hu0 & Vu0). cbn [obind].
  destruct (dabs_spec m Hm) as [[Fm H]|[? _]]; [|done]. destruct H as (v0 & -> & Hv0 & Vv0). cbn [obind].
  assert (Hr : fits (Z.gcd (value n) (value m))).
  { pose proof (Z.gcd_nonneg (value n) (value m)). pose proof (Z.gcd_divide_l (value n) (value m)) as H1.
    apply Z.divide_abs_r in H1. apply Z.divide_pos_le in H1; [|lia]. dnums. lia. }
  pose proof (value_fits u0 Hu0) as Fu0. pose proof (value_fits v0 Hv0) as Fv0.
  destruct (dgcd_halve_spec fuel 0 u0 v0)
    as (k & u & v & E & Hu & Hv & Hk & Hu' & Hv' & Ho & E1 & E2); try done; try lia.
  { assert (2 ^ 128 <= 2 ^ (Z.of_nat fuel + 1)) by (apply Z.pow_le_mono_r; lia). dnums. lia. }
  rewrite E. cbn [obind]. rewrite Z.sub_0_r in E1, E2.
  rewrite dodd_spec by done. cbn [obind].
  pose proof (Z.log2_nonneg (value u)). pose proof (Z.log2_nonneg (value v)).
  pose proof (log2_fits (value u) ltac:(dnums; lia)). pose proof (log2_fits (value v) ltac:(dnums; lia)).
  assert (Hk2 : k < 2 ^ 61).
  { assert (k < 127); [|lia]. destruct (decide (k < 127)); [done|]. exfalso.
    assert (2 ^ 127 <= 2 ^ k) by (apply Z.pow_le_mono_r; lia). dnums. nia. }
  assert (Hg : Z.gcd (value u) (value v) * 2 ^ k = Z.gcd (value n) (value m)).
  { rewrite <- (Z.gcd_abs_l (value n)), <- (Z.gcd_abs_r (Z.abs (value n))).
    rewrite <- Vu0, <- Vv0, E1, E2, Z.gcd_mul_mono_r.
    rewrite (Z.abs_eq (2 ^ k)); [done|]. apply Z.pow_nonneg. lia. }
  rewrite <- Hg. rewrite <- Hg in Hr.
  destruct (Z.odd (value u)) eqn:Eu.
  - destruct (dneg_returns v Hv ltac:(dnums; lia)) as (t & -> & Ht & Vt). cbn [obind].
    apply dgcd_loop_spec; try done; rewrite ?Vt; try (dnums; lia).
    intros _. split; [done|]. rewrite Z.opp_involutive. split; [done|]. lia.
  - destruct (dash_m1 u Hu) as (t & -> & Ht & Vt). cbn [obind]. rewrite orb_false_l in Ho.
    apply odd_false_half in Eu.
    apply dgcd_loop_spec; try done; rewrite ?Vt; try (dnums; lia).
    intros _. split; [done|]. split.
    + rewrite <- (gcd_even_odd (value v) (value u / 2)) by done. rewrite <- Eu. apply Z.gcd_comm.
    + rewrite log2_half by lia. lia.
Qed.

(** *** Printing *)

Lemma divide_by_ten x :
  well_formed x -> 0 <= value x ->
  exists q, dtruncate x (Small 10) = Val (q, Small (value x mod 10)) /\ well_formed q /\ value q = value x / 10.
Proof.
  intros Hx H0. assert (H : returns2 (dtruncate x (Small 10)) (is_truncate (value x) 10)).
  { destruct x as [n|l h].
    - cbn [dtruncate value] in *. destruct (int_truncate_spec n 10) as (q & r & Hr & Hrr & [[Hq ->]|[Hq _]]);
        [done|by apply wf_int|lia|..].
      + cbn [obind]. exists (Small q), (Small r). by repeat (split; [done|]).
      + destruct Hq. destruct Hr as (E & A & B & C). cbn in Hx. dnums. lia.
    - destruct (dtruncate_pos l h 10 Hx) as [H|[H _]]; [|lia|by apply wf_int|done|].
      + destruct (pair_value_neg l h) as [_ Hneg]. cbn [value] in H0. unfold pair_value in Hneg. lia.
      + change (2 ^ 31) with 2147483648 in H. lia. }
  destruct H as (q & r & E & Hq & Hr & (E2 & A & B & C)). exists q.
  assert (Ev : value r = value x mod 10).
  { destruct (decide (value x = 0)) as [Ez|].
    - rewrite Ez in *. change (0 mod 10) with 0. lia.
    - lia. }
  assert (r = Small (value x mod 10)) as ->.
  { apply value_inj; [done| |done]. apply wf_int. lia. }
  split; [done|]. split; [done|]. lia.
Qed.

Lemma number_of_digits_app ds d : number_of_digits (ds ++ [d]) = 10 * number_of_digits ds + d.
Proof. unfold number_of_digits. by rewrite fold_left_app. Qed.

Lemma process_integer_spec fuel n :
  well_formed n -> 0 <= value n < 10 ^ Z.of_nat fuel -> (0 < fuel)%nat ->
  exists ds, process_integer fuel n = Val ds /\ number_of_digits ds = value n /\
    Forall (fun d => 0 <= d < 10) ds /\ (value n = 0 -> ds = [0]) /\ (0 < value n -> exists d r, ds = d :: r /\ d <> 0).
Proof.
  revert n. induction fuel as [|f IH]; intros n Hn H0 Hf; [lia|]. cbn [process_integer].
  destruct (divide_by_ten n Hn) as (q & -> & Hq & Vq); [lia|]. cbn [obind].
  rewrite dzero_spec, Vq by done. 
  assert (Hd : digit (Small (value n mod 10)) = Val (value n mod 10)).
  { cbn [digit]. rewrite bool_decide_true by lia. done. }
  rewrite Nat2Z.inj_succ, Z.pow_succ_r in H0 by lia.
  case_bool_decide as Hz.
  - cbn [obind]. rewrite Hd. cbn [obind app]. exists [value n mod 10]. split; [done|].
    split; [unfold number_of_digits; cbn; lia|]. split; [constructor; [lia|constructor]|].
    split; [intros ->; done|]. intros Hp. exists (value n mod 10), []. split; [done|]. lia.
  - assert (Hf0 : (0 < f)%nat). { destruct f; [|lia]. change (10 ^ Z.of_nat 0) with 1 in H0. lia. }
    destruct (IH q Hq) as (ds & -> & Hv & Hall & _ & Hnz); [lia|done|]. cbn [obind]. rewrite Hd. cbn [obind].
    exists (ds ++ [value n mod 10]). split; [done|]. rewrite number_of_digits_app, Hv, Vq.
    split; [lia|]. split.
    { apply Forall_app. split; [done|]. constructor; [lia|constructor]. }
    split; [intros E; rewrite E in Hz; done|]. intros _. destruct Hnz as (d & r & -> & Hd0); [lia|].
    exists d, (r ++ [value n mod 10]). done.
Qed.

(** *** Words *)

Lemma tag_word n : representable n -> untag (wrap (4 * n + 1)) = n.
Proof. intros H. rewrite wrap_id by (dnums; lia). apply untag_4. Qed.

Lemma wrap_abstract_spec w : word w -> well_formed (wrap_abstract w) /\ value (wrap_abstract w) = w.
Proof.
  intros Hw. unfold wrap_abstract. case_bool_decide; [|case_bool_decide].
  - assert (E : value (Double w 0) = w). { cbn [value]. fold (unsigned w). rewrite unsigned_case by (by apply word_inw). case_bool_decide; dnums; lia. }
    split; [|done]. cbn [well_formed]. rewrite E. dnums. lia.
  - assert (E : value (Double w (-1)) = w). { cbn [value]. fold (unsigned w). rewrite unsigned_case by (by apply word_inw). case_bool_decide; dnums; lia. }
    split; [|done]. cbn [well_formed]. rewrite E. dnums. lia.
  - rewrite tag_word by (dnums; lia). split; [apply wf_int; dnums; lia|done].
Qed.
Lemma wrap_unsigned_abstract_spec w :
  word w -> well_formed (wrap_unsigned_abstract w) /\ value (wrap_unsigned_abstract w) = w mod 2 ^ 64.
Proof.
  intros Hw. unfold wrap_unsigned_abstract. pose proof (unsigned_range w) as Hu.
  pose proof (unsigned_case w ltac:(by apply word_inw)) as Hc. fold (unsigned w). 
  destruct (decide (2 ^ 61 - 1 < unsigned w)); [rewrite bool_decide_true by done|rewrite bool_decide_false by done].
  - assert (E : value (Double w 0) = unsigned w) by done.
    split; [|done]. cbn [well_formed]. rewrite E. dnums. lia.
  - assert (E : unsigned w = w) by (case_bool_decide; dnums; lia).
    rewrite tag_word by (dnums; lia). split; [apply wf_int; dnums; lia|]. by rewrite E.
Qed.

Lemma c_mask w : word w ->
  Z.land (unsigned w) (unsigned (Z.shiftl (-1) 61)) = (unsigned w / 2 ^ 61) * 2 ^ 61.
Proof.
  intros Hw. pose proof (unsigned_range w) as Hu.
  assert (E : unsigned (Z.shiftl (-1) 61) = Z.shiftl (Z.ones 3) 61) by reflexivity.
  rewrite E. rewrite <- Z.shiftr_div_pow2, <- Z.shiftl_mul_pow2 by lia.
  apply Z.bits_inj'. intros i Hi. rewrite Z.land_spec. rewrite !Z.shiftl_spec by lia.
  destruct (decide (i < 61)).
  { rewrite !(Z.testbit_neg_r _ (i - 61)) by lia. apply andb_false_r. }
  rewrite Z.shiftr_spec by lia. replace (i - 61 + 61) with i by lia.
  destruct (decide (i - 61 < 3)).
  - rewrite Z.ones_spec_low by lia. apply andb_true_r.
  - rewrite Z.ones_spec_high by lia. rewrite andb_false_r.
    rewrite <- (Z.mod_small (unsigned w) (2 ^ 64)) by done. rewrite Z.mod_pow2_bits_high by lia. done.
Qed.
Lemma c_wrap_abstract_spec w : word w -> well_formed (c_wrap_abstract w) /\ value (c_wrap_abstract w) = w.
Proof.
  intros Hw. pose proof (wrap_abstract_spec w Hw) as S.
  assert (c_wrap_abstract w = wrap_abstract w) as ->; [|done].
  unfold c_wrap_abstract, wrap_abstract. rewrite c_mask by done.
  assert (E : unsigned (Z.shiftl (-1) 61) = 7 * 2 ^ 61) by reflexivity. rewrite E.
  pose proof (unsigned_range w) as Hu.
  pose proof (unsigned_case w ltac:(by apply word_inw)) as Hc.
  set (u := unsigned w) in *. clearbody u.
  assert (Hq : u / 2 ^ 61 * 2 ^ 61 <= u < u / 2 ^ 61 * 2 ^ 61 + 2 ^ 61) by (dnums; lia).
  set (q := u / 2 ^ 61) in *. clearbody q.
  repeat case_bool_decide; cbn [negb andb]; try done; exfalso; dnums; lia.
Qed.

(** *** integer-length *)

Lemma count_high_zeros_spec x : 0 < unsigned x -> 64 - count_high_zeros x = Z.log2 (unsigned x) + 1.
Proof. intros H. unfold count_high_zeros. rewrite bool_decide_false by lia. lia. Qed.

Lemma length_unique v n m : length_of v n -> length_of v m -> n = m.
Proof.
  assert (H : forall n m, length_of v n -> length_of v m -> m <= n).
  { clear n m. intros n m (Hn & Bn & _) (Hm & _ & Cm).
    destruct (Z_le_gt_dec m n) as [|Hgt]; [done|]. exfalso.
    assert (2 ^ n <= 2 ^ (m - 1)) by (apply Z.pow_le_mono_r; lia). specialize (Cm ltac:(lia)). lia. }
  intros H1 H2. pose proof (H n m H1 H2). pose proof (H m n H2 H1). lia.
Qed.

Lemma length_pos v : 0 < v -> length_of v (Z.log2 v + 1).
Proof.
  intros H. pose proof (Z.log2_spec v H) as [H1 H2]. pose proof (Z.log2_nonneg v).
  unfold length_of. rewrite Z.add_1_r in *. replace (Z.succ (Z.log2 v) - 1) with (Z.log2 v) by lia. lia.
Qed.
Lemma length_neg v n : length_of (- v - 1) n -> length_of v n.
Proof. unfold length_of. intros (H & B & C). split; [done|]. split; [lia|]. intros Hn. specialize (C Hn). lia. Qed.

Lemma length_words l h :
  inw l -> inw h -> 0 <= h -> 2 ^ 61 <= pair_value l h ->
  let n := if bool_decide (h = 0) then 64 - count_high_zeros l else 2 * (64 - count_high_zeros h) in
  (pair_value l h < 2 ^ 64 -> length_of (pair_value l h) n) /\
  (2 ^ 64 <= pair_value l h -> ~ length_of (pair_value l h) n).
Proof.
  intros Hl Hh Hh0 Hv n. pose proof (unsigned_range l) as Hu.
  assert (Hpv : pair_value l h = h * 2 ^ 64 + unsigned l) by done.
  split; intros Hs.
  - assert (h = 0) as -> by (dnums; lia). subst n. rewrite bool_decide_true by done.
    assert (E : pair_value l 0 = unsigned l) by (rewrite Hpv; lia). rewrite E in *.
    rewrite count_high_zeros_spec by (dnums; lia). apply length_pos. dnums. lia.
  - assert (0 < h) by (dnums; lia). subst n. rewrite bool_decide_false by lia.
    assert (Eu : unsigned h = h) by (rewrite unsigned_case by done; by rewrite bool_decide_false by lia).
    rewrite count_high_zeros_spec by lia. rewrite Eu. intros Hlen.
    pose proof (length_unique _ _ _ Hlen (length_pos (pair_value l h) ltac:(lia))) as E.
    assert (El : Z.log2 (pair_value l h) = Z.log2 h + 64).
    { apply Z.log2_unique; [pose proof (Z.log2_nonneg h); lia|].
      pose proof (Z.log2_spec h ltac:(lia)) as [L1 L2]. pose proof (Z.log2_nonneg h).
      rewrite Z.pow_add_r by lia. replace (Z.succ (Z.log2 h + 64)) with (Z.succ (Z.log2 h) + 64) by lia.
      rewrite Z.pow_add_r by lia. rewrite Hpv. set (P := 2 ^ Z.log2 h) in *. set (Q := 2 ^ Z.succ (Z.log2 h)) in *. clearbody P Q.
      dnums. lia. }
    rewrite El in E. assert (Z.log2 h < 63) by (apply Z.log2_lt_pow2; dnums; lia). lia.
Qed.

Lemma dinteger_length_spec l h :
  well_formed (Double l h) ->
  let v := value (Double l h) in
  (- 2 ^ 64 <= v < 2 ^ 64 -> length_of v (dinteger_length l h)) /\
  (v < - 2 ^ 64 \/ 2 ^ 64 <= v -> ~ length_of v (dinteger_length l h)).
Proof.
  intros Hw v. pose proof (double_big l h Hw) as Hb. fold v in Hb.
  pose proof (dnegative_p_spec _ Hw) as Hn. fold v in Hn.
  destruct Hw as (Hl & Hh & _). rewrite word_inw in Hl, Hh. change v with (pair_value l h) in *. clear v.
  pose proof (pair_value_neg l h) as Hneg.
  unfold dinteger_length. rewrite Hn. case_bool_decide as Hv.
  - pose proof (lognot_pair l h Hl) as E.
    destruct (length_words (DblModel.lognot l) (DblModel.lognot h)) as [H1 H2];
      [by apply lognot_inw|by apply lognot_inw|rewrite lognot_val; lia|rewrite E; lia|].
    rewrite E in H1, H2. split; intros Hr.
    + apply length_neg. apply H1. lia.
    + intros Hlen. apply H2; [lia|]. apply length_neg. replace (- (- pair_value l h - 1) - 1) with (pair_value l h) by lia. done.
  - destruct (length_words l h) as [H1 H2]; [done|done|lia|lia|]. split; intros Hr; [apply H1|apply H2]; lia.
Qed.
