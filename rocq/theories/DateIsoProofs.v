(** The strict ISO 8601 reader accepts exactly the texts of [iso_strict]. *)
From Verif Require Import Base DateModel DateSpec DateProofs DateStrModel DateStrSpec DateStrProofs.
From Coq Require Import ZifyBool.
Local Open Scope Z_scope.
Local Open Scope outcome_scope.

Lemma read_integer_inv n : forall acc s v s', read_integer n acc s = Val (v, s') ->
  exists x, 0 <= x < 10 ^ Z.of_nat n /\ s = digits n x ++ s' /\ v = acc * 10 ^ Z.of_nat n + x.
Proof.
  induction n as [|n IH]; intros acc s v s' H.
  - cbn in H. injection H as <- <-. exists 0. cbn. split; [lia|]. split; [done|lia].
  - rewrite read_integer_snoc in H. destruct (read_integer n acc s) as [[w s1]| | |] eqn:E; try done.
    apply IH in E as (x & Hx & -> & ->). cbn [obind read_integer] in H.
    destruct s1 as [|c s1]; [done|].
    destruct (bool_decide (c < 48) || bool_decide (c > 57)) eqn:Ec; [done|]. injection H as <- <-.
    apply orb_false_iff in Ec as [E1 E2]. apply bool_decide_eq_false in E1, E2.
    rewrite Nat2Z.inj_succ, Z.pow_succ_r by lia.
    exists (10 * x + (c - 48)). split; [lia|]. split; [|lia].
    cbn [digits]. replace ((10 * x + (c - 48)) / 10) with x by (apply (Z.div_unique _ _ _ (c - 48)); lia).
    replace ((10 * x + (c - 48)) mod 10) with (c - 48) by (apply (Z.mod_unique _ _ x); lia).
    rewrite <- app_assoc. cbn [app]. do 2 f_equal. lia.
Qed.
Lemma read_number_inv n s v s' : read_integer n 0 s = Val (v, s') ->
  0 <= v < 10 ^ Z.of_nat n /\ s = digits n v ++ s'.
Proof.
  intros H. apply read_integer_inv in H as (x & Hx & -> & ->). by rewrite Z.mul_0_l.
Qed.
Lemma maybe_skip_inv c s s' : maybe_skip true c s = Val s' -> s = c :: s'.
Proof.
  unfold maybe_skip, peek_is. destruct s as [|x s]; [done|]. case_bool_decide; [|done]. intros [= <-]. by subst.
Qed.
Lemma is_zone_strict s : is_zone true s = (fst (is_zone true s), s).
Proof. done. Qed.

Lemma split_zone_inv s z : split_zone true s = Val z -> iso_zone s z.
Proof.
  unfold split_zone. rewrite is_zone_strict.
  destruct (fst (is_zone true s)) eqn:Ez; cbn [negb]; [|done].
  destruct s as [|c s]; [done|].
  cbn [is_zone fst negb andb] in Ez. rewrite !peek_cons in Ez.
  destruct (decide (c = 90 \/ c = 122)) as [Hc|Hc].
  - destruct Hc as [-> | ->]; cbn; destruct s; intros [= <-]; constructor.
  - rewrite (bool_decide_false (c = 122)), (bool_decide_false (c = 90)) by lia. cbn [orb].
    rewrite (bool_decide_false (c = 90)), (bool_decide_false (c = 122)) in Ez by lia. cbn [orb] in Ez.
    destruct (read_integer 2 0 s) as [[h s1]| | |] eqn:E1; try done. cbn [obind].
    destruct (maybe_skip true 58 s1) as [s2| | |] eqn:E2; try done. cbn [obind].
    destruct (read_integer 2 0 s2) as [[m s3]| | |] eqn:E3; try done. cbn [obind].
    destruct s3; [|done]. intros [= <-].
    apply read_number_inv in E1 as [Hh ->], E3 as [Hm ->]. apply maybe_skip_inv in E2 as ->.
    rewrite app_nil_r. apply orb_true_iff in Ez as [Ez|Ez]; apply bool_decide_eq_true in Ez as ->.
    + rewrite bool_decide_false by lia. by constructor.
    + rewrite bool_decide_true by lia. replace (0 - (60 * h + m)) with (- (60 * h + m)) by lia. by constructor.
Qed.
Lemma iso_zone_head s z : iso_zone s z -> exists c r, s = c :: r /\ (c = 90 \/ c = 122 \/ c = 43 \/ c = 45).
Proof. destruct 1; eexists _, _; (split; [reflexivity|lia]). Qed.
Lemma is_zone_iso s z : iso_zone s z -> is_zone true s = (true, s).
Proof.
  intros H. rewrite is_zone_strict. f_equal. destruct H; done.
Qed.
Lemma iso_zone_split s z : iso_zone s z -> split_zone true s = Val z.
Proof.
  destruct 1 as [| |h m Hh Hm|h m Hh Hm]; [done|done| |].
  - unfold split_zone. rewrite is_zone_strict. cbn [is_zone fst negb andb]. rewrite !peek_cons.
    rewrite !(bool_decide_false (43 = _)), (bool_decide_true (43 = 43)) by lia. cbn [orb negb].
    rewrite read_digits_ok by (cbn; lia). cbn [obind]. rewrite maybe_skip_ok. cbn [obind].
    rewrite <- (app_nil_r (digits 2 m)), read_digits_ok by (cbn; lia). cbn [obind]. f_equal; lia.
  - unfold split_zone. rewrite is_zone_strict. cbn [is_zone fst negb andb]. rewrite !peek_cons.
    rewrite !(bool_decide_false (45 = 90)), !(bool_decide_false (45 = 122)), (bool_decide_false (45 = 43)), (bool_decide_true (45 = 45)) by lia. cbn [orb negb].
    rewrite read_digits_ok by (cbn; lia). cbn [obind]. rewrite maybe_skip_ok. cbn [obind].
    rewrite <- (app_nil_r (digits 2 m)), read_digits_ok by (cbn; lia). cbn [obind]. f_equal; lia.
Qed.

Lemma read_fraction_inv fuel : forall us p s v q s', 0 <= p ->
  read_fraction fuel true us p s = Val (v, q, s') ->
  exists k f, 0 <= f < 10 ^ Z.of_nat k /\ s = digits k f ++ s' /\ v = us * 10 ^ Z.of_nat k + f /\
    q = p + Z.of_nat k /\ (q <= 6 \/ k = 0%nat) /\ fst (is_zone true s') = true.
Proof.
  intros us p s v q s' Hp H.
  (* through the list of digits *)
  assert (HG : exists l, s = l ++ s' /\ Forall (fun c => 48 <= c <= 57) l /\ q = p + Z.of_nat (length l) /\
            v = fold_left (fun a c => 10 * a + c - 48) l us /\ (q <= 6 \/ l = []) /\ fst (is_zone true s') = true).
  { revert us p s Hp H. induction fuel as [|fuel IH]; intros us p s Hp H; cbn [read_fraction] in H;
      rewrite is_zone_strict in H; destruct (fst (is_zone true s)) eqn:Ez.
    - injection H as <- <- <-. exists []. cbn. repeat split; try done; [lia|by right].
    - done.
    - injection H as <- <- <-. exists []. cbn. repeat split; try done; [lia|by right].
    - destruct s as [|c s]; [done|].
      destruct (bool_decide (c < 48) || bool_decide (c > 57)) eqn:Ec; [done|].
      apply orb_false_iff in Ec as [E1 E2]. apply bool_decide_eq_false in E1, E2.
      destruct (decide (p + 1 > 6)) as [Hq|Hq]; [by rewrite bool_decide_true in H|].
      rewrite bool_decide_false in H by done.
      apply IH in H as (l & -> & Hl & -> & -> & Hc & Hz); [|lia].
      exists (c :: l). split; [done|]. split; [constructor; [lia|done]|]. cbn [length fold_left].
      split; [lia|]. split; [done|]. split; [|done]. left. destruct Hc as [Hc| ->]; [done|]. cbn. lia. }
  destruct HG as (l & -> & Hl & -> & -> & Hc & Hz).
  assert (HD : exists f, 0 <= f < 10 ^ Z.of_nat (length l) /\ l = digits (length l) f /\
             forall us, fold_left (fun a c => 10 * a + c - 48) l us = us * 10 ^ Z.of_nat (length l) + f).
  { clear -Hl. induction l as [|c l IH] using rev_ind.
    - exists 0. cbn. split; [lia|]. split; [done|]. intros. lia.
    - apply Forall_app in Hl as [Hl Hc]. apply Forall_inv in Hc. destruct (IH Hl) as (f & Hf & Hd & Hv).
      exists (10 * f + (c - 48)). rewrite app_length, Nat.add_1_r, Nat2Z.inj_succ, Z.pow_succ_r by lia.
      split; [lia|]. split.
      + cbn [digits]. replace ((10 * f + (c - 48)) / 10) with f by (apply (Z.div_unique _ _ _ (c - 48)); lia).
        replace ((10 * f + (c - 48)) mod 10) with (c - 48) by (apply (Z.mod_unique _ _ f); lia).
        rewrite <- Hd. do 2 f_equal. lia.
      + intros us. rewrite fold_left_app, Hv. cbn [fold_left]. lia. }
  destruct HD as (f & Hf & Hd & Hv). exists (length l), f. split; [done|]. split; [by rewrite <- Hd|].
  split; [apply Hv|]. split; [done|]. split; [|done]. destruct Hc as [Hc| ->]; [by left|by right].
Qed.

Lemma read_fraction_zone fuel k f s : (k <= fuel)%nat -> (k <= 6)%nat -> 0 <= f < 10 ^ Z.of_nat k ->
  (exists c r, s = c :: r /\ (c = 90 \/ c = 122 \/ c = 43 \/ c = 45)) ->
  read_fraction fuel true 0 0 (digits k f ++ s) = Val (f, Z.of_nat k, s).
Proof.
  intros Hk Hk6 Hf (c & r & -> & Hc).
  assert (HZ : forall fuel us p, read_fraction fuel true us p (c :: r) = Val (us, p, c :: r)).
  { intros fu us p. destruct fu; cbn [read_fraction]; rewrite is_zone_strict;
      (replace (fst (is_zone true (c :: r))) with true; [done|]); cbn [is_zone fst negb andb];
      rewrite !peek_cons; destruct Hc as [-> |[-> |[-> | ->]]]; done. }
  assert (Hgen : forall fuel l us p, (length l <= fuel)%nat -> Forall (fun c => 48 <= c <= 57) l ->
    0 <= p -> p + Z.of_nat (length l) <= 6 ->
    read_fraction fuel true us p (l ++ c :: r) =
    Val (fold_left (fun a c => 10 * a + c - 48) l us, p + Z.of_nat (length l), c :: r)).
  { clear -HZ. induction fuel as [|fuel IH]; intros l us p Hl Hd Hp Hk; destruct l as [|x l]; cbn [length] in *.
    - cbn [app]. rewrite HZ. cbn. do 3 f_equal. lia.
    - lia.
    - cbn [app]. rewrite HZ. cbn. do 3 f_equal. lia.
    - inversion Hd as [|? ? Hc Hd']; subst. cbn [read_fraction app]. rewrite is_zone_digit by done.
      rewrite (bool_decide_false (x < 48)), (bool_decide_false (x > 57)), (bool_decide_false (p + 1 > 6)) by lia.
      cbn [orb]. rewrite IH; [|lia|done|lia|lia]. cbn [fold_left]. do 3 f_equal. lia. }
  rewrite Hgen.
  - rewrite digits_length. do 3 f_equal.
    cut (forall us, fold_left (fun a c => 10 * a + c - 48) (digits k f) us = us * 10 ^ Z.of_nat k + f).
    { intros H. rewrite H. lia. }
    clear - Hf. revert f Hf. induction k as [|k IH]; intros f Hf us.
    + cbn in *. lia.
    + rewrite Nat2Z.inj_succ, Z.pow_succ_r in * by lia.
      pose proof (Z.mod_pos_bound f 10 ltac:(lia)) as Hm. pose proof (Z.div_mod f 10 ltac:(lia)) as Hd.
      cbn [digits]. rewrite fold_left_app, IH by lia. cbn [fold_left]. lia.
  - by rewrite digits_length.
  - clear. revert f. induction k as [|k IH]; intros f; cbn [digits]; [constructor|].
    apply Forall_app_2; [apply IH|]. repeat constructor; pose proof (Z.mod_pos_bound f 10); lia.
  - done.
  - rewrite digits_length. lia.
Qed.

Lemma split_time_inv s h mi sec us z : split_time true s = Val (h, mi, sec, us, z) ->
  exists st zt, 0 <= h < 100 /\ 0 <= mi < 100 /\ s = digits 2 h ++ 58 :: digits 2 mi ++ st ++ zt /\
    iso_seconds st sec us /\ iso_zone zt z.
Proof.
  unfold split_time. intros H.
  destruct (read_integer 2 0 s) as [[h' s1]| | |] eqn:E1; try done. cbn [obind] in H.
  destruct (maybe_skip true 58 s1) as [s2| | |] eqn:E2; try done. cbn [obind] in H.
  destruct (read_integer 2 0 s2) as [[m' s3]| | |] eqn:E3; try done. cbn [obind] in H.
  apply read_number_inv in E1 as [Hh ->], E3 as [Hm ->]. apply maybe_skip_inv in E2 as ->.
  rewrite is_zone_strict in H. destruct (fst (is_zone true s3)) eqn:Ez.
  - cbn [obind] in H. destruct (split_zone true s3) as [z'| | |] eqn:Es; try done. cbn [obind] in H.
    injection H as <- <- <- <- <-. exists [], s3. apply split_zone_inv in Es. repeat split; try done; try apply Hh; try apply Hm. constructor.
  - destruct (maybe_skip true 58 s3) as [s4| | |] eqn:E4; try done. cbn [obind] in H.
    destruct (read_integer 2 0 s4) as [[sc s5]| | |] eqn:E5; try done. cbn [obind] in H.
    apply maybe_skip_inv in E4 as ->. apply read_number_inv in E5 as [Hs ->].
    destruct (peek_is s5 46) eqn:Ep.
    + destruct (read_fraction (S (length s5)) true 0 0 (tail s5)) as [[[us' q] s6]| | |] eqn:Ef; try done.
      cbn [obind] in H. destruct (split_zone true s6) as [z'| | |] eqn:Es; try done. cbn [obind] in H.
      injection H as <- <- <- <- <-. apply split_zone_inv in Es.
      apply read_fraction_inv in Ef as (k & f & Hf & Ht & -> & -> & Hq & _); [|lia].
      destruct s5 as [|c s5]; [done|]. rewrite peek_cons in Ep. apply bool_decide_eq_true in Ep as ->.
      cbn [tail] in Ht. subst s5.
      exists (58 :: digits 2 sc ++ 46 :: digits k f), s6. split; [apply Hh|]. split; [apply Hm|].
      split; [cbn [app]; by rewrite <- app_assoc|]. split; [|done].
      replace (0 * 10 ^ Z.of_nat k + f) with f by lia. rewrite Z.add_0_l.
      constructor; [apply Hs|lia|done].
    + cbn [obind] in H. destruct (split_zone true s5) as [z'| | |] eqn:Es; try done. cbn [obind] in H.
      injection H as <- <- <- <- <-. apply split_zone_inv in Es.
      exists (58 :: digits 2 sc), s5. split; [apply Hh|]. split; [apply Hm|]. split; [done|].
      split; [|done]. constructor. apply Hs.
Qed.

Lemma split_time_strict h mi st sec us zt z : 0 <= h < 100 -> 0 <= mi < 100 ->
  iso_seconds st sec us -> iso_zone zt z ->
  split_time true (digits 2 h ++ 58 :: digits 2 mi ++ st ++ zt) = Val (h, mi, sec, us, z).
Proof.
  intros Hh Hm Hs Hz. unfold split_time.
  rewrite read_digits_ok by (cbn; lia). cbn [obind]. rewrite maybe_skip_ok. cbn [obind].
  rewrite read_digits_ok by (cbn; lia). cbn [obind].
  destruct Hs as [|s Hs|s k f Hs Hk Hf]; cbn [app].
  - rewrite (is_zone_iso _ _ Hz). cbn [obind]. rewrite (iso_zone_split _ _ Hz). cbn [obind]. repeat f_equal; lia.
  - rewrite is_zone_other by lia. rewrite maybe_skip_ok. cbn [obind].
    rewrite read_digits_ok by (cbn; lia). cbn [obind].
    destruct (iso_zone_head _ _ Hz) as (c & r & -> & Hc). rewrite peek_cons, bool_decide_false by lia. cbn [obind].
    rewrite (iso_zone_split _ _ Hz). cbn [obind]. repeat f_equal; lia.
  - rewrite is_zone_other by lia. rewrite maybe_skip_ok. cbn [obind]. rewrite <- app_assoc.
    rewrite read_digits_ok by (cbn; lia). cbn [obind app]. rewrite peek_cons, bool_decide_true by done. cbn [tail].
    rewrite read_fraction_zone; [|cbn [length]; rewrite app_length, digits_length; lia|done|done|by apply (iso_zone_head _ z)].
    cbn [obind]. rewrite (iso_zone_split _ _ Hz). cbn [obind]. repeat f_equal; lia.
Qed.

Lemma make_date_val y m d h mi s us z r :
  make_date y m d h mi s us z = Val r -> r = Date y m d h mi s us z /\ makeable r.
Proof.
  intros H.
  assert (Hr : r = Date y m d h mi s us z).
  { unfold make_date in H.
    repeat match type of H with
      | (if ?b then _ else _) = _ => destruct b; [discriminate|]
      | obind ?a _ = _ => destruct a; try discriminate; cbn [obind] in H
      end.
    by injection H. }
  split; [done|]. apply make_date_spec. unfold clone_date. subst r. exact H.
Qed.

Lemma parse_iso_strict s r : parse_iso8601_string true s = Val r <-> iso_strict s r /\ makeable r.
Proof.
  split.
  - unfold parse_iso8601_string. intros H.
    destruct (read_integer 4 0 s) as [[y s1]| | |] eqn:E1; try done. cbn [obind] in H.
    apply read_number_inv in E1 as [Hy ->]. change (10 ^ Z.of_nat 4) with 10000 in Hy.
    destruct s1 as [|c1 s1].
    { apply make_date_val in H as [-> Hm]. split; [|done]. rewrite app_nil_r. by constructor. }
    destruct (maybe_skip true 45 (c1 :: s1)) as [s2| | |] eqn:E2; try done. cbn [obind] in H.
    apply maybe_skip_inv in E2. rewrite E2. clear E2.
    destruct (read_integer 2 0 s2) as [[m s3]| | |] eqn:E3; try done. cbn [obind] in H.
    apply read_number_inv in E3 as [Hm ->]. change (10 ^ Z.of_nat 2) with 100 in Hm.
    destruct s3 as [|c3 s3].
    { apply make_date_val in H as [-> Hmk]. split; [|done]. rewrite app_nil_r. by constructor. }
    destruct (maybe_skip true 45 (c3 :: s3)) as [s4| | |] eqn:E4; try done. cbn [obind] in H.
    apply maybe_skip_inv in E4. rewrite E4. clear E4.
    destruct (read_integer 2 0 s4) as [[d s5]| | |] eqn:E5; try done. cbn [obind] in H.
    apply read_number_inv in E5 as [Hd ->]. change (10 ^ Z.of_nat 2) with 100 in Hd.
    destruct s5 as [|c5 s5].
    { apply make_date_val in H as [-> Hmk]. split; [|done]. rewrite app_nil_r. by constructor. }
    cbn [negb andb] in H. rewrite orb_false_r in H.
    destruct (bool_decide (c5 = 84) || bool_decide (c5 = 116)) eqn:Ec; [|done].
    assert (Hc : c5 = 84 \/ c5 = 116).
    { apply orb_true_iff in Ec as [Ec|Ec]; apply bool_decide_eq_true in Ec; auto. }
    destruct (split_time true s5) as [[[[[h mi] sec] us] z]| | |] eqn:Et; try done. cbn [obind] in H.
    apply split_time_inv in Et as (st & zt & Hh & Hmi & -> & Hst & Hzt).
    apply make_date_val in H as [-> Hmk]. split; [|done]. by constructor.
  - intros [H Hmk]. apply make_date_spec in Hmk. unfold clone_date in Hmk. unfold parse_iso8601_string.
    destruct H as [y Hy|y m Hy Hm|y m d Hy Hm Hd|y m d t h mi st sec us zt z Hy Hm Hd Ht Hh Hmi Hst Hzt].
    + rewrite <- (app_nil_r (digits 4 y)), read_digits_ok by (cbn; lia). cbn [obind].
      by rewrite Z.mul_0_l, Z.add_0_l.
    + rewrite read_digits_ok by (cbn; lia). cbn [obind]. rewrite maybe_skip_ok. cbn [obind].
      rewrite <- (app_nil_r (digits 2 m)), read_digits_ok by (cbn; lia). cbn [obind].
      by rewrite !Z.mul_0_l, !Z.add_0_l.
    + rewrite read_digits_ok by (cbn; lia). cbn [obind]. rewrite maybe_skip_ok. cbn [obind].
      rewrite read_digits_ok by (cbn; lia). cbn [obind]. rewrite maybe_skip_ok. cbn [obind].
      rewrite <- (app_nil_r (digits 2 d)), read_digits_ok by (cbn; lia). cbn [obind].
      by rewrite !Z.mul_0_l, !Z.add_0_l.
    + rewrite read_digits_ok by (cbn; lia). cbn [obind]. rewrite maybe_skip_ok. cbn [obind].
      rewrite read_digits_ok by (cbn; lia). cbn [obind]. rewrite maybe_skip_ok. cbn [obind].
      rewrite read_digits_ok by (cbn; lia). cbn [obind].
      assert (Hb : bool_decide (t = 84) || bool_decide (t = 116) || (negb true && bool_decide (t = 32)) = true).
      { by destruct Ht as [-> | ->]. }
      rewrite Hb, (split_time_strict h mi st sec us zt z) by done. cbn [obind].
      by rewrite !Z.mul_0_l, !Z.add_0_l.
Qed.
