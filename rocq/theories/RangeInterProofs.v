(** Proofs about the intersection of ranges. *)
From Coq Require Import ZifyBool ZifyNat ZifyN Lia Znumtheory.
From Verif Require Import Base RangeModel RangeSpec RangeProofs.
Local Open Scope Z_scope.
Local Open Scope outcome_scope.

(** The upward progression and a segment of it, as sets. *)
Definition up (f b x : Z) : Prop := f <= x /\ (b | x - f).
Definition between (lo b hi x : Z) : Prop := lo <= x <= hi /\ (b | x - lo).

Lemma rem_divide v b : b <> 0 -> (Z.rem v b = 0 <-> (b | v)).
Proof. intros. by apply Z.rem_divide. Qed.

Lemma first_loop_spec k n b1 f2 b2 : b2 > 0 ->
  match first_loop k n b1 f2 b2 with
  | Some m => exists i, (i < k)%nat /\ m = n + Z.of_nat i * b1 /\ (b2 | m - f2) /\
                forall j, (j < i)%nat -> ~ (b2 | n + Z.of_nat j * b1 - f2)
  | None => forall j, (j < k)%nat -> ~ (b2 | n + Z.of_nat j * b1 - f2)
  end.
Proof.
  intros Hb. revert n. induction k as [|k IH]; intros n; cbn [first_loop].
  { intros; lia. }
  unfold trunc_rem. case_bool_decide as H.
  - exists 0%nat. split; [lia|]. split; [lia|]. split; [by apply rem_divide in H; [|lia]|]. intros; lia.
  - assert (H0 : ~ (b2 | n - f2)). { intros Hd. apply H, rem_divide; [lia|done]. }
    specialize (IH (n + b1)). destruct (first_loop k (n + b1) b1 f2 b2) as [m|].
    + destruct IH as (i & Hi & -> & Hd & Hmin). exists (S i). split; [lia|].
      split; [lia|]. split; [done|]. intros [|j] Hj.
      * by replace (n + Z.of_nat 0 * b1 - f2) with (n - f2) by lia.
      * specialize (Hmin j ltac:(lia)).
        by replace (n + Z.of_nat (S j) * b1 - f2) with (n + b1 + Z.of_nat j * b1 - f2) by lia.
    + intros [|j] Hj.
      * by replace (n + Z.of_nat 0 * b1 - f2) with (n - f2) by lia.
      * specialize (IH j ltac:(lia)).
        by replace (n + Z.of_nat (S j) * b1 - f2) with (n + b1 + Z.of_nat j * b1 - f2) by lia.
Qed.

Lemma lcm_pos a b : a > 0 -> b > 0 -> Z.lcm a b > 0.
Proof.
  intros. pose proof (Z.lcm_nonneg a b). assert (Z.lcm a b <> 0); [|lia].
  rewrite Z.lcm_eq_0. lia.
Qed.

(** Positions repeat with period b2. *)
Lemma divide_period b2 n b1 f2 j : b2 > 0 -> 0 <= j ->
  (b2 | n + j * b1 - f2) -> (b2 | n + (j mod b2) * b1 - f2).
Proof.
  intros Hb Hj [q Hq]. exists (q - j / b2 * b1).
  pose proof (Z.div_mod j b2 ltac:(lia)) as E.
  rewrite Z.mul_sub_distr_r, <- Hq. rewrite E at 2. ring.
Qed.

(** The common members of two upward progressions form one: first one and least common
    multiple. *)
Lemma first_loop_up f1 b1 f2 b2 : b1 > 0 -> b2 > 0 -> f2 <= f1 ->
  match first_loop (Z.to_nat b2) f1 b1 f2 b2 with
  | Some m => forall x, up f1 b1 x /\ up f2 b2 x <-> m <= x /\ (Z.lcm b1 b2 | x - m)
  | None => forall x, ~ (up f1 b1 x /\ up f2 b2 x)
  end.
Proof.
  intros Hb1 Hb2 Hf. pose proof (first_loop_spec (Z.to_nat b2) f1 b1 f2 b2 Hb2) as H.
  destruct (first_loop (Z.to_nat b2) f1 b1 f2 b2) as [m|].
  - destruct H as (i & Hi & Em & Hd & Hmin). intros x. split.
    + intros [[Hx1 Hd1] [Hx2 Hd2]].
      assert (Hdm1 : (b1 | x - m)).
      { destruct Hd1 as [q Hq]. exists (q - Z.of_nat i). lia. }
      assert (Hdm2 : (b2 | x - m)).
      { replace (x - m) with ((x - f2) - (m - f2)) by lia. by apply Z.divide_sub_r. }
      split; [|by apply Z.lcm_least].
      destruct (Z_lt_le_dec x m) as [Hlt|]; [|done]. exfalso.
      destruct Hd1 as [q Hq]. assert (0 <= q < Z.of_nat i) by nia.
      apply (Hmin (Z.to_nat q)); [lia|]. rewrite Z2Nat.id by lia.
      by replace (f1 + q * b1 - f2) with (x - f2) by lia.
    + intros [Hx Hl].
      assert (Hdm1 : (b1 | x - m)) by (eapply Z.divide_trans; [apply Z.divide_lcm_l|done]).
      assert (Hdm2 : (b2 | x - m)) by (eapply Z.divide_trans; [apply Z.divide_lcm_r|done]).
      split; split.
      * nia.
      * destruct Hdm1 as [q Hq]. exists (q + Z.of_nat i). lia.
      * nia.
      * replace (x - f2) with ((x - m) + (m - f2)) by lia. by apply Z.divide_add_r.
  - intros x [[Hx1 [q Hq]] [Hx2 Hd2]]. assert (0 <= q) by nia.
    pose proof (Z.mod_pos_bound q b2 ltac:(lia)).
    apply (H (Z.to_nat (q mod b2))); [lia|]. rewrite Z2Nat.id by lia.
    apply divide_period; [done|lia|]. by replace (f1 + q * b1 - f2) with (x - f2) by lia.
Qed.

Lemma first_intersection_up_spec f1 b1 f2 b2 : b1 > 0 -> b2 > 0 ->
  match first_intersection_up f1 b1 f2 b2 with
  | Some m => forall x, up f1 b1 x /\ up f2 b2 x <-> m <= x /\ (Z.lcm b1 b2 | x - m)
  | None => forall x, ~ (up f1 b1 x /\ up f2 b2 x)
  end.
Proof.
  intros Hb1 Hb2. unfold first_intersection_up. case_bool_decide.
  - pose proof (first_loop_up f2 b2 f1 b1 Hb2 Hb1 ltac:(lia)) as H1. rewrite Z.lcm_comm.
    destruct (first_loop _ _ _ _ _).
    + intros x. rewrite <- H1. tauto.
    + intros x. specialize (H1 x). tauto.
  - apply first_loop_up; lia.
Qed.

Definition down (f b x : Z) : Prop := x <= f /\ (b | f - x).

Lemma down_up f b x : down f b x <-> up (- f) b (- x).
Proof.
  unfold down, up. replace (- x - - f) with (f - x) by lia.
  split; intros [? ?]; (split; [lia|done]).
Qed.

Lemma first_intersection_down_spec f1 b1 f2 b2 : b1 > 0 -> b2 > 0 ->
  match first_intersection f1 (- b1) f2 (- b2) with
  | Some m => forall x, down f1 b1 x /\ down f2 b2 x <-> x <= m /\ (Z.lcm b1 b2 | m - x)
  | None => forall x, ~ (down f1 b1 x /\ down f2 b2 x)
  end.
Proof.
  intros Hb1 Hb2. unfold first_intersection. rewrite bool_decide_true by lia.
  rewrite !Z.opp_involutive.
  pose proof (first_intersection_up_spec (- f1) b1 (- f2) b2 Hb1 Hb2) as H.
  destruct (first_intersection_up _ _ _ _) as [m|]; intros x; specialize (H (- x)); rewrite <- !down_up in H.
  - rewrite H. replace (- x - m) with (- m - x) by lia.
    split; intros [? ?]; (split; [lia|done]).
  - done.
Qed.

Lemma dylan_lcm_pos a b : a > 0 -> b > 0 -> dylan_lcm a b = Z.lcm a b.
Proof.
  intros Ha Hb. unfold dylan_lcm, dylan_gcd, truncate_div.
  rewrite !(bool_decide_false (a = 0)), !(bool_decide_false (b = 0)) by lia.
  assert (Hg : (if bool_decide (a = b) then a else Z.gcd a b) = Z.gcd a b).
  { case_bool_decide; [subst; rewrite Z.gcd_diag; lia|done]. }
  rewrite Hg. clear Hg.
  assert (Hg : 0 < Z.gcd a b).
  { pose proof (Z.gcd_nonneg a b). assert (Z.gcd a b <> 0); [|lia]. rewrite Z.gcd_eq_0. lia. }
  rewrite Z.quot_div_nonneg by lia. unfold Z.lcm.
  destruct (Z.gcd_divide_l a b) as [p Hp]. destruct (Z.gcd_divide_r a b) as [q Hq].
  set (g := Z.gcd a b) in *. 
  assert (Hbg : b / g = q) by (rewrite Hq; apply Z.div_mul; lia).
  assert (Hag : a / g = p) by (rewrite Hp; apply Z.div_mul; lia).
  rewrite Hbg. rewrite Z.abs_eq by nia.
  destruct (Z.max_spec a b) as [[Hl ->]|[Hl ->]].
  - rewrite Hbg, Z.min_l by lia. lia.
  - rewrite Hag, Z.min_r by lia. nia.
Qed.

(** make(<range>, from:, to:, by:) with a positive step, when the segment is at most one step
    short of its start. *)
Lemma make_to_up f b t : b > 0 -> f - b <= t ->
  exists r, make_range f b (Some t) None None None = Val r /\ wf_range r /\
    forall x, in_seq (denote r) x <-> f <= x <= t /\ (b | x - f).
Proof.
  intros Hb Ht. unfold make_range. rewrite (bool_decide_false (b = 0)) by lia.
  rewrite (bool_decide_true (b > 0)) by lia. unfold floor_div. cbn [obind].
  replace (t + b - f) with (t - f + 1 * b) by lia. rewrite Z.div_add by lia.
  pose proof (Z.div_mod (t - f) b ltac:(lia)) as E. pose proof (Z.mod_pos_bound (t - f) b ltac:(lia)).
  set (q := (t - f) / b) in *. 
  case_bool_decide as H0.
  - exists REmpty. split; [done|]. split; [done|]. intros x. cbn [denote]. split.
    + intros [k Hk]. unfold progression in Hk. case_bool_decide; [lia|done].
    + intros [Hx [p Hp]]. nia.
  - eexists. split; [reflexivity|]. split; [cbn; nia|]. intros x. cbn [denote].
    rewrite in_progression_fin. split.
    + intros (k & Hk & ->). split; [nia|]. exists k. lia.
    + intros [Hx [p Hp]]. exists p. split; [nia|lia].
Qed.

Lemma ordered_spec lo1 b1 hi1 lo2 b2 hi2 :
  b1 > 0 -> b2 > 0 -> (b1 | hi1 - lo1) -> (b2 | hi2 - lo2) ->
  (lo1 <= hi1 /\ lo2 <= hi2) \/ hi1 < lo2 \/ hi2 < lo1 ->
  exists r, ordered_finite_intersection lo1 b1 hi1 lo2 b2 hi2 = Val r /\ wf_range r /\
    forall x, in_seq (denote r) x <-> between lo1 b1 hi1 x /\ between lo2 b2 hi2 x.
Proof.
  intros Hb1 Hb2 Hd1 Hd2 Hlh. unfold ordered_finite_intersection.
  assert (Hempty : forall x, ~ in_seq (denote REmpty) x).
  { intros x [k Hk]. cbn [denote] in Hk. unfold progression in Hk. case_bool_decide; [lia|done]. }
  destruct (bool_decide (hi1 < lo2) || bool_decide (hi2 < lo1)) eqn:Eg.
  { apply orb_true_iff in Eg. rewrite !bool_decide_eq_true in Eg.
    exists REmpty. split; [done|]. split; [done|]. intros x. unfold between.
    split; [by intros ?%Hempty|]. intros; exfalso; lia. }
  apply orb_false_iff in Eg. rewrite !bool_decide_eq_false in Eg.
  assert (Hlh' : lo1 <= hi1 /\ lo2 <= hi2) by lia. clear Hlh.
  assert (Hud : forall x, between lo1 b1 hi1 x <-> up lo1 b1 x /\ down hi1 b1 x).
  { intros x. unfold between, up, down. split.
    - intros [? ?]. split; [split; [lia|done]|]. split; [lia|].
      replace (hi1 - x) with ((hi1 - lo1) - (x - lo1)) by lia. by apply Z.divide_sub_r.
    - intros [[? ?] [? ?]]. split; [lia|done]. }
  assert (Hud2 : forall x, between lo2 b2 hi2 x <-> up lo2 b2 x /\ down hi2 b2 x).
  { intros x. unfold between, up, down. split.
    - intros [? ?]. split; [split; [lia|done]|]. split; [lia|].
      replace (hi2 - x) with ((hi2 - lo2) - (x - lo2)) by lia. by apply Z.divide_sub_r.
    - intros [[? ?] [? ?]]. split; [lia|done]. }
  unfold first_intersection at 1. rewrite (bool_decide_false (b1 < 0)) by lia.
  pose proof (first_intersection_up_spec lo1 b1 lo2 b2 Hb1 Hb2) as Hup.
  pose proof (first_intersection_down_spec hi1 b1 hi2 b2 Hb1 Hb2) as Hdn.
  pose proof (lcm_pos b1 b2 Hb1 Hb2) as HL.
  destruct (first_intersection_up lo1 b1 lo2 b2) as [from|].
  2:{ exists REmpty. split; [done|]. split; [done|]. intros x. specialize (Hup x).
      split; [by intros ?%Hempty|]. rewrite Hud, Hud2. tauto. }
  set (L := Z.lcm b1 b2) in *.
  destruct (Hup from) as [_ Hf]. destruct Hf as [[Hf1 Hfd1] [Hf2 Hfd2]].
  { split; [lia|]. exists 0. lia. }
  rewrite !bool_decide_true by lia. cbn [andb].
  destruct (first_intersection hi1 (- b1) hi2 (- b2)) as [to|].
  2:{ exists REmpty. split; [done|]. split; [done|]. intros x. specialize (Hdn x).
      split; [by intros ?%Hempty|]. rewrite Hud, Hud2. tauto. }
  destruct (Hdn to) as [_ Ht]. destruct Ht as [[Ht1 Htd1] [Ht2 Htd2]].
  { split; [lia|]. exists 0. lia. }
  rewrite !bool_decide_true by lia. cbn [andb].
  rewrite dylan_lcm_pos by done. fold L.
  assert (HLd : (L | to - from)).
  { apply Z.lcm_least.
    - replace (to - from) with ((hi1 - lo1) - (hi1 - to) - (from - lo1)) by lia.
      apply Z.divide_sub_r; [by apply Z.divide_sub_r|done].
    - replace (to - from) with ((hi2 - lo2) - (hi2 - to) - (from - lo2)) by lia.
      apply Z.divide_sub_r; [by apply Z.divide_sub_r|done]. }
  assert (Hlow : from - L < Z.max lo1 lo2).
  { destruct (Z_lt_le_dec (from - L) (Z.max lo1 lo2)) as [|Hge]; [done|]. exfalso.
    assert (Hin : up lo1 b1 (from - L) /\ up lo2 b2 (from - L)).
    { split; (split; [lia|]).
      - replace (from - L - lo1) with ((from - lo1) - L) by lia. apply Z.divide_sub_r; [done|apply Z.divide_lcm_l].
      - replace (from - L - lo2) with ((from - lo2) - L) by lia. apply Z.divide_sub_r; [done|apply Z.divide_lcm_r]. }
    apply Hup in Hin. lia. }
  assert (Hhigh : Z.min hi1 hi2 < to + L).
  { destruct (Z_lt_le_dec (Z.min hi1 hi2) (to + L)) as [|Hge]; [done|]. exfalso.
    assert (Hin : down hi1 b1 (to + L) /\ down hi2 b2 (to + L)).
    { split; (split; [lia|]).
      - replace (hi1 - (to + L)) with ((hi1 - to) - L) by lia. apply Z.divide_sub_r; [done|apply Z.divide_lcm_l].
      - replace (hi2 - (to + L)) with ((hi2 - to) - L) by lia. apply Z.divide_sub_r; [done|apply Z.divide_lcm_r]. }
    apply Hdn in Hin. lia. }
  assert (Hto : from - L <= to).
  { destruct HLd as [q Hq]. assert (-2 * L < to - from) by lia. assert (-2 < q) by nia.
    assert (-1 <= q) by lia. nia. }
  destruct (make_to_up from L to HL Hto) as (r & Er & Hwf & Hr).
  exists r. split; [done|]. split; [done|]. intros x. rewrite Hr, Hud, Hud2. split.
  - intros [[Hx1 Hx2] Hxd].
    assert (up lo1 b1 x /\ up lo2 b2 x) by (by apply Hup).
    assert (down hi1 b1 x /\ down hi2 b2 x).
    { apply Hdn. split; [done|]. replace (to - x) with ((to - from) - (x - from)) by lia.
      by apply Z.divide_sub_r. }
    tauto.
  - intros [[HA HB] [HC HD]].
    assert (from <= x /\ (L | x - from)) as [? ?] by (by apply Hup).
    assert (x <= to /\ (L | to - x)) as [? ?] by (by apply Hdn). done.
Qed.

(** *** Membership of the range classes in terms of segments *)
Lemma finite_between f b n x : b <> 0 -> 1 <= n ->
  in_seq (denote (RFinite f b n)) x <->
  if bool_decide (b < 0) then between (f + b * (n - 1)) (- b) f x else between f b (f + b * (n - 1)) x.
Proof.
  intros Hb Hn. cbn [denote]. rewrite in_progression_fin. unfold between. case_bool_decide.
  - split.
    + intros (k & Hk & ->). split; [nia|]. exists (n - 1 - k). lia.
    + intros [Hx [q Hq]]. exists (n - 1 - q). split; [nia|]. lia.
  - split.
    + intros (k & Hk & ->). split; [nia|]. exists k. lia.
    + intros [Hx [q Hq]]. exists q. split; [nia|]. lia.
Qed.

Lemma infinite_up f b x : b <> 0 ->
  in_seq (denote (RInfinite f b)) x <-> if bool_decide (b < 0) then down f (- b) x else up f b x.
Proof.
  intros Hb. cbn [denote]. rewrite in_progression_inf. unfold up, down. case_bool_decide.
  - split.
    + intros (k & Hk & ->). split; [nia|]. exists k. lia.
    + intros [Hx [q Hq]]. exists q. split; [nia|]. lia.
  - split.
    + intros (k & Hk & ->). split; [nia|]. exists k. lia.
    + intros [Hx [q Hq]]. exists q. split; [nia|]. lia.
Qed.

(** last-of-in: the last member of an infinite range that does not pass [bound]. *)
Lemma last_of_in_up f b bound : b > 0 ->
  (b | last_of_in f b bound - f) /\
  (f <= bound -> f <= last_of_in f b bound <= bound /\
                 forall x, up f b x -> x <= bound -> x <= last_of_in f b bound).
Proof.
  intros Hb. unfold last_of_in, truncate_div. split; [exists (Z.quot (bound - f) b); lia|].
  intros Hf. rewrite Z.quot_div_nonneg by lia.
  pose proof (Z.div_mod (bound - f) b ltac:(lia)). pose proof (Z.mod_pos_bound (bound - f) b ltac:(lia)).
  set (q := (bound - f) / b) in *. assert (0 <= q) by (apply Z.div_pos; lia).
  split; [nia|]. intros x [Hx [p Hp]] Hxb. assert (p <= q) by nia. nia.
Qed.
Lemma last_of_in_down f b bound : b > 0 ->
  (b | f - last_of_in f (- b) bound) /\
  (bound <= f -> bound <= last_of_in f (- b) bound <= f /\
                 forall x, down f b x -> bound <= x -> last_of_in f (- b) bound <= x).
Proof.
  intros Hb. assert (E : last_of_in f (- b) bound = - last_of_in (- f) b (- bound)).
  { unfold last_of_in, truncate_div. replace (- bound - - f) with (- (bound - f)) by lia.
    rewrite Z.quot_opp_l, Z.quot_opp_r by lia. lia. }
  rewrite E. destruct (last_of_in_up (- f) b (- bound) Hb) as [H1 H2]. split.
  - replace (f - - last_of_in (- f) b (- bound)) with (last_of_in (- f) b (- bound) - - f) by lia. done.
  - intros Hf. destruct (H2 ltac:(lia)) as [H3 H4]. split; [lia|]. intros x Hx Hxb.
    apply down_up in Hx. specialize (H4 _ Hx ltac:(lia)). lia.
Qed.

Lemma between_shift lo b hi x : (b | hi - lo) -> between lo b hi x <-> lo <= x <= hi /\ (b | hi - x).
Proof.
  intros Hd. unfold between. split; intros [? ?]; (split; [done|]).
  - replace (hi - x) with ((hi - lo) - (x - lo)) by lia. by apply Z.divide_sub_r.
  - replace (x - lo) with ((hi - lo) - (hi - x)) by lia. by apply Z.divide_sub_r.
Qed.

(** An infinite range cut at the bound used by the code. *)
Definition seg_lo (f b t : Z) := if bool_decide (b < 0) then t else f.
Definition seg_hi (f b t : Z) := if bool_decide (b < 0) then f else t.

Lemma finite_intersection_spec f1 b1 t1 f2 b2 t2 :
  b1 <> 0 -> b2 <> 0 -> (Z.abs b1 | t1 - f1) -> (Z.abs b2 | t2 - f2) ->
  let lo1 := seg_lo f1 b1 t1 in let hi1 := seg_hi f1 b1 t1 in
  let lo2 := seg_lo f2 b2 t2 in let hi2 := seg_hi f2 b2 t2 in
  (lo1 <= hi1 /\ lo2 <= hi2) \/ hi1 < lo2 \/ hi2 < lo1 ->
  exists r, finite_intersection f1 b1 t1 f2 b2 t2 = Val r /\ wf_range r /\
    forall x, in_seq (denote r) x <-> between lo1 (Z.abs b1) hi1 x /\ between lo2 (Z.abs b2) hi2 x.
Proof.
  intros Hb1 Hb2 Hd1 Hd2. unfold finite_intersection, seg_lo, seg_hi.
  assert (Hd1' : (Z.abs b1 | f1 - t1)).
  { apply Z.divide_opp_r. by replace (- (f1 - t1)) with (t1 - f1) by lia. }
  assert (Hd2' : (Z.abs b2 | f2 - t2)).
  { apply Z.divide_opp_r. by replace (- (f2 - t2)) with (t2 - f2) by lia. }
  case_bool_decide as H1; case_bool_decide as H2; cbv zeta; intros H;
    first [assert (E1 : Z.abs b1 = b1) by lia | assert (E1 : Z.abs b1 = - b1) by lia];
    first [assert (E2 : Z.abs b2 = b2) by lia | assert (E2 : Z.abs b2 = - b2) by lia];
    rewrite E1 in Hd1, Hd1' |- *; rewrite E2 in Hd2, Hd2' |- *;
    apply ordered_spec; try done; lia.
Qed.

Lemma finite_seg f b n x : b <> 0 -> 1 <= n ->
  let t := f + b * (n - 1) in
  (in_seq (denote (RFinite f b n)) x <-> between (seg_lo f b t) (Z.abs b) (seg_hi f b t) x) /\
  (Z.abs b | t - f) /\ seg_lo f b t <= seg_hi f b t.
Proof.
  intros Hb Hn t. rewrite finite_between by done. unfold seg_lo, seg_hi, t. split; [|split].
  - case_bool_decide.
    + by replace (Z.abs b) with (- b) by lia.
    + by replace (Z.abs b) with b by lia.
  - apply Z.divide_abs_l. exists (n - 1). lia.
  - case_bool_decide; nia.
Qed.

(** The infinite range, cut at [bound]: nothing below/above the bound is lost, and if the bound is
    before its start, the whole range lies beyond the bound. *)
Lemma infinite_seg f b bound : b <> 0 ->
  let t := last_of_in f b bound in
  (Z.abs b | t - f) /\
  (b > 0 -> f <= bound -> seg_lo f b t <= seg_hi f b t /\
     forall x, x <= bound -> (in_seq (denote (RInfinite f b)) x <-> between (seg_lo f b t) (Z.abs b) (seg_hi f b t) x)) /\
  (b < 0 -> bound <= f -> seg_lo f b t <= seg_hi f b t /\
     forall x, bound <= x -> (in_seq (denote (RInfinite f b)) x <-> between (seg_lo f b t) (Z.abs b) (seg_hi f b t) x)).
Proof.
  intros Hb t. split; [|split].
  - apply Z.divide_abs_l. unfold t, last_of_in. exists (truncate_div (bound - f) b). lia.
  - intros Hp Hf. destruct (last_of_in_up f b bound Hp) as [Hd H]. destruct (H Hf) as [H1 H2]. fold t in H1, H2, Hd.
    unfold seg_lo, seg_hi. rewrite (bool_decide_false (b < 0)) by lia. split; [lia|].
    intros x Hx. rewrite infinite_up by done. rewrite (bool_decide_false (b < 0)) by lia.
    replace (Z.abs b) with b by lia. unfold between, up. split.
    + intros [? ?]. split; [|done]. split; [done|]. by apply H2.
    + intros [? ?]. split; [lia|done].
  - intros Hn Hf. destruct (last_of_in_down f (- b) bound ltac:(lia)) as [Hd H]. rewrite Z.opp_involutive in *.
    destruct (H Hf) as [H1 H2]. fold t in H1, H2, Hd.
    unfold seg_lo, seg_hi. rewrite (bool_decide_true (b < 0)) by lia. split; [lia|].
    intros x Hx. rewrite infinite_up by done. rewrite (bool_decide_true (b < 0)) by lia.
    replace (Z.abs b) with (- b) by lia. rewrite between_shift by done. unfold down. split.
    + intros [? ?]. split; [|done]. split; [|done]. by apply H2.
    + intros [? ?]. split; [lia|done].
Qed.

Lemma infinite_beyond f b x bound : b <> 0 -> in_seq (denote (RInfinite f b)) x ->
  (b > 0 -> bound < f -> bound < x) /\ (b < 0 -> f < bound -> x < bound).
Proof.
  intros Hb. rewrite infinite_up by done. unfold up, down. case_bool_decide; lia.
Qed.

Lemma same_sign_spec x y : x <> 0 -> y <> 0 -> same_sign x y = bool_decide (x > 0 <-> y > 0).
Proof. intros. unfold same_sign. repeat case_bool_decide; try done; lia. Qed.

Definition inter_ok (r1 r2 : range) (o : outcome range) : Prop :=
  exists r, o = Val r /\ wf_range r /\
    forall x, in_seq (denote r) x <-> in_seq (denote r1) x /\ in_seq (denote r2) x.

Lemma inter_ok_sym r1 r2 o : inter_ok r2 r1 o -> inter_ok r1 r2 o.
Proof. intros (r & E & W & H). exists r. split; [done|]. split; [done|]. intros x. rewrite H. tauto. Qed.

Lemma finite_finite f1 b1 n1 f2 b2 n2 :
  wf_range (RFinite f1 b1 n1) -> wf_range (RFinite f2 b2 n2) ->
  inter_ok (RFinite f1 b1 n1) (RFinite f2 b2 n2) (intersection (RFinite f1 b1 n1) (RFinite f2 b2 n2)).
Proof.
  intros [Hb1 Hn1] [Hb2 Hn2]. cbn [intersection].
  pose proof (finite_seg f1 b1 n1 0 Hb1 Hn1) as (_ & Hd1 & Hl1).
  pose proof (finite_seg f2 b2 n2 0 Hb2 Hn2) as (_ & Hd2 & Hl2).
  destruct (finite_intersection_spec f1 b1 (f1 + b1 * (n1 - 1)) f2 b2 (f2 + b2 * (n2 - 1)) Hb1 Hb2 Hd1 Hd2)
    as (r & E & W & H); [by left|].
  exists r. split; [done|]. split; [done|]. intros x. rewrite H.
  destruct (finite_seg f1 b1 n1 x Hb1 Hn1) as [-> _].
  destruct (finite_seg f2 b2 n2 x Hb2 Hn2) as [-> _]. done.
Qed.

(** finite /\ infinite, with the infinite range cut at the far end of the finite one. *)
Lemma finite_infinite_core f1 b1 n1 f2 b2 :
  b1 <> 0 -> 1 <= n1 -> b2 <> 0 ->
  let t1 := f1 + b1 * (n1 - 1) in
  let t2 := last_of_in f2 b2 (if same_sign b1 b2 then t1 else f1) in
  ((seg_lo f1 b1 t1 <= seg_hi f1 b1 t1 /\ seg_lo f2 b2 t2 <= seg_hi f2 b2 t2) \/
   seg_hi f1 b1 t1 < seg_lo f2 b2 t2 \/ seg_hi f2 b2 t2 < seg_lo f1 b1 t1) /\
  (forall x, between (seg_lo f1 b1 t1) (Z.abs b1) (seg_hi f1 b1 t1) x ->
     (in_seq (denote (RInfinite f2 b2)) x <-> between (seg_lo f2 b2 t2) (Z.abs b2) (seg_hi f2 b2 t2) x)).
Proof.
  intros Hb1 Hn1 Hb2 t1 t2.
  destruct (finite_seg f1 b1 n1 0 Hb1 Hn1) as (_ & _ & Hl1). fold t1 in Hl1.
  set (bound := if same_sign b1 b2 then t1 else f1) in *.
  (* the bound is the upper end for a growing infinite range, else the lower end *)
  assert (Hbound : bound = if bool_decide (b2 > 0) then seg_hi f1 b1 t1 else seg_lo f1 b1 t1).
  { unfold bound, seg_hi, seg_lo. rewrite same_sign_spec by done.
    repeat case_bool_decide; try done; lia. }
  destruct (infinite_seg f2 b2 bound Hb2) as (_ & Hup & Hdn). fold t2 in Hup, Hdn.
  destruct (decide (b2 > 0)) as [Hp|Hp].
  - rewrite bool_decide_true in Hbound by done.
    destruct (Z_lt_le_dec bound f2) as [Hlt|Hge].
    + assert (Hlo2 : seg_lo f2 b2 t2 = f2) by (unfold seg_lo; by rewrite bool_decide_false by lia).
      split; [right; left; lia|]. intros x [Hx _]. split.
      * intros Hin. destruct (infinite_beyond f2 b2 x bound Hb2 Hin) as [H _]. specialize (H Hp Hlt). lia.
      * intros [Hx2 _]. lia.
    + destruct (Hup Hp Hge) as [H1 H2]. split; [by left|]. intros x [Hx _]. apply H2. lia.
  - rewrite bool_decide_false in Hbound by done. assert (Hn : b2 < 0) by lia.
    destruct (Z_lt_le_dec f2 bound) as [Hlt|Hge].
    + assert (Hhi2 : seg_hi f2 b2 t2 = f2) by (unfold seg_hi; by rewrite bool_decide_true by lia).
      split; [right; right; lia|]. intros x [Hx _]. split.
      * intros Hin. destruct (infinite_beyond f2 b2 x bound Hb2 Hin) as [_ H]. specialize (H Hn Hlt). lia.
      * intros [Hx2 _]. lia.
    + destruct (Hdn Hn Hge) as [H1 H2]. split; [by left|]. intros x [Hx _]. apply H2. lia.
Qed.

Lemma finite_infinite f1 b1 n1 f2 b2 :
  wf_range (RFinite f1 b1 n1) -> wf_range (RInfinite f2 b2) ->
  inter_ok (RFinite f1 b1 n1) (RInfinite f2 b2) (intersection (RFinite f1 b1 n1) (RInfinite f2 b2)).
Proof.
  intros [Hb1 Hn1] Hb2. cbn [intersection wf_range] in *.
  pose proof (finite_infinite_core f1 b1 n1 f2 b2 Hb1 Hn1 Hb2) as [Hc Hx].
  pose proof (finite_seg f1 b1 n1 0 Hb1 Hn1) as (_ & Hd1 & Hl1).
  set (t1 := f1 + b1 * (n1 - 1)) in *.
  pose proof (infinite_seg f2 b2 (if same_sign b1 b2 then t1 else f1) Hb2) as (Hd2 & _ & _).
  destruct (finite_intersection_spec f1 b1 t1 f2 b2 (last_of_in f2 b2 (if same_sign b1 b2 then t1 else f1)) Hb1 Hb2 Hd1 Hd2 Hc)
    as (r & E & W & H).
  exists r. split; [done|]. split; [done|]. intros x. rewrite H.
  destruct (finite_seg f1 b1 n1 x Hb1 Hn1) as [-> _]. fold t1. specialize (Hx x). tauto.
Qed.

Lemma infinite_finite f1 b1 f2 b2 n2 :
  wf_range (RInfinite f1 b1) -> wf_range (RFinite f2 b2 n2) ->
  inter_ok (RInfinite f1 b1) (RFinite f2 b2 n2) (intersection (RInfinite f1 b1) (RFinite f2 b2 n2)).
Proof.
  intros Hb1 [Hb2 Hn2]. cbn [intersection wf_range] in *.
  pose proof (finite_infinite_core f2 b2 n2 f1 b1 Hb2 Hn2 Hb1) as [Hc Hx].
  pose proof (finite_seg f2 b2 n2 0 Hb2 Hn2) as (_ & Hd2 & Hl2).
  set (t2 := f2 + b2 * (n2 - 1)) in *.
  pose proof (infinite_seg f1 b1 (if same_sign b2 b1 then t2 else f2) Hb1) as (Hd1 & _ & _).
  destruct (finite_intersection_spec f1 b1 (last_of_in f1 b1 (if same_sign b2 b1 then t2 else f2)) f2 b2 t2 Hb1 Hb2 Hd1 Hd2)
    as (r & E & W & H); [tauto|].
  exists r. split; [done|]. split; [done|]. intros x. rewrite H.
  destruct (finite_seg f2 b2 n2 x Hb2 Hn2) as [-> _]. fold t2. specialize (Hx x). tauto.
Qed.

Lemma make_infinite f b : b <> 0 -> make_range f b None None None None = Val (RInfinite f b).
Proof.
  intros. unfold make_range. rewrite (bool_decide_false (b = 0)) by done.
  by destruct (bool_decide (b > 0)).
Qed.

Lemma infinite_infinite f1 b1 f2 b2 :
  wf_range (RInfinite f1 b1) -> wf_range (RInfinite f2 b2) -> b1 > 0 \/ b2 > 0 \/ b1 = b2 ->
  inter_ok (RInfinite f1 b1) (RInfinite f2 b2) (intersection (RInfinite f1 b1) (RInfinite f2 b2)).
Proof.
  intros Hb1 Hb2 Hs. cbn [intersection wf_range] in *. rewrite same_sign_spec by done.
  assert (Hempty : forall x, ~ in_seq (denote REmpty) x).
  { intros x [k Hk]. cbn [denote] in Hk. unfold progression in Hk. case_bool_decide; [lia|done]. }
  case_bool_decide as Hsame.
  - destruct (decide (b1 > 0)) as [Hp|Hp].
    + unfold first_intersection. rewrite (bool_decide_false (b1 < 0)) by lia.
      pose proof (first_intersection_up_spec f1 b1 f2 b2 Hp ltac:(lia)) as H.
      pose proof (lcm_pos b1 b2 Hp ltac:(lia)) as HL.
      destruct (first_intersection_up f1 b1 f2 b2) as [m|].
      * rewrite dylan_lcm_pos by lia. rewrite make_infinite by lia.
        eexists. split; [reflexivity|]. split; [cbn; lia|]. intros x. rewrite !infinite_up by lia.
        rewrite !bool_decide_false by lia. rewrite H. done.
      * exists REmpty. split; [done|]. split; [done|]. intros x. rewrite !(infinite_up) by lia.
        rewrite !bool_decide_false by lia. specialize (H x). split; [by intros ?%Hempty|tauto].
    + assert (b1 = b2) as <- by lia. assert (Hn : b1 < 0) by lia.
      pose proof (first_intersection_down_spec f1 (- b1) f2 (- b1) ltac:(lia) ltac:(lia)) as H.
      rewrite Z.opp_involutive, Z.lcm_diag in H.
      destruct (first_intersection f1 b1 f2 b1) as [m|].
      * assert (El : dylan_lcm b1 b1 = b1).
        { unfold dylan_lcm, dylan_gcd, truncate_div. rewrite !(bool_decide_false (b1 = 0)) by lia.
          rewrite bool_decide_true by done. rewrite Z.max_id, Z.min_id, Z.quot_same by lia. lia. }
        rewrite El, make_infinite by lia. eexists. split; [reflexivity|]. split; [done|].
        intros x. rewrite !infinite_up by lia. rewrite !bool_decide_true by lia. rewrite H.
        replace (Z.abs (- b1)) with (- b1) by lia. done.
      * exists REmpty. split; [done|]. split; [done|]. intros x. rewrite !(infinite_up) by lia.
        rewrite !bool_decide_true by lia. specialize (H x). split; [by intros ?%Hempty|tauto].
  - (* opposite directions *)
    pose proof (infinite_seg f1 b1 f2 Hb1) as (Hd1 & Hu1 & Hn1).
    pose proof (infinite_seg f2 b2 f1 Hb2) as (Hd2 & Hu2 & Hn2).
    set (t1 := last_of_in f1 b1 f2) in *. set (t2 := last_of_in f2 b2 f1) in *.
    destruct (decide (b1 > 0)) as [Hp|Hp].
    + assert (Hb2n : b2 < 0) by lia.
      assert (Hlo1 : seg_lo f1 b1 t1 = f1) by (unfold seg_lo; by rewrite bool_decide_false by lia).
      assert (Hhi2 : seg_hi f2 b2 t2 = f2) by (unfold seg_hi; by rewrite bool_decide_true by lia).
      destruct (Z_lt_le_dec f2 f1) as [Hlt|Hge].
      * destruct (finite_intersection_spec f1 b1 t1 f2 b2 t2 Hb1 Hb2 Hd1 Hd2) as (r & E & W & H).
        { right. right. lia. }
        exists r. split; [done|]. split; [done|]. intros x. rewrite H. split.
        { intros [[Hx1 _] [Hx2 _]]. exfalso. lia. }
        intros [Hi1 Hi2]. exfalso. 
        destruct (infinite_beyond f1 b1 x f2 Hb1 Hi1) as [HA _]. specialize (HA Hp Hlt).
        destruct (infinite_beyond f2 b2 x f1 Hb2 Hi2) as [_ HB]. specialize (HB Hb2n Hlt).
        rewrite infinite_up in Hi1, Hi2 by done. rewrite (bool_decide_false (b1 < 0)) in Hi1 by lia.
        rewrite (bool_decide_true (b2 < 0)) in Hi2 by lia. unfold up, down in *. lia.
      * destruct (Hu1 Hp Hge) as [Hs1 HA]. destruct (Hn2 Hb2n Hge) as [Hs2 HB].
        destruct (finite_intersection_spec f1 b1 t1 f2 b2 t2 Hb1 Hb2 Hd1 Hd2) as (r & E & W & H).
        { left. done. }
        exists r. split; [done|]. split; [done|]. intros x. rewrite H. split.
        -- intros [Hx1 Hx2]. pose proof Hx1 as [? _]. pose proof Hx2 as [? _].
           split; [apply HA; [lia|done]|apply HB; [lia|done]].
        -- intros [Hi1 Hi2].
           assert (f1 <= x <= f2).
           { rewrite infinite_up in Hi1, Hi2 by done. rewrite (bool_decide_false (b1 < 0)) in Hi1 by lia.
             rewrite (bool_decide_true (b2 < 0)) in Hi2 by lia. unfold up, down in *. lia. }
           split; [apply HA; [lia|done]|apply HB; [lia|done]].
    + assert (Hb1n : b1 < 0) by lia. assert (Hp2 : b2 > 0) by lia.
      assert (Hlo2 : seg_lo f2 b2 t2 = f2) by (unfold seg_lo; by rewrite bool_decide_false by lia).
      assert (Hhi1 : seg_hi f1 b1 t1 = f1) by (unfold seg_hi; by rewrite bool_decide_true by lia).
      destruct (Z_lt_le_dec f1 f2) as [Hlt|Hge].
      * destruct (finite_intersection_spec f1 b1 t1 f2 b2 t2 Hb1 Hb2 Hd1 Hd2) as (r & E & W & H).
        { right. left. lia. }
        exists r. split; [done|]. split; [done|]. intros x. rewrite H. split.
        { intros [[Hx1 _] [Hx2 _]]. exfalso. lia. }
        intros [Hi1 Hi2]. exfalso. 
        rewrite infinite_up in Hi1, Hi2 by done. rewrite (bool_decide_true (b1 < 0)) in Hi1 by lia.
        rewrite (bool_decide_false (b2 < 0)) in Hi2 by lia. unfold up, down in *. lia.
      * destruct (Hn1 Hb1n Hge) as [Hs1 HA]. destruct (Hu2 Hp2 Hge) as [Hs2 HB].
        destruct (finite_intersection_spec f1 b1 t1 f2 b2 t2 Hb1 Hb2 Hd1 Hd2) as (r & E & W & H).
        { left. done. }
        exists r. split; [done|]. split; [done|]. intros x. rewrite H. split.
        -- intros [Hx1 Hx2]. pose proof Hx1 as [? _]. pose proof Hx2 as [? _].
           split; [apply HA; [lia|done]|apply HB; [lia|done]].
        -- intros [Hi1 Hi2].
           assert (f2 <= x <= f1).
           { rewrite infinite_up in Hi1, Hi2 by done. rewrite (bool_decide_true (b1 < 0)) in Hi1 by lia.
             rewrite (bool_decide_false (b2 < 0)) in Hi2 by lia. unfold up, down in *. lia. }
           split; [apply HA; [lia|done]|apply HB; [lia|done]].
Qed.

Lemma const_in f s x : wf_range (RConst f s) -> in_seq (denote (RConst f s)) x <-> x = f.
Proof.
  intros Hwf. destruct s as [n|]; cbn [denote wf_range] in *.
  - rewrite in_progression_fin. split; [intros (k & Hk & ->); lia|]. intros ->. exists 0. lia.
  - rewrite in_progression_inf. split; [intros (k & Hk & ->); lia|]. intros ->. exists 0. lia.
Qed.

Lemma constant_intersection_spec f s r : wf_range (RConst f s) -> wf_range r ->
  inter_ok (RConst f s) r (constant_intersection f r).
Proof.
  intros H1 H2. unfold constant_intersection.
  destruct (member f r) eqn:E.
  - apply member_spec in E; [|done]. eexists. split; [reflexivity|]. split; [cbn; lia|].
    intros x. rewrite const_in by done. change 1 with (1) at 2.
    change (RFinite f 1 1) with (RFinite f 1 1). cbn [denote]. rewrite (in_progression_fin f 1 1). split.
    + intros (k & Hk & ->). replace (f + k * 1) with f by lia. done.
    + intros [-> _]. exists 0. lia.
  - exists REmpty. split; [done|]. split; [done|]. intros x. rewrite const_in by done. split.
    + intros [k Hk]. cbn [denote] in Hk. unfold progression in Hk. case_bool_decide; [lia|done].
    + intros [-> Hin]. apply member_spec in Hin; [congruence|done].
Qed.

Lemma intersection_spec r1 r2 : wf_range r1 -> wf_range r2 ->
  (forall f1 b1 f2 b2, r1 = RInfinite f1 b1 -> r2 = RInfinite f2 b2 -> b1 > 0 \/ b2 > 0 \/ b1 = b2) ->
  inter_ok r1 r2 (intersection r1 r2).
Proof.
  intros H1 H2 Hs.
  assert (Hempty : forall x, ~ in_seq (denote REmpty) x).
  { intros x [k Hk]. cbn [denote] in Hk. unfold progression in Hk. case_bool_decide; [lia|done]. }
  destruct r1 as [|f1 s1|f1 b1 n1|f1 b1].
  - exists REmpty. split; [done|]. split; [done|]. intros x. specialize (Hempty x). tauto.
  - destruct r2 as [|f2 s2|f2 b2 n2|f2 b2].
    + exists REmpty. split; [done|]. split; [done|]. intros x. specialize (Hempty x). tauto.
    + cbn [intersection]. case_bool_decide as E.
      * subst. eexists. split; [reflexivity|].
        set (c := match s1 with Some _ => _ | None => _ end).
        split; [by destruct c|]. intros x. rewrite (const_in f2 s1), (const_in f2 s2) by done.
        destruct c; rewrite const_in by done; tauto.
      * exists REmpty. split; [done|]. split; [done|]. intros x. rewrite !const_in by done.
        specialize (Hempty x). split; [done|]. intros [-> ?]. done.
    + by apply (constant_intersection_spec f1 s1).
    + by apply (constant_intersection_spec f1 s1).
  - destruct r2 as [|f2 s2|f2 b2 n2|f2 b2].
    + exists REmpty. split; [done|]. split; [done|]. intros x. specialize (Hempty x). tauto.
    + apply inter_ok_sym. by apply (constant_intersection_spec f2 s2).
    + by apply finite_finite.
    + by apply finite_infinite.
  - destruct r2 as [|f2 s2|f2 b2 n2|f2 b2].
    + exists REmpty. split; [done|]. split; [done|]. intros x. specialize (Hempty x). tauto.
    + apply inter_ok_sym. by apply (constant_intersection_spec f2 s2).
    + by apply infinite_finite.
    + apply infinite_infinite; try done. by apply (Hs f1 b1 f2 b2).
Qed.
