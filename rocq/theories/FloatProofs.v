(** Floating-point literals: the path of the state machine and the decimal number. *)
From Verif Require Import Base LexTable LexModel LexSpec LexProofs LexPathProofs LitModel LitSpec LitProofs LitIntProofs FloatSpec.
From Coq Require Import ZArith QArith Qpower Lia ZifyBool ZifyNat Lqa.
Local Open Scope outcome_scope.
Local Open Scope Z_scope.

(** ** The state machine *)

Definition float_state (s : lstate) : Prop :=
  state_builder s = Some B_parse_fp_literal /\ (forall post, Forall is_byte post -> then_ends_word post -> stuck s post).

Lemma word_stuck s post : Forall is_byte post -> then_ends_word post ->
  forallb (fun c => implb (ends_word c) (match step s c with None => true | Some _ => false end)) all_codes = true -> stuck s post.
Proof.
  intros Hb He H. destruct post as [|c post]; cbn; [done|]. apply Forall_cons in Hb as [Hb _]. eapply (class_stuck ends_word); eauto.
Qed.

Lemma float_states : float_state S_decimal_dot /\ float_state S_decimal_dot_decimal /\ float_state S_fp_exp /\ float_state S_decimal_exp.
Proof. split_and!; (split; [reflexivity | intros; apply word_stuck; auto; vm_compute; reflexivity]). Qed.

(** Digits of a fraction, alternately through two states. *)
Lemma run_fraction ds s : Forall (is_digit 10) ds -> (s = S_decimal_dot \/ s = S_decimal_dot_decimal) ->
  exists s', run s ds = Some s' /\ (s' = S_decimal_dot \/ s' = S_decimal_dot_decimal).
Proof.
  revert s. induction ds as [|c ds IH]; intros s Hd Hs; [exists s; done|]. apply Forall_cons in Hd as [Hc Hd]. cbn [run].
  destruct Hs as [-> | ->].
  - rewrite (digits_step 10 S_decimal_dot S_decimal_dot_decimal ltac:(vm_compute; reflexivity) c Hc). cbn [plain state_action state_builder]. apply IH; auto.
  - rewrite (digits_step 10 S_decimal_dot_decimal S_decimal_dot ltac:(vm_compute; reflexivity) c Hc). cbn [plain state_action state_builder]. apply IH; auto.
Qed.

Lemma run_digits s s' ds : ds <> [] -> Forall (is_digit 10) ds -> plain s' = true ->
  forallb (fun c => implb (digit_b 10 c) (same_state (step s c) s')) all_codes = true ->
  forallb (fun c => implb (digit_b 10 c) (same_state (step s' c) s')) all_codes = true -> run s ds = Some s'.
Proof.
  intros Hne Hd Hp H1 H2. destruct ds as [|c ds]; [done|]. apply Forall_cons in Hd as [Hc Hd]. cbn [run].
  rewrite (digits_step 10 s s' H1 c Hc), Hp. eapply run_group; eauto. by apply digits_step.
Qed.

Lemma run_exponent s m sg ds : (s = S_decimal_dot \/ s = S_decimal_dot_decimal \/ s = S_signed_decimal) ->
  In m (map fst markers) -> In sg signs -> Forall (is_digit 10) ds -> ds <> [] -> run s (m :: sg ++ ds) = Some S_fp_exp.
Proof.
  intros Hs Hm Hsg Hd Hne.
  assert (run s [m] = Some S_fp_e) as Hr.
  { cbn in Hm. destruct Hs as [-> | [-> | ->]]; decompose [or] Hm; subst; try reflexivity; done. }
  change (m :: sg ++ ds) with ([m] ++ sg ++ ds). rewrite run_app, Hr. cbn in Hsg. destruct Hsg as [<- | [<- | [<- | []]]]; cbn [app].
  - apply run_digits; auto; vm_compute; reflexivity.
  - change (run S_fp_e_sign ds = Some S_fp_exp). apply run_digits; auto; vm_compute; reflexivity.
  - change (run S_fp_e_sign ds = Some S_fp_exp). apply run_digits; auto; vm_compute; reflexivity.
Qed.

Lemma run_whole_exponent m sg ds : In m (map fst markers) -> In sg signs -> Forall (is_digit 10) ds -> ds <> [] ->
  run S_decimal (m :: sg ++ ds) = Some S_decimal_exp.
Proof.
  intros Hm Hsg Hd Hne.
  assert (run S_decimal [m] = Some S_decimal_e) as Hr by (cbn in Hm; decompose [or] Hm; subst; try reflexivity; done).
  change (m :: sg ++ ds) with ([m] ++ sg ++ ds). rewrite run_app, Hr. cbn in Hsg. destruct Hsg as [<- | [<- | [<- | []]]]; cbn [app].
  - apply run_digits; auto; vm_compute; reflexivity.
  - change (run S_decimal_e_sign ds = Some S_decimal_exp). apply run_digits; auto; vm_compute; reflexivity.
  - change (run S_decimal_e_sign ds = Some S_decimal_exp). apply run_digits; auto; vm_compute; reflexivity.
Qed.

Lemma run_one s c cs s' : step s c = Some s' -> plain s' = true -> run s (c :: cs) = run s' cs.
Proof. intros H Hp. cbn. by rewrite H, Hp. Qed.
Lemma run_on s cs ds s' : run s cs = Some s' -> run s (cs ++ ds) = run s' ds.
Proof. intros H. by rewrite run_app, H. Qed.

(** The state after a sign and whole digits. *)
Lemma run_whole sg ip rest : In sg signs -> Forall (is_digit 10) ip -> ip <> [] ->
  run S_start (sg ++ ip ++ rest) = run (match sg with [] => S_decimal | _ => S_signed_decimal end) rest.
Proof.
  intros Hsg Hd Hne. cbn in Hsg. destruct Hsg as [<- | [<- | [<- | []]]]; cbn [app].
  - apply run_on. apply run_digits; auto; vm_compute; reflexivity.
  - rewrite (run_one S_start 43 _ S_plus) by reflexivity. apply run_on. apply run_digits; auto; vm_compute; reflexivity.
  - rewrite (run_one S_start 45 _ S_minus) by reflexivity. apply run_on. apply run_digits; auto; vm_compute; reflexivity.
Qed.

Lemma run_point sg ip fp : In sg signs -> Forall (is_digit 10) ip -> Forall (is_digit 10) fp -> ip ++ fp <> [] ->
  exists s, run S_start (sg ++ ip ++ 46 :: fp) = Some s /\ (s = S_decimal_dot \/ s = S_decimal_dot_decimal).
Proof.
  intros Hsg Hd1 Hd2 Hne. destruct ip as [|c ip].
  - cbn [app] in *. cbn in Hsg. destruct Hsg as [<- | [<- | [<- | []]]]; cbn [app].
    + rewrite (run_one S_start 46 _ S_dot) by reflexivity. destruct fp as [|c fp]; [done|]. apply Forall_cons in Hd2 as [Hc Hd2].
      rewrite (run_one S_dot c fp S_decimal_dot_decimal); [apply run_fraction; auto | | reflexivity].
      by apply (digits_step 10 S_dot S_decimal_dot_decimal ltac:(vm_compute; reflexivity)).
    + rewrite (run_one S_start 43 _ S_plus), (run_one S_plus 46 _ S_decimal_dot) by reflexivity. apply run_fraction; auto.
    + rewrite (run_one S_start 45 _ S_minus), (run_one S_minus 46 _ S_decimal_dot) by reflexivity. apply run_fraction; auto.
  - rewrite run_whole by done. destruct sg as [|x sg].
    + rewrite (run_one S_decimal 46 _ S_decimal_dot) by reflexivity. apply run_fraction; auto.
    + rewrite (run_one S_signed_decimal 46 _ S_decimal_dot) by reflexivity. apply run_fraction; auto.
Qed.

Lemma run_float p : well_formed p -> exists s, run S_start (spelled p) = Some s /\ float_state s.
Proof.
  destruct float_states as (F1 & F2 & F3 & F4).
  intros (Hsg & Hd & Hne & Hpe & He). unfold spelled, mantissa_digits in *. destruct p as [sg ip fr ex]. cbn [f_sign f_whole f_fraction f_exponent] in *.
  apply Forall_app in Hd as [Hd1 Hd2]. destruct fr as [fp|].
  - destruct (run_point sg ip fp Hsg Hd1 Hd2 Hne) as (s & Hr & Hs).
    rewrite (app_assoc ip), (app_assoc sg), (run_on _ _ _ _ Hr).
    destruct ex as [[[m esg] ds]|].
    + destruct He as (Hm & Hes & Hds & Hn). exists S_fp_exp. split; [|done]. apply run_exponent; auto. tauto.
    + exists s. split; [done|]. destruct Hs as [-> | ->]; done.
  - destruct ex as [[[m esg] ds]|]; [|by destruct Hpe]. destruct He as (Hm & Hes & Hds & Hn). cbn [default from_option] in Hne. rewrite app_nil_r in Hne. cbn [app].
    rewrite run_whole by done. destruct sg as [|x sg].
    + exists S_decimal_exp. split; [|done]. by apply run_whole_exponent.
    + exists S_fp_exp. split; [|done]. apply run_exponent; auto.
Qed.

(** ** atof *)

Lemma digit10 c : is_digit 10 c -> 48 <= c <= 57 /\ digit_value c = Some (c - 48).
Proof.
  intros (d & H & Hd). unfold digit_value in *. destruct ((48 <=? c) && (c <=? 57)) eqn:E; [split; [lia | done]|].
  repeat case_match; try discriminate; injection H as <-; lia.
Qed.

(** The digits that are used, of those that are left. *)
Definition used (digits : Z) (ds : list Z) : nat := Nat.min (Z.to_nat (18 - digits)) (length ds).

Lemma atof_digits ds : Forall (is_digit 10) ds -> forall rest a, 0 <= af_digits a ->
  atof_mantissa (ds ++ rest) a = atof_mantissa rest
    (AFloat (af_class a) (fold_left (step_value 10) (take (used (af_digits a) ds) ds) (af_mantissa a))
       (option_map (fun sc => sc * 10 ^ Z.of_nat (used (af_digits a) ds)) (af_scale a))
       (match af_scale a with None => af_shift a + Z.of_nat (length ds - used (af_digits a) ds) | Some _ => af_shift a end)
       (af_digits a + Z.of_nat (length ds))).
Proof.
  intros Hd. induction Hd as [|c ds Hc Hd IH]; intros rest a H0.
  - unfold used. cbn [app length]. rewrite Nat.min_0_r. cbn. rewrite !Z.add_0_r. destruct a as [k m [sc|] sh dg]; cbn; [rewrite Z.mul_1_r|]; reflexivity.
  - destruct (digit10 c Hc) as [Hr Hv]. cbn [app atof_mantissa]. replace ((48 <=? c) && (c <=? 57)) with true by lia.
    destruct (af_digits a <? 18) eqn:E.
    + rewrite IH by (cbn; lia). cbn [af_class af_mantissa af_scale af_shift af_digits].
      assert (used (af_digits a) (c :: ds) = S (used (af_digits a + 1) ds)) as -> by (unfold used; cbn [length]; lia).
      cbn [take fold_left length]. replace (step_value 10 (af_mantissa a) c) with (af_mantissa a * 10 + (c - 48)) by (unfold step_value; rewrite Hv; reflexivity).
      rewrite !Nat2Z.inj_succ, Z.pow_succ_r by lia.
      destruct (af_scale a) as [sc|]; cbn [option_map]; f_equal; f_equal; try lia. f_equal. rewrite <- Z.mul_assoc. reflexivity.
    + rewrite IH by (cbn; lia). cbn [af_class af_mantissa af_scale af_shift af_digits].
      assert (used (af_digits a) (c :: ds) = 0%nat) as -> by (unfold used; lia). assert (used (af_digits a + 1) ds = 0%nat) as -> by (unfold used; lia).
      cbn [take fold_left length]. destruct (af_scale a) as [sc|]; cbn [option_map]; f_equal; f_equal; lia.
Qed.

Lemma atof_exponent_digits ds : Forall (is_digit 10) ds -> forall v, atof_exponent ds v = Val (fold_left (step_value 10) ds v).
Proof.
  intros Hd. induction Hd as [|c ds Hc Hd IH]; intros v; [done|]. destruct (digit10 c Hc) as [Hr Hv]. cbn [atof_exponent fold_left].
  replace ((48 <=? c) && (c <=? 57)) with true by lia. rewrite IH. unfold step_value. by rewrite Hv.
Qed.

(** What atof is left with: the first 18 digits. *)
Definition kind_of (p : float_parts) : float_class :=
  match f_exponent p with
  | Some (m, _, _) => default FDefault (option_map snd (List.find (fun q => fst q =? m) markers))
  | None => FDefault
  end.
Lemma kind_of_is p : well_formed p -> kind_is p (kind_of p).
Proof.
  intros (_ & _ & _ & _ & H). unfold kind_is, kind_of. destruct (f_exponent p) as [[[m sg] ds]|]; [|done]. destruct H as (Hm & _).
  cbn in Hm. decompose [or] Hm; subst; cbn; tauto.
Qed.

Definition first18 (p : float_parts) : decimal :=
  let n := length (f_whole p) in
  Decimal (kind_of p) (sign_of (f_sign p)) (number 10 (take 18 (mantissa_digits p)))
    (10 ^ Z.of_nat (Nat.min (18 - n) (length (default [] (f_fraction p)))))
    (negb (minus_exponent p)) (Z.abs (exponent_of p) + Z.of_nat (n - 18)).

Lemma number_nonneg ds : 0 <= number 10 ds.
Proof. unfold number. change (0 <= fold_left (step_value 10) ds 0). apply value_mono; lia. Qed.

Lemma take_min {A} n (l : list A) : take (Nat.min n (length l)) l = take n l.
Proof. destruct (Nat.le_gt_cases n (length l)); [by rewrite Nat.min_l by lia|]. rewrite Nat.min_r by lia. rewrite !take_ge by lia. done. Qed.
Lemma take_app_18 {A} (l k : list A) : take 18 (l ++ k) = take 18 l ++ take (18 - length l) k.
Proof. apply firstn_app. Qed.

Lemma atof_spelled p : well_formed p -> atof (spelled p) = Val (first18 p).
Proof.
  intros (Hsg & Hd & Hne & Hpe & He). unfold first18, spelled, mantissa_digits, exponent_of, minus_exponent in *.
  destruct p as [sg ip fr ex]. cbn [f_sign f_whole f_fraction f_exponent] in *. apply Forall_app in Hd as [Hd1 Hd2].
  set (body := ip ++ (match fr with Some ds => 46 :: ds | None => [] end) ++ (match ex with Some (m, esg, ds) => m :: esg ++ ds | None => [] end)).
  assert (exists b bs, body = b :: bs /\ b <> 45 /\ b <> 43) as (b & bs & Eb & Hb1 & Hb2).
  { unfold body. destruct ip as [|c ip]; cbn [app].
    - destruct fr as [fp|]; cbn in Hne |- *; [eexists _, _; split; [reflexivity | lia] | done].
    - apply Forall_cons in Hd1 as [Hc _]. eexists _, _. split; [reflexivity|]. destruct (digit10 c Hc). lia. }
  unfold atof.
  assert ((match sg ++ body with 45 :: s' => (-1, s') | 43 :: s' => (1, s') | _ => (1, sg ++ body) end) = (sign_of sg, body)) as ->.
  { cbn in Hsg. destruct Hsg as [<- | [<- | [<- | []]]]; try reflexivity. cbn [app sign_of]. rewrite Eb.
    destruct b as [|q|q]; try reflexivity. repeat (destruct q as [q|q|]; try reflexivity); done. }
  unfold body. rewrite (atof_digits ip Hd1) by (cbn; lia). cbn [af_class af_mantissa af_scale af_shift af_digits option_map].
  set (ex' := match ex with Some (m, esg, ds) => m :: esg ++ ds | None => [] end).
  set (K := AFloat FDefault (number 10 (take 18 (ip ++ default [] fr))) (match fr with Some ds => Some (10 ^ Z.of_nat (Nat.min (18 - length ip) (length ds))) | None => None end)
              (Z.of_nat (length ip - 18)) (Z.of_nat (length ip + length (default [] fr)))).
  assert (forall rest, atof_mantissa ((match fr with Some ds => 46 :: ds | None => [] end) ++ rest)
     (AFloat FDefault (fold_left (step_value 10) (take (used 0 ip) ip) 0) None (0 + Z.of_nat (length ip - used 0 ip)) (0 + Z.of_nat (length ip))) =
     atof_mantissa rest K) as HK.
  { intros rest. unfold K. destruct fr as [fp|]; cbn [app default from_option id].
    - cbn [atof_mantissa]. change ((48 <=? 46) && (46 <=? 57)) with false. cbv iota. change (46 =? 46) with true. cbv iota.
      cbn [af_scale af_class af_mantissa af_shift af_digits].
      rewrite (atof_digits fp Hd2) by (cbn; lia). cbn [af_class af_mantissa af_scale af_shift af_digits option_map].
      f_equal. assert (used (0 + Z.of_nat (length ip)) fp = Nat.min (18 - length ip) (length fp)) as -> by (unfold used; lia).
      change (default [] (Some fp)) with fp. f_equal; try (unfold used; lia).
      + rewrite take_app_18. unfold number. rewrite fold_left_app. unfold used. rewrite !take_min. reflexivity.
      + f_equal. lia.
    - change (default [] (None : option (list Z))) with (@nil Z). rewrite app_nil_r. f_equal. unfold used. rewrite take_min. f_equal; cbn [length]; try lia. }
  rewrite HK. unfold ex'. destruct ex as [[[m esg] ds]|].
  - destruct He as (Hm & Hes & Hds & Hn).
    assert (atof_mantissa (m :: esg ++ ds) K =
      Val (AFloat (kind_of (FloatParts sg ip fr (Some (m, esg, ds)))) (af_mantissa K) (af_scale K) (af_shift K) (af_digits K), Some (esg ++ ds))) as ->.
    { assert (af_class K = FDefault) as HKc by reflexivity. clearbody K. clear -Hm HKc. destruct K as [k mm sc sh dd]. cbn in HKc. subst k.
      cbn in Hm. repeat (destruct Hm as [<- | Hm]; [reflexivity|]). done. }
    cbn [obind af_scale af_class af_mantissa af_shift af_digits].
    assert ((match esg ++ ds with 45 :: t' => (false, t') | 43 :: t' => (true, t') | _ => (true, esg ++ ds) end) =
            (match esg with [45] => false | _ => true end, ds)) as ->.
    { cbn in Hes. destruct Hes as [<- | [<- | [<- | []]]]; try reflexivity. cbn [app]. destruct ds as [|x ds]; [done|]. apply Forall_cons in Hds as [Hx _].
      destruct (digit10 x Hx) as [Hx' _]. destruct x as [|q|q]; try reflexivity. repeat (destruct q as [q|q|]; try reflexivity); lia. }
    rewrite (atof_exponent_digits ds Hds). cbn [obind]. f_equal. unfold K. cbn [af_scale af_class af_mantissa af_shift af_digits].
    change (fold_left (step_value 10) ds 0) with (number 10 ds). pose proof (number_nonneg ds) as Hnn. f_equal.
    + destruct fr as [fp|]; [reflexivity|]. change (default [] (None : option (list Z))) with (@nil Z). cbn [length]. rewrite Nat.min_0_r. reflexivity.
    + cbn in Hes. destruct Hes as [<- | [<- | [<- | []]]]; reflexivity.
    + f_equal. cbn in Hes. destruct Hes as [<- | [<- | [<- | []]]]; cbn [sign_of]; lia.
  - cbn [atof_mantissa obind af_scale af_class af_mantissa af_shift af_digits]. f_equal. unfold K. cbn [af_scale af_class af_mantissa af_shift af_digits]. f_equal.
    destruct fr as [fp|]; [reflexivity|]. change (default [] (None : option (list Z))) with (@nil Z). cbn [length]. rewrite Nat.min_0_r. reflexivity.
Qed.

(** ** The value *)

Lemma fold_step ds v : fold_left (step_value 10) ds v = v * 10 ^ Z.of_nat (length ds) + fold_left (step_value 10) ds 0.
Proof.
  revert v. induction ds as [|c ds IH]; intros v; cbn [fold_left length]; [cbn; lia|].
  rewrite IH, (IH (step_value 10 0 c)), Nat2Z.inj_succ, Z.pow_succ_r by lia. unfold step_value. ring.
Qed.
Lemma number_app l k : number 10 (l ++ k) = number 10 l * 10 ^ Z.of_nat (length k) + number 10 k.
Proof. unfold number. rewrite fold_left_app. apply fold_step. Qed.
Lemma number_bound ds : Forall (is_digit 10) ds -> number 10 ds < 10 ^ Z.of_nat (length ds).
Proof.
  induction ds as [|c ds IH]; intros Hd; [cbn; lia|]. apply Forall_cons in Hd as [Hc Hd]. specialize (IH Hd).
  change (c :: ds) with ([c] ++ ds). rewrite number_app. destruct (digit10 c Hc) as [Hr Hv].
  assert (number 10 [c] = c - 48) as -> by (unfold number; cbn [fold_left]; rewrite Hv; cbn; lia).
  change (length ([c] ++ ds)) with (S (length ds)). rewrite Nat2Z.inj_succ, Z.pow_succ_r by lia. nia.
Qed.

Lemma ten_plus a b : (ten_to (a + b) == ten_to a * ten_to b)%Q.
Proof. apply Qpower_plus. discriminate. Qed.
Lemma ten_nat n : 0 <= n -> (inject_Z (10 ^ n) == ten_to n)%Q.
Proof. intros H. unfold ten_to. rewrite Zpower_Qpower by done. reflexivity. Qed.
Lemma ten_pos e : (0 < ten_to e)%Q.
Proof. apply Qpower_0_lt. reflexivity. Qed.
Lemma ten_minus a b : (ten_to (a - b) == ten_to a / ten_to b)%Q.
Proof. unfold ten_to. apply Qpower_minus. discriminate. Qed.

Lemma sign_square sg : sign_of sg * sign_of sg = 1.
Proof. unfold sign_of. repeat case_match; reflexivity. Qed.

Lemma first18_value p : well_formed p -> (length (f_whole p) <= 18)%nat \/ minus_exponent p = false ->
  exists R, 0 <= R < 10 ^ Z.of_nat (length (mantissa_digits p) - 18) /\
  (float_value p == decimal_value (first18 p) +
     inject_Z (sign_of (f_sign p)) * inject_Z R * ten_to (exponent_of p - Z.of_nat (length (default [] (f_fraction p)))))%Q.
Proof.
  intros Hw Hc. pose proof Hw as (_ & Hd & _ & _ & He).
  set (ds := mantissa_digits p) in *. set (s := sign_of (f_sign p)). set (f := length (default [] (f_fraction p))). set (n := length (f_whole p)) in *.
  assert (length ds = n + f)%nat as Hlen by (unfold ds, mantissa_digits; by rewrite app_length).
  set (k := (length ds - 18)%nat). assert (length (drop 18 ds) = k) as Hk by (by rewrite drop_length).
  exists (number 10 (drop 18 ds)).
  split. { split; [apply number_nonneg|]. rewrite <- Hk. apply number_bound. by apply Forall_drop. }
  assert (number 10 ds = number 10 (take 18 ds) * 10 ^ Z.of_nat k + number 10 (drop 18 ds)) as Hn.
  { rewrite <- Hk, <- number_app. by rewrite take_drop. }
  unfold float_value, decimal_value, first18. cbn [d_sign d_mantissa d_scale d_up d_power]. fold ds s f n. rewrite Hn.
  set (e := exponent_of p) in *.
  assert ((if negb (minus_exponent p) then Z.abs e + Z.of_nat (n - 18) else - (Z.abs e + Z.of_nat (n - 18))) = e + Z.of_nat (n - 18)) as ->.
  { unfold e, exponent_of, minus_exponent in *. destruct (f_exponent p) as [[[m sg] es]|]; [|cbn; lia]. destruct He as (_ & Hsg & _ & _).
    pose proof (number_nonneg es). cbn in Hsg. destruct Hsg as [<- | [<- | [<- | []]]]; cbn [negb sign_of] in *; [lia | lia |].
    destruct Hc as [Hc|?]; [|discriminate]. replace (n - 18)%nat with 0%nat by lia. lia. }
  set (N := number 10 (take 18 ds)). set (R := number 10 (drop 18 ds)). set (n2 := Nat.min (18 - n) f).
  rewrite (ten_nat (Z.of_nat n2)) by lia.
  assert (inject_Z (s * (N * 10 ^ Z.of_nat k + R)) == inject_Z s * inject_Z N * ten_to (Z.of_nat k) + inject_Z s * inject_Z R)%Q as ->.
  { rewrite inject_Z_mult, inject_Z_plus, inject_Z_mult, ten_nat by lia. ring. }
  rewrite inject_Z_mult.
  assert (ten_to (e + Z.of_nat (n - 18)) == ten_to (Z.of_nat k) * ten_to (e - Z.of_nat f) * ten_to (Z.of_nat n2))%Q as ->.
  { rewrite <- !ten_plus. replace (Z.of_nat k + (e - Z.of_nat f) + Z.of_nat n2) with (e + Z.of_nat (n - 18)) by lia. reflexivity. }
  field. intros E. pose proof (ten_pos (Z.of_nat n2)) as P. rewrite E in P. by apply Qlt_irrefl in P.
Qed.

(** Exactly the number spelled when there are at most 18 digits, and otherwise less than one unit of the 18th
    digit nearer to zero. *)
Lemma first18_close p : well_formed p -> (length (f_whole p) <= 18)%nat \/ minus_exponent p = false ->
  let off := ((float_value p - decimal_value (first18 p)) * inject_Z (sign_of (f_sign p)))%Q in
  ((length (mantissa_digits p) <= 18)%nat -> decimal_value (first18 p) == float_value p)%Q /\
  (0 <= off < ten_to (exponent_of p + Z.of_nat (length (f_whole p)) - 18))%Q.
Proof.
  intros Hw Hc. destruct (first18_value p Hw Hc) as (R & [HR0 HR] & E). cbv zeta. rewrite E.
  set (V := decimal_value (first18 p)) in *. set (s := sign_of (f_sign p)) in *. set (T := ten_to (exponent_of p - Z.of_nat (length (default [] (f_fraction p))))) in *.
  assert (0 < T)%Q as HT by apply ten_pos.
  split.
  - intros H. replace (length (mantissa_digits p) - 18)%nat with 0%nat in HR by lia. change (10 ^ Z.of_nat 0) with 1 in HR. assert (R = 0) as -> by lia.
    change (inject_Z 0) with 0%Q. ring.
  - assert ((V + inject_Z s * inject_Z R * T - V) * inject_Z s == inject_Z (s * s) * inject_Z R * T)%Q as ->.
    { rewrite inject_Z_mult. ring. }
    unfold s. rewrite sign_square. change (inject_Z 1) with 1%Q. rewrite Qmult_1_l.
    assert (0 <= inject_Z R)%Q as H0 by (change 0%Q with (inject_Z 0); rewrite <- Zle_Qle; lia).
    split; [apply Qmult_le_0_compat; [done | by apply Qlt_le_weak]|].
    destruct (Nat.le_gt_cases 18 (length (mantissa_digits p))) as [H18|H18].
    + apply Qlt_le_trans with (inject_Z (10 ^ Z.of_nat (length (mantissa_digits p) - 18)) * T)%Q.
      * apply Qmult_lt_r; [done|]. rewrite <- Zlt_Qlt. lia.
      * rewrite ten_nat by lia. unfold T. rewrite <- ten_plus. unfold mantissa_digits in *. rewrite app_length in *.
        replace (Z.of_nat (length (f_whole p) + length (default [] (f_fraction p)) - 18) + (exponent_of p - Z.of_nat (length (default [] (f_fraction p)))))
          with (exponent_of p + Z.of_nat (length (f_whole p)) - 18) by lia. apply Qle_refl.
    + replace (length (mantissa_digits p) - 18)%nat with 0%nat in HR by lia. change (10 ^ Z.of_nat 0) with 1 in HR. assert (R = 0) as -> by lia.
      change (inject_Z 0) with 0%Q. rewrite Qmult_0_l. apply ten_pos.
Qed.
