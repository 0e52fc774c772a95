(** Proofs about integer/string conversion. *)
From Coq Require Import ZifyBool ZifyNat ZifyN Lia.
From Verif Require Import Base IntModel IntProofs NumStrModel NumStrSpec.
Local Open Scope Z_scope.
Local Open Scope outcome_scope.

Lemma int_result_ok z : fits z -> int_result z = Val z.
Proof.
  unfold fits, int_result. intros. rewrite min_integer_eq, max_integer_eq. rewrite bool_decide_true; [done|lia].
Qed.
Lemma int_result_bad z : ~ fits z -> int_result z = Signal "overflow"%string.
Proof.
  unfold fits, int_result. intros. rewrite min_integer_eq, max_integer_eq. rewrite bool_decide_false; [done|lia].
Qed.

Lemma number_characters_digit i : 0 <= i < 36 ->
  exists c, integer_to_character i = Val c /\ digit_of c i /\ (c = 48 <-> i = 0).
Proof.
  intros Hi. unfold integer_to_character. rewrite bool_decide_true by lia.
  assert (H : Forall (fun k => exists c, number_characters !! k = Some c /\ digit_of c (Z.of_nat k) /\ (c = 48 <-> k = 0%nat)) (seq 0 36)).
  { unfold digit_of. cbn [seq].
    repeat (apply List.Forall_cons; [eexists; split; [vm_compute; reflexivity|]; split; lia|]).
    apply List.Forall_nil. }
  rewrite Forall_forall in H. destruct (H (Z.to_nat i)) as (c & -> & Hd & H0).
  { apply elem_of_list_In, in_seq. lia. }
  exists c. rewrite Z2Nat.id in Hd by lia. split; [done|]. split; [done|]. lia.
Qed.

Lemma digit_lower c d : digit_of c d -> digit_of (char_lower c) d.
Proof. unfold digit_of, char_lower. case_bool_decide; lia. Qed.
Lemma numeral_lower base ds v : numeral base ds v -> numeral base (map char_lower ds) v.
Proof.
  induction 1; [constructor|]. rewrite map_app. cbn [map]. constructor; [done|by apply digit_lower|done].
Qed.
Lemma numeral_zeros base ds v k : 2 <= base -> numeral base ds v -> numeral base (replicate k 48 ++ ds) v.
Proof.
  intros Hb. induction 1 as [|ds v c d _ IH Hc Hd].
  - rewrite app_nil_r. induction k as [|k IH].
    + constructor.
    + replace (replicate (S k) 48) with (replicate k 48 ++ [48]) by (by rewrite <- replicate_S_end).
      replace 0 with (0 * base + 0) by lia. constructor; [done| |lia]. left. lia.
  - rewrite app_assoc. by constructor.
Qed.
Lemma numeral_nonneg base ds v : 2 <= base -> numeral base ds v -> 0 <= v.
Proof. intros Hb. induction 1 as [|ds v c d _ IH Hc Hd]; [lia|]. unfold digit_of in Hc. nia. Qed.

Lemma digits_loop_spec base fuel : 2 <= base <= 36 -> forall n buf,
  0 <= n < 2 ^ Z.of_nat fuel ->
  exists ds, digits_loop fuel n base buf = Val (buf ++ rev ds) /\ numeral base ds n /\
    (n = 0 -> ds = []) /\ (0 < n -> exists c ds', ds = c :: ds' /\ c <> 48).
Proof.
  intros Hb. induction fuel as [|fuel IH]; intros n buf Hn; cbn [digits_loop].
  - assert (n = 0) as -> by lia. rewrite bool_decide_true by done.
    exists []. cbn [rev]. rewrite app_nil_r. split; [done|]. split; [constructor|]. split; [done|lia].
  - case_bool_decide as H0.
    + subst. exists []. cbn [rev]. rewrite app_nil_r. split; [done|]. split; [constructor|]. split; [done|lia].
    + rewrite Z.rem_mod_nonneg, Z.quot_div_nonneg by lia.
      pose proof (Z.mod_pos_bound n base ltac:(lia)) as Hm. pose proof (Z.div_mod n base ltac:(lia)) as E.
      destruct (number_characters_digit (n mod base)) as (c & -> & Hc & Hc0); [lia|]. cbn [obind].
      assert (Hq : 0 <= n / base < 2 ^ Z.of_nat fuel).
      { split; [apply Z.div_pos; lia|]. apply Z.div_lt_upper_bound; [lia|].
        replace (Z.of_nat (S fuel)) with (Z.of_nat fuel + 1) in Hn by lia. rewrite Z.pow_add_r in Hn by lia. nia. }
      destruct (IH (n / base) (buf ++ [c]) Hq) as (ds & -> & Hds & H1 & H2).
      exists (ds ++ [c]). rewrite rev_app_distr. cbn [rev app]. rewrite <- app_assoc. split; [done|].
      split; [|split; [lia|]].
      * assert (En : n = n / base * base + n mod base) by lia.
        pose proof (numeral_snoc base ds (n / base) c (n mod base) Hds Hc ltac:(lia)) as Hns.
        by rewrite <- En in Hns.
      * intros _. destruct (decide (n / base = 0)) as [Hz|Hnz].
        -- rewrite (H1 Hz). exists c, []. split; [done|]. nia.
        -- destruct H2 as (c' & ds' & -> & Hne); [lia|]. by exists c', (ds' ++ [c]).
Qed.

Definition body (lower : bool) (c : Z) : Z := if lower then char_lower c else c.

Lemma rev_replicate {A} k (x : A) : rev (replicate k x) = replicate k x.
Proof.
  induction k as [|k IH]; [done|]. cbn [replicate rev]. rewrite IH. symmetry. apply replicate_cons_app.
Qed.
Lemma rev_body (g : Z -> Z) l k f : rev (map g (l ++ replicate k f)) = replicate k (g f) ++ rev (map g l).
Proof. rewrite map_app, rev_app_distr. f_equal. rewrite (fmap_replicate g). apply rev_replicate. Qed.

(** The shape of every printed integer. *)
Lemma print_spec n base size fill lower :
  fits n -> 2 <= base <= 36 ->
  exists ds k, integer_to_string n base size fill lower =
      Val ((if bool_decide (n < 0) then [45] else []) ++ replicate k (body lower fill) ++ ds) /\
    numeral base ds (Z.abs n) /\
    (n = 0 -> ds = [48]) /\ (n <> 0 -> exists c ds', ds = c :: ds' /\ c <> 48) /\
    let w := (if bool_decide (n < 0) then 1 else 0) + Z.of_nat (length ds) in
    Z.of_nat k = Z.max 0 (size - w).
Proof.
  intros Hn Hb. unfold integer_to_string. rewrite (bool_decide_true (2 <= base <= 36)) by done. cbn [negb].
  assert (Hfold : forall l, map (fun c => if lower then char_lower c else c) l = map (body lower) l) by done.
  assert (Hlow : forall ds v, numeral base ds v -> numeral base (map (body lower) ds) v).
  { intros ds v H. unfold body. destruct lower; [by apply numeral_lower|by rewrite map_id]. }
  assert (Hhead : forall c, c <> 48 -> body lower c <> 48).
  { intros c Hc. unfold body, char_lower. destruct lower; [|done]. case_bool_decide; lia. }
  unfold fits in Hn.
  destruct (decide (n < 0)) as [Hneg|Hneg].
  - rewrite !(bool_decide_true (n < 0)) by done. rewrite (bool_decide_false (n = 0)) by lia.
    assert (Hr : 0 <= - Z.rem n base < base).
    { rewrite <- Z.rem_opp_l by lia. apply Z.rem_bound_pos; lia. }
    assert (Hq : 0 <= - Z.quot n base /\ - Z.quot n base * base + - Z.rem n base = - n).
    { pose proof (Z.quot_rem n base ltac:(lia)).
      assert (Eq : - Z.quot n base = Z.quot (- n) base) by (rewrite Z.quot_opp_l; lia).
      rewrite Eq. split; [apply Z.quot_pos; lia|]. rewrite <- Eq. lia. }
    rewrite (int_result_ok (- Z.rem n base)) by (unfold fits; lia). cbn [obind].
    destruct (number_characters_digit (- Z.rem n base)) as (c & -> & Hc & Hc0); [lia|]. cbn [obind].
    assert (Hqf : fits (- Z.quot n base)).
    { unfold fits. nia. }
    rewrite (int_result_ok _ Hqf). cbn [obind app].
    destruct (digits_loop_spec base 64 Hb (- Z.quot n base) [c]) as (ds & -> & Hds & H0 & H1).
    { split; [lia|]. unfold fits in Hqf. change (Z.of_nat 64) with 64. lia. }
    cbn [obind]. rewrite Hfold. set (k := Z.to_nat _).
    exists (map (body lower) (ds ++ [c])), k. split; [|split; [|split; [lia|split]]].
    + f_equal. rewrite (map_app _ _ [45]), rev_app_distr, rev_body. cbn [map rev app].
      f_equal; [unfold body, char_lower; destruct lower; [by rewrite bool_decide_false by lia|done]|].
      f_equal. by rewrite map_app, map_rev, rev_involutive.
    + apply Hlow. replace (Z.abs n) with (- Z.quot n base * base + - Z.rem n base) by lia.
      constructor; [done|done|lia].
    + intros _. rewrite map_app. destruct (decide (- Z.quot n base = 0)) as [Hz|Hnz].
      * rewrite (H0 Hz). cbn [map app]. exists (body lower c), []. split; [done|]. apply Hhead.
        rewrite Hc0. lia.
      * destruct H1 as (c' & ds' & -> & Hne); [lia|]. exists (body lower c'), (map (body lower) ds' ++ [body lower c]).
        split; [done|by apply Hhead].
    + cbv zeta. unfold k. rewrite map_length, !app_length, rev_length. cbn [length]. lia.
  - rewrite !(bool_decide_false (n < 0)) by done. cbn [obind].
    destruct (digits_loop_spec base 64 Hb n (if bool_decide (n = 0) then [48] else [])) as (ds & -> & Hds & H0 & H1).
    { split; [lia|]. change (Z.of_nat 64) with 64. lia. }
    cbn [obind]. rewrite Hfold. set (k := Z.to_nat _).
    exists (map (body lower) (if bool_decide (n = 0) then [48] else ds)), k.
    split; [|split; [|split; [|split]]].
    + cbn [app]. rewrite rev_body. do 2 f_equal.
      case_bool_decide as Hz; [rewrite (H0 Hz); done|]. cbn [app]. by rewrite map_rev, rev_involutive.
    + apply Hlow. rewrite Z.abs_eq by lia. case_bool_decide as Hz; [|done].
      subst. change 0 with (0 * base + 0). apply (numeral_snoc base []); [constructor|left; lia|lia].
    + intros Hz. rewrite bool_decide_true by done. cbn [map]. unfold body, char_lower. destruct lower; [|done].
      by rewrite bool_decide_false by lia.
    + intros Hz. rewrite bool_decide_false by done. destruct H1 as (c & ds' & -> & Hne); [lia|].
      exists (body lower c), (map (body lower) ds'). split; [done|by apply Hhead].
    + cbv zeta. unfold k. rewrite map_length, app_length, rev_length. case_bool_decide as Hz.
      * rewrite (H0 Hz). cbn [length]. lia.
      * cbn [length]. lia.
Qed.

(** *** Parsing *)
Lemma whitespace_spec c : whitespace c = true <-> blank c.
Proof.
  unfold whitespace, blank. rewrite bool_decide_eq_true. rewrite !elem_of_cons, elem_of_nil. tauto.
Qed.

Lemma skip_white_run fuel pre ws rest stop :
  (length ws <= fuel)%nat -> Forall blank ws ->
  Z.of_nat (length pre + length ws) <= stop ->
  (length ws < fuel \/ stop = Z.of_nat (length pre + length ws))%nat ->
  (forall c rest', rest = c :: rest' -> Z.of_nat (length pre + length ws) < stop -> ~ blank c) ->
  skip_white fuel (pre ++ ws ++ rest) (Z.of_nat (length pre)) stop = Z.of_nat (length pre + length ws).
Proof.
  revert pre fuel. induction ws as [|w ws IH]; intros pre fuel Hf Hb Hs Hlt Hr.
  - rewrite Nat.add_0_r in *. destruct fuel as [|fuel]; [done|]. cbn [skip_white].
    case_bool_decide; [|done]. rewrite Nat2Z.id, lookup_app_r, Nat.sub_diag by lia. cbn [app].
    destruct rest as [|c rest]; [done|]. cbn [lookup list_lookup].
    destruct (whitespace c) eqn:E; [|done]. apply whitespace_spec in E. by destruct (Hr c rest).
  - cbn [length] in *. destruct fuel as [|fuel]; [lia|]. cbn [skip_white]. rewrite bool_decide_true by lia.
    rewrite Nat2Z.id, lookup_app_r, Nat.sub_diag by lia. cbn [app lookup list_lookup].
    apply Forall_cons in Hb as [Hw Hb]. apply whitespace_spec in Hw as ->.
    specialize (IH (pre ++ [w]) fuel). rewrite app_length in IH. cbn [length] in IH.
    rewrite <- app_assoc in IH. cbn [app] in IH.
    replace (Z.of_nat (length pre) + 1) with (Z.of_nat (length pre + 1)) by lia.
    rewrite IH; [lia|lia|done|lia|lia|]. intros c rest' -> H. apply (Hr c rest' eq_refl). lia.
Qed.

Lemma character_digit c d : digit_of c d -> character_to_integer c = Some d.
Proof.
  unfold digit_of, character_to_integer. intros [[? ->]|[[? ->]|[? ->]]]; repeat (case_bool_decide; try lia); f_equal; lia.
Qed.
Lemma character_digit_inv c d : character_to_integer c = Some d -> digit_of c d.
Proof.
  unfold digit_of, character_to_integer. repeat case_bool_decide; intros [= <-]; lia.
Qed.

Definition step (base sign v d : Z) : Z := v * base + d * sign.

Lemma fold_step_grow base sign vals v : 2 <= base -> sign = 1 \/ sign = -1 -> 0 <= v * sign ->
  Forall (fun d => 0 <= d) vals ->
  v * sign <= fold_left (step base sign) vals v * sign.
Proof.
  intros Hb Hs. revert v. induction vals as [|d vals IH]; intros v Hv Hd; cbn [fold_left]; [lia|].
  apply Forall_cons in Hd as [H0 Hd]. unfold step at 2.
  assert (v * sign <= (v * base + d * sign) * sign) by (destruct Hs; subst; nia).
  specialize (IH (v * base + d * sign) ltac:(lia) Hd). lia.
Qed.

Lemma read_digits_run base sign vals : 2 <= base -> sign = 1 \/ sign = -1 ->
  forall ds pre rest fuel stop v valid,
  Forall2 (fun c d => digit_of c d /\ d < base) ds vals ->
  fits v -> 0 <= v * sign ->
  (length ds < fuel \/ (length ds <= fuel /\ stop = Z.of_nat (length pre + length ds)))%nat ->
  Z.of_nat (length pre + length ds) <= stop ->
  (forall c rest', rest = c :: rest' -> Z.of_nat (length pre + length ds) < stop ->
     forall d, digit_of c d -> base <= d) ->
  (Z.of_nat (length pre + length ds) < stop -> rest <> []) ->
  read_digits fuel (pre ++ ds ++ rest) (Z.of_nat (length pre)) stop base sign v valid =
  let v' := fold_left (step base sign) vals v in
  if bool_decide (- 2 ^ 61 <= v' < 2 ^ 61)
  then Val (v', valid || bool_decide (ds <> []), Z.of_nat (length pre + length ds))
  else Signal "overflow"%string.
Proof.
  intros Hb Hs. induction vals as [|d vals IH]; intros ds pre rest fuel stop v valid Hds Hv Hvs Hf Hstop Hr Hne.
  - apply Forall2_nil_inv_r in Hds as ->. cbn [fold_left length app] in *. rewrite Nat.add_0_r in *. cbv zeta.
    rewrite (bool_decide_true (_ <= _ < _)) by apply Hv.
    rewrite (bool_decide_false ([] <> [])) by naive_solver. rewrite orb_false_r.
    destruct fuel as [|fuel]; cbn [read_digits]; (destruct (decide (Z.of_nat (length pre) < stop)) as [Hlt|Hge];
      [rewrite bool_decide_true by done|rewrite bool_decide_false by done; repeat f_equal; lia]).
    + lia.
    + rewrite Nat2Z.id, lookup_app_r, Nat.sub_diag by lia. specialize (Hne Hlt).
      destruct rest as [|c rest]; [done|]. cbn [lookup list_lookup].
      destruct (character_to_integer c) as [d|] eqn:E; [|done]. apply character_digit_inv in E.
      rewrite bool_decide_true; [done|]. specialize (Hr c rest eq_refl Hlt d E). lia.
  - apply Forall2_cons_inv_r in Hds as (c & ds' & [Hc Hd] & Hds & ->). cbn [length] in *.
    destruct fuel as [|fuel]; [lia|]. cbn [read_digits]. rewrite (bool_decide_true (_ < stop)) by lia.
    rewrite Nat2Z.id, lookup_app_r, Nat.sub_diag by lia. cbn [app lookup list_lookup].
    rewrite (character_digit c d Hc). rewrite bool_decide_false by lia.
    cbn [fold_left]. cbv zeta. fold (step base sign v d).
    assert (Hd0 : 0 <= d) by (unfold digit_of in Hc; lia).
    assert (Hpos : Forall (fun d => 0 <= d) vals).
    { clear -Hds. induction Hds as [|x y xs ys [H _] _ IHd]; constructor; [unfold digit_of in H; lia|done]. }
    assert (Hstep0 : 0 <= step base sign v d * sign) by (unfold step; destruct Hs; subst; nia).
    pose proof (fold_step_grow base sign vals (step base sign v d) Hb Hs Hstep0 Hpos) as Hgrow.
    assert (Hsplit : fits (fold_left (step base sign) vals (step base sign v d)) -> fits (step base sign v d) /\ fits (v * base)).
    { unfold fits, step in *. destruct Hs; subst; split; nia. }
    destruct (decide (fits (step base sign v d))) as [Hfit|Hnfit].
    + assert (Hfp : fits (v * base)) by (unfold fits, step in *; destruct Hs; subst; nia).
      rewrite (int_result_ok _ Hfp). cbn [obind]. change (v * base + d * sign) with (step base sign v d).
      rewrite (int_result_ok _ Hfit). cbn [obind].
      specialize (IH ds' (pre ++ [c]) rest fuel stop (step base sign v d) true Hds Hfit Hstep0).
      rewrite app_length in IH. cbn [length] in IH. rewrite <- app_assoc in IH. cbn [app] in IH.
      replace (Z.of_nat (length pre) + 1) with (Z.of_nat (length pre + 1)) by lia.
      replace (length pre + S (length ds'))%nat with (length pre + 1 + length ds')%nat in * by lia.
      rewrite IH; [|lia|lia|done|done]. cbv zeta.
      rewrite (bool_decide_true (c :: ds' <> [])) by done. by rewrite orb_true_r.
    + rewrite (bool_decide_false (_ <= _ < _)).
      2:{ intros H. apply Hnfit, Hsplit. exact H. }
      destruct (decide (fits (v * base))) as [Hp|Hp].
      * rewrite (int_result_ok _ Hp). cbn [obind]. change (v * base + d * sign) with (step base sign v d).
        by rewrite (int_result_bad _ Hnfit).
      * by rewrite (int_result_bad _ Hp).
Qed.

Lemma numeral_fold base ds v : numeral base ds v ->
  exists vals, Forall2 (fun c d => digit_of c d /\ d < base) ds vals /\
    forall sign, fold_left (step base sign) vals 0 = v * sign.
Proof.
  induction 1 as [|ds v c d _ (vals & Hvals & Hf) Hc Hd].
  - exists []. split; [constructor|]. intros; cbn [fold_left]; lia.
  - exists (vals ++ [d]). split; [by apply Forall2_app; [|constructor; [|constructor]]|].
    intros sign. rewrite fold_left_app. cbn [fold_left]. rewrite Hf. unfold step. lia.
Qed.

Lemma numeral_head_digit base ds v : numeral base ds v -> ds <> [] -> exists c ds' d, ds = c :: ds' /\ digit_of c d.
Proof.
  intros H Hne. destruct (numeral_fold base ds v H) as (vals & Hvals & _).
  destruct Hvals as [|c d ds' vals [Hc _] _]; [done|]. by exists c, ds', d.
Qed.

(** string-to-integer finds blanks, an optional sign and the longest digit string. *)
Lemma parse_spec pre ws sgn s ds v rest base stop default :
  2 <= base <= 36 -> Forall blank ws -> sign_of sgn s -> numeral base ds v -> ds <> [] ->
  let str := pre ++ ws ++ sgn ++ ds ++ rest in
  let next := Z.of_nat (length pre + length ws + length sgn + length ds) in
  let last := match stop with Some e => e | None => Z.of_nat (length str) end in
  next <= last <= Z.of_nat (length str) ->
  (forall c rest', rest = c :: rest' -> next < last -> forall d, digit_of c d -> base <= d) ->
  string_to_integer str base (Z.of_nat (length pre)) stop default =
  if bool_decide (- 2 ^ 61 <= v * s < 2 ^ 61) then Val (v * s, next) else Signal "overflow"%string.
Proof.
  intros Hb Hws Hsgn Hnum Hne str next last Hlast Hrest. unfold string_to_integer.
  destruct (numeral_head_digit base ds v Hnum Hne) as (c0 & ds0 & d0 & Eds & Hd0).
  assert (Hlds : (1 <= length ds)%nat) by (rewrite Eds; cbn; lia).
  assert (Hlen : length str = (length pre + length ws + length sgn + length ds + length rest)%nat)
    by (unfold str; rewrite !app_length; lia).
  assert (Hg : bool_decide (Z.of_nat (length pre) = 0) ||
          bool_decide (Z.of_nat (length pre) > 0) && bool_decide (Z.of_nat (length pre) < Z.of_nat (length str)) = true).
  { destruct (decide (Z.of_nat (length pre) = 0)); [by rewrite (bool_decide_true (_ = 0))|].
    rewrite (bool_decide_true (_ > 0)), (bool_decide_true (_ < _)) by lia. by rewrite orb_true_r. }
  rewrite Hg. cbn [negb].
  assert (Hst : match stop with
          | Some e => negb (bool_decide (e >= Z.of_nat (length pre)) && bool_decide (e <= Z.of_nat (length str)))
          | None => false end = false).
  { destruct stop as [e|]; [|done]. cbv zeta in last. unfold last in *. rewrite !bool_decide_true by lia. done. }
  rewrite Hst. clear Hg Hst. rewrite (bool_decide_true (2 <= base <= 36)) by done. cbn [negb]. fold last.
  assert (Hskip : skip_white (length str) str (Z.of_nat (length pre)) last = Z.of_nat (length pre + length ws)).
  { apply skip_white_run; try done; try lia.
    intros c rest' E _. destruct Hsgn as [[-> ->]|[[-> ->]|[-> ->]]].
    - subst ds. cbn [app] in E. injection E as <- _. unfold digit_of, blank in *. lia.
    - cbn [app] in E. injection E as <- _. unfold blank. lia.
    - cbn [app] in E. injection E as <- _. unfold blank. lia. }
  rewrite Hskip. rewrite (bool_decide_true (_ < last)) by lia.
  rewrite Nat2Z.id.
  assert (Hlook : str !! (length pre + length ws)%nat = (sgn ++ ds ++ rest) !! 0%nat).
  { unfold str. rewrite app_assoc, lookup_app_r by (rewrite app_length; lia). f_equal. rewrite app_length. lia. }
  rewrite Hlook.
  set (sel := match (sgn ++ ds ++ rest) !! 0%nat with Some _ => _ | None => _ end).
  assert (Hsel : sel = (Z.of_nat (length pre + length ws + length sgn), s)).
  { unfold sel. destruct Hsgn as [[-> ->]|[[-> ->]|[-> ->]]]; cbn [app length].
    - rewrite Eds. cbn [app lookup list_lookup]. rewrite !bool_decide_false by (unfold digit_of in Hd0; lia).
      f_equal; lia.
    - cbn [lookup list_lookup]. rewrite bool_decide_true by done. f_equal; lia.
    - cbn [lookup list_lookup]. rewrite bool_decide_false, bool_decide_true by done. f_equal; lia. }
  rewrite Hsel. clear sel Hsel.
  destruct (numeral_fold base ds v Hnum) as (vals & Hvals & Hfold).
  assert (Hss : s = 1 \/ s = -1) by (destruct Hsgn as [[_ ->]|[[_ ->]|[_ ->]]]; lia).
  pose proof (read_digits_run base s vals ltac:(lia) Hss ds (pre ++ ws ++ sgn) rest (length str) last 0 false Hvals) as Hread.
  rewrite <- !app_assoc in Hread. fold str in Hread. rewrite !app_length in Hread.
  replace (length pre + (length ws + length sgn))%nat with (length pre + length ws + length sgn)%nat in Hread by lia.
  rewrite Hread; clear Hread; try lia; try done.
  - cbv zeta. rewrite Hfold. rewrite (bool_decide_true (ds <> [])) by done. cbn [orb].
    destruct (decide (- 2 ^ 61 <= v * s < 2 ^ 61)) as [Hok|Hok].
    + rewrite !bool_decide_true by exact Hok. done.
    + rewrite !bool_decide_false by exact Hok. done.
  - intros H ->. cbn [length] in Hlen. lia.
Qed.

(** No digit after the blanks and the sign: the default, or an error. *)
Lemma parse_none_spec pre ws sgn s rest base stop default :
  2 <= base <= 36 -> Forall blank ws -> sign_of sgn s ->
  let str := pre ++ ws ++ sgn ++ rest in
  let next := Z.of_nat (length pre + length ws + length sgn) in
  let last := match stop with Some e => e | None => Z.of_nat (length str) end in
  next <= last <= Z.of_nat (length str) -> (pre = [] \/ (length pre < length str)%nat) ->
  (forall c rest', rest = c :: rest' -> next < last ->
     (forall d, digit_of c d -> base <= d) /\ (sgn = [] -> ~ blank c /\ c <> 43 /\ c <> 45)) ->
  string_to_integer str base (Z.of_nat (length pre)) stop default =
  match default with Some d => Val (d, Z.of_nat (length pre)) | None => Signal "no integer found"%string end.
Proof.
  intros Hb Hws Hsgn str next last Hlast Hpre Hrest. unfold string_to_integer.
  assert (Hlen : length str = (length pre + length ws + length sgn + length rest)%nat)
    by (unfold str; rewrite !app_length; lia).
  assert (Hg : bool_decide (Z.of_nat (length pre) = 0) ||
          bool_decide (Z.of_nat (length pre) > 0) && bool_decide (Z.of_nat (length pre) < Z.of_nat (length str)) = true).
  { destruct (decide (Z.of_nat (length pre) = 0)); [by rewrite (bool_decide_true (_ = 0))|].
    destruct Hpre as [->|Hpre]; [cbn in *; lia|].
    rewrite (bool_decide_true (_ > 0)), (bool_decide_true (_ < _)) by lia. by rewrite orb_true_r. }
  rewrite Hg. cbn [negb].
  assert (Hst : match stop with
          | Some e => negb (bool_decide (e >= Z.of_nat (length pre)) && bool_decide (e <= Z.of_nat (length str)))
          | None => false end = false).
  { destruct stop as [e|]; [|done]. cbv zeta in last. unfold last in *. rewrite !bool_decide_true by lia. done. }
  rewrite Hst. clear Hg Hst. rewrite (bool_decide_true (2 <= base <= 36)) by done. cbn [negb]. fold last.
  assert (Hskip : skip_white (length str) str (Z.of_nat (length pre)) last = Z.of_nat (length pre + length ws)).
  { apply skip_white_run; try done; try lia.
    intros c rest' E Hlt. destruct Hsgn as [[-> ->]|[[-> ->]|[-> ->]]].
    - cbn [app] in E. cbn [length] in *. destruct (Hrest c rest' E) as [_ H]; [lia|]. by apply H.
    - cbn [app] in E. injection E as <- _. unfold blank. lia.
    - cbn [app] in E. injection E as <- _. unfold blank. lia. }
  rewrite Hskip. rewrite Nat2Z.id.
  assert (Hlook : str !! (length pre + length ws)%nat = (sgn ++ rest) !! 0%nat).
  { unfold str. rewrite app_assoc, lookup_app_r by (rewrite app_length; lia). f_equal. rewrite app_length. lia. }
  rewrite Hlook.
  set (sel := match (if bool_decide _ then _ else _) with Some _ => _ | None => _ end).
  assert (Hsel : sel = (Z.of_nat (length pre + length ws + length sgn), s)).
  { unfold sel. destruct Hsgn as [[-> ->]|[[-> ->]|[-> ->]]]; cbn [app length] in *.
    - rewrite Nat.add_0_r in *. case_bool_decide as Hlt; [|f_equal; lia]. destruct rest as [|c rest]; [cbn [lookup list_lookup]; f_equal; lia|].
      cbn [lookup list_lookup]. destruct (Hrest c rest eq_refl) as [_ H]; [lia|]. destruct (H eq_refl) as (_ & ? & ?).
      rewrite !bool_decide_false by done. done.
    - rewrite bool_decide_true by lia. cbn [lookup list_lookup]. rewrite bool_decide_true by done. f_equal; lia.
    - rewrite bool_decide_true by lia. cbn [lookup list_lookup]. rewrite bool_decide_false, bool_decide_true by done. f_equal; lia. }
  rewrite Hsel. clear sel Hsel.
  assert (Hss : s = 1 \/ s = -1) by (destruct Hsgn as [[_ ->]|[[_ ->]|[_ ->]]]; lia).
  pose proof (read_digits_run base s [] ltac:(lia) Hss [] (pre ++ ws ++ sgn) rest (length str) last 0 false) as Hread.
  rewrite <- !app_assoc in Hread. cbn [app] in Hread. fold str in Hread. rewrite !app_length in Hread.
  cbn [length] in Hread. rewrite Nat.add_0_r in Hread.
  replace (length pre + (length ws + length sgn))%nat with (length pre + length ws + length sgn)%nat in Hread by lia.
  rewrite Hread; clear Hread; try lia; try done.
  - intros c rest' E Hlt. by apply (Hrest c rest' E).
  - intros H ->. cbn [length] in Hlen. lia.
Qed.
