(** Integer literals. *)
From Verif Require Import Base LexTable LexModel LexSpec LexProofs LexPathProofs LitModel LitSpec LitProofs.
From Coq Require Import ZArith Lia ZifyBool ZifyNat.
Local Open Scope outcome_scope.
Local Open Scope Z_scope.

(** ** The state machine *)

Definition digit_b (radix c : Z) : bool := match digit_value c with Some d => d <? radix | None => false end.
Lemma digit_b_spec radix c : digit_b radix c = true <-> is_digit radix c.
Proof.
  unfold digit_b, is_digit. destruct (digit_value c) as [d|]; split; try discriminate.
  - intros H. exists d. split; [done | lia].
  - intros (d' & [= <-] & H). lia.
  - intros (d' & ? & _). discriminate.
Qed.
Lemma digit_not radix c : is_digit radix c -> c <> 10 /\ is_byte c /\ 48 <= c.
Proof. intros (d & H & _). unfold digit_value, is_byte in *. repeat case_match; try discriminate; lia. Qed.
Lemma digit_nonneg c d : digit_value c = Some d -> 0 <= d.
Proof. unfold digit_value. repeat case_match; try discriminate; intros [= <-]; lia. Qed.

Lemma run_group radix s g : plain s = true -> (forall c, is_digit radix c -> step s c = Some s) -> Forall (is_digit radix) g -> run s g = Some s.
Proof.
  intros Hp Hs. induction g as [|c g IH]; intros Hg; cbn; [done|]. apply Forall_cons in Hg as [Hc Hg]. rewrite (Hs c Hc), Hp. auto.
Qed.

Lemma run_groups radix s su : plain s = true -> plain su = true -> (forall c, is_digit radix c -> step s c = Some s) ->
  step s 95 = Some su -> (forall c, is_digit radix c -> step su c = Some s) ->
  forall gs s0, (forall c, is_digit radix c -> step s0 c = Some s) -> digit_groups radix gs -> run s0 (underscored gs) = Some s.
Proof.
  intros Hp Hpu Hs Hu Hsu. induction gs as [|g gs IH]; intros s0 Hs0 [Hne Hg]; [done|]. apply Forall_cons in Hg as [[Hgn Hgd] Hg].
  assert (run s0 g = Some s) as Hr.
  { destruct g as [|c g]; [done|]. apply Forall_cons in Hgd as [Hc Hgd]. cbn. rewrite (Hs0 c Hc), Hp. by eapply run_group. }
  destruct gs as [|g' gs]; [exact Hr|].
  change (underscored (g :: g' :: gs)) with (g ++ 95 :: underscored (g' :: gs)). rewrite run_app, Hr.
  change (run s (95 :: underscored (g' :: gs))) with (match step s 95 with Some s' => if plain s' then run s' (underscored (g' :: gs)) else None | None => None end).
  rewrite Hu, Hpu. apply IH; [done|]. split; [done | exact Hg].
Qed.

Lemma digits_step radix s s' :
  forallb (fun c => implb (digit_b radix c) (same_state (step s c) s')) all_codes = true -> forall c, is_digit radix c -> step s c = Some s'.
Proof. intros H c Hc. eapply (class_step (digit_b radix)); [exact H | by apply (digit_not radix) | by apply digit_b_spec]. Qed.

Lemma ends_stuck s post : Forall is_byte post -> then_ends_number post ->
  forallb (fun c => implb (ends_number c) (match step s c with None => true | Some _ => false end)) all_codes = true -> stuck s post.
Proof.
  intros Hb He H. destruct post as [|c post]; cbn; [done|]. apply Forall_cons in Hb as [Hb _]. eapply (class_stuck ends_number); eauto.
Qed.

(** The state a literal leads to. *)
Lemma run_integer lit z : integer_literal lit z ->
  exists s, run S_start lit = Some s /\ state_builder s = Some B_parse_integer_literal /\
    forall post, Forall is_byte post -> then_ends_number post -> stuck s post.
Proof.
  intros [gs Hg|gs Hg|gs Hg|x radix gs Hx Hg].
  - exists S_decimal. split_and!; [|reflexivity | intros; apply ends_stuck; auto; vm_compute; reflexivity].
    eapply (run_groups 10 S_decimal S_decimal_underscore); try exact Hg; try reflexivity; apply digits_step; vm_compute; reflexivity.
  - exists S_signed_decimal. split_and!; [|reflexivity | intros; apply ends_stuck; auto; vm_compute; reflexivity].
    change (run S_plus (underscored gs) = Some S_signed_decimal).
    eapply (run_groups 10 S_signed_decimal S_signed_decimal_underscore); try exact Hg; try reflexivity; apply digits_step; vm_compute; reflexivity.
  - exists S_signed_decimal. split_and!; [|reflexivity | intros; apply ends_stuck; auto; vm_compute; reflexivity].
    change (run S_minus (underscored gs) = Some S_signed_decimal).
    eapply (run_groups 10 S_signed_decimal S_signed_decimal_underscore); try exact Hg; try reflexivity; apply digits_step; vm_compute; reflexivity.
  - cbn in Hx.
    assert (exists s0 s su, step S_sharp x = Some s0 /\ plain s0 = true /\ plain s = true /\ plain su = true /\ state_builder s = Some B_parse_integer_literal /\
      step s 95 = Some su /\ (forall c, is_digit radix c -> step s0 c = Some s) /\ (forall c, is_digit radix c -> step s c = Some s) /\
      (forall c, is_digit radix c -> step su c = Some s) /\
      forallb (fun c => implb (ends_number c) (match step s c with None => true | Some _ => false end)) all_codes = true)
      as (s0 & s & su & H0 & Hp0 & Hp & Hpu & Hb & Hu & Hd0 & Hd & Hdu & He).
    { destruct Hx as [[= <- <-]|[[= <- <-]|[[= <- <-]|[[= <- <-]|[[= <- <-]|[[= <- <-]|[]]]]]]].
      1-2: exists S_sharp_b, S_binary_integer, S_binary_integer_underscore.
      3-4: exists S_sharp_o, S_octal_integer, S_octal_integer_underscore.
      5-6: exists S_sharp_x, S_hex_integer, S_hex_integer_underscore.
      all: split_and!; try reflexivity; apply digits_step; vm_compute; reflexivity. }
    exists s. split_and!; [|exact Hb | intros; by apply ends_stuck].
    change (match step S_sharp x with Some s' => if plain s' then run s' (underscored gs) else None | None => None end = Some s).
    rewrite H0, Hp0. by eapply (run_groups radix s su).
Qed.

Lemma integer_no_newline lit z : integer_literal lit z -> Forall (fun c => c <> 10) lit /\ lit <> [].
Proof.
  assert (forall radix gs, digit_groups radix gs -> Forall (fun c => c <> 10) (underscored gs) /\ underscored gs <> []) as Hg.
  { intros radix gs [Hne Hg]. induction gs as [|g gs IH]; [done|]. apply Forall_cons in Hg as [[Hgn Hgd] Hg].
    assert (Forall (fun c => c <> 10) g) as Hgg by (eapply Forall_impl; [exact Hgd | intros c Hc; by apply (digit_not radix)]).
    destruct gs as [|g' gs]; [done|]. destruct (IH ltac:(done) Hg) as [H1 H2].
    change (underscored (g :: g' :: gs)) with (g ++ 95 :: underscored (g' :: gs)). split; [|by destruct g].
    apply Forall_app. split; [done|]. by constructor. }
  intros [gs H|gs H|gs H|x radix gs Hx H]; destruct (Hg _ _ H) as [H1 H2]; (split; [|done || exact H2]); try exact H1; repeat constructor; try done.
  cbn in Hx. repeat destruct Hx as [[= <- <-]|Hx]; done.
Qed.

(** ** The value *)

Definition step_value (radix v c : Z) : Z := v * radix + default 0 (digit_value c).

Lemma value_mono radix cs v : 2 <= radix -> 0 <= v -> v <= fold_left (step_value radix) cs v.
Proof.
  intros Hr. revert v. induction cs as [|c cs IH]; intros v Hv; cbn; [lia|].
  assert (0 <= default 0 (digit_value c)). { destruct (digit_value c) as [d|] eqn:E; cbn; [by eapply digit_nonneg | lia]. }
  specialize (IH (step_value radix v c)). unfold step_value in *. nia.
Qed.

Definition digits_only (cs : list Z) : list Z := List.filter (fun c => negb (c =? 95)) cs.

Lemma parse_digits r contents radix finish : min_int r <= 0 <= max_int r -> 2 <= radix ->
  forall cs fuel posn v post, drop posn contents = cs ++ post -> Forall (fun c => c = 95 \/ is_digit radix c) cs ->
  finish = (posn + length cs)%nat -> (length cs < fuel)%nat -> 0 <= v ->
  parse_repeat r contents radix finish false fuel posn (- v) =
    (let total := fold_left (step_value radix) (digits_only cs) v in
     if min_int r <=? - total then Val (- total, finish) else Signal "integer-too-large") \/ ~ min_int r <= - v.
Proof.
  intros Hr Hrad. induction cs as [|c cs IH]; intros fuel posn v post Hd Hc Hfin Hf Hv; (destruct fuel as [|fuel]; [cbn in Hf; lia|]).
  { cbn [parse_repeat length] in *. replace (posn <? finish)%nat with false by lia. cbn.
    destruct (min_int r <=? - v) eqn:E; [left; f_equal; f_equal; lia | right; lia]. }
  destruct (decide (min_int r <= - v)) as [Hm|]; [|by right]. left.
  cbn [parse_repeat]. cbn [length] in *. replace (posn <? finish)%nat with true by lia.
  cbn in Hd. destruct (drop_cons_lookup _ _ _ _ Hd) as (-> & Hd' & _). apply Forall_cons in Hc as [Hc Hcs]. cbv zeta.
  destruct Hc as [->|Hc].
  - cbn [Z.leb Z.compare andb]. cbn. rewrite Nat.add_1_r. destruct (IH fuel (S posn) v post) as [->|]; auto; try lia.
  - assert (c =? 95 = false) as H95. { destruct Hc as (d & Hc & _). unfold digit_value in Hc. destruct (Z.eqb_spec c 95); [subst; discriminate | lia]. }
    assert (digits_only (c :: cs) = c :: digits_only cs) as -> by (unfold digits_only; cbn; by rewrite H95).
    cbn [fold_left]. destruct Hc as (d & Hc & Hlt). pose proof (digit_nonneg _ _ Hc) as Hd0.
    assert (step_value radix v c = v * radix + d) as Hsv by (unfold step_value; by rewrite Hc).
    pose proof (value_mono radix (digits_only cs) (step_value radix v c) Hrad ltac:(rewrite Hsv; nia)) as Hmono.
    assert (forall res, res = - step_value radix v c ->
      (if representable r res then parse_repeat r contents radix finish false fuel (posn + 1) res else Signal "integer-too-large") =
      (let total := fold_left (step_value radix) (digits_only cs) (step_value radix v c) in
       if min_int r <=? - total then Val (- total, finish) else Signal "integer-too-large")) as Hgo.
    { intros res ->. cbv zeta. unfold representable.
      destruct (min_int r <=? - step_value radix v c) eqn:E1; cbn [andb].
      - replace (- step_value radix v c <=? max_int r) with true by (symmetry; rewrite Hsv in *; nia). rewrite Nat.add_1_r.
        destruct (IH fuel (S posn) (step_value radix v c) post) as [->|]; auto; try lia.
      - replace (min_int r <=? - fold_left (step_value radix) (digits_only cs) (step_value radix v c)) with false by lia. reflexivity. }
    unfold digit_value in Hc.
    destruct ((48 <=? c) && (c <=? 57)); [injection Hc as <-; apply Hgo; lia|].
    destruct ((65 <=? c) && (c <=? 70)); [injection Hc as <-; apply Hgo; lia|].
    destruct ((97 <=? c) && (c <=? 102)); [injection Hc as <-; apply Hgo; lia | discriminate].
Qed.

Lemma underscored_digits radix gs : digit_groups radix gs ->
  Forall (fun c => c = 95 \/ is_digit radix c) (underscored gs) /\ digits_only (underscored gs) = concat gs /\
  exists c cs, underscored gs = c :: cs /\ is_digit radix c.
Proof.
  intros [Hne Hg]. induction gs as [|g gs IH]; [done|]. apply Forall_cons in Hg as [[Hgn Hgd] Hg].
  assert (digits_only g = g) as Hgo.
  { clear -Hgd. unfold digits_only. induction g as [|c g IH]; [done|]. apply Forall_cons in Hgd as [(d & Hc & _) Hgd]. cbn.
    unfold digit_value in Hc. destruct (Z.eqb_spec c 95); [subst; discriminate|]. cbn. by rewrite IH. }
  assert (Forall (fun c => c = 95 \/ is_digit radix c) g) as Hg1 by (eapply Forall_impl; [exact Hgd | auto]).
  destruct gs as [|g' gs].
  { cbn [underscored concat]. rewrite app_nil_r. split_and!; auto. destruct g as [|c g]; [done|]. apply Forall_cons in Hgd as [? ?]. eauto. }
  destruct (IH ltac:(done) Hg) as (H1 & H2 & _).
  change (underscored (g :: g' :: gs)) with (g ++ 95 :: underscored (g' :: gs)).
  change (concat (g :: g' :: gs)) with (g ++ concat (g' :: gs)). split_and!.
  - apply Forall_app. split; [done|]. constructor; auto.
  - rewrite <- H2. unfold digits_only in *. rewrite List.filter_app, Hgo. reflexivity.
  - destruct g as [|c g]; [done|]. apply Forall_cons in Hgd as [? ?]. cbn. eauto.
Qed.

(** A range of integers around 0 with one more negative than positive. *)
Definition range_ok (r : int_range) : Prop := 0 <= max_int r /\ min_int r = - max_int r - 1.

(** The text of a literal in a source. *)
Lemma parse_digits0 r contents radix gs post posn finish :
  range_ok r -> 2 <= radix -> digit_groups radix gs -> drop posn contents = underscored gs ++ post ->
  finish = (posn + length (underscored gs))%nat ->
  parse_repeat r contents radix finish false (S (finish - posn)) posn 0 =
    (if min_int r <=? - number radix (concat gs) then Val (- number radix (concat gs), finish) else Signal "integer-too-large").
Proof.
  intros [Hr1 Hr2] Hrad Hg Hd Hfin. destruct (underscored_digits radix gs Hg) as (Hc & Ho & _).
  destruct (parse_digits r contents radix finish ltac:(lia) Hrad (underscored gs) (S (finish - posn)) posn 0 post Hd Hc Hfin) as [H|H]; [lia | lia | | lia].
  change (-0) with 0 in H. rewrite H, Ho. reflexivity.
Qed.

Lemma parse_unsigned r contents radix gs post posn finish :
  range_ok r -> 2 <= radix -> digit_groups radix gs -> drop posn contents = underscored gs ++ post ->
  finish = (posn + length (underscored gs))%nat ->
  parse_integer r contents radix posn finish false =
    if representable r (number radix (concat gs)) then Val (number radix (concat gs), finish) else Signal "integer-too-large".
Proof.
  intros Hr Hrad Hg Hd Hfin. destruct (underscored_digits radix gs Hg) as (_ & _ & c & cs & Hu & Hc).
  unfold parse_integer. assert (contents !! posn = Some c) as ->. { rewrite Hu in Hd. by apply drop_cons_lookup in Hd as (? & _). }
  destruct (digit_not radix c Hc) as (_ & _ & H48). replace (c =? 45) with false by lia. replace (c =? 43) with false by lia. cbv zeta.
  rewrite (parse_digits0 r contents radix gs post posn finish) by done. pose proof (value_mono radix (concat gs) 0 Hrad ltac:(lia)) as Hm.
  change (fold_left (step_value radix) (concat gs) 0) with (number radix (concat gs)) in Hm.
  unfold generic_negative, representable. destruct Hr as [Hr1 Hr2].
  destruct (min_int r <=? - number radix (concat gs)) eqn:E1; cbn [obind].
  - rewrite Z.opp_involutive. destruct (_ && _); reflexivity.
  - replace (number radix (concat gs) <=? max_int r) with false by lia. rewrite andb_false_r. reflexivity.
Qed.

Lemma parse_integer_value r pre lit post z :
  range_ok r -> integer_literal lit z ->
  parse_integer_literal r (pre ++ lit ++ post) (length pre) (length pre + length lit) =
    if representable r z then Val z else Signal "integer-too-large".
Proof.
  intros Hr Hl.
  assert (forall c l, (pre ++ (c :: l) ++ post) !! length pre = Some c) as Hhead.
  { intros c l. rewrite lookup_app_r by lia. by rewrite Nat.sub_diag. }
  assert (forall c d l, (pre ++ (c :: d :: l) ++ post) !! (length pre + 1)%nat = Some d) as Hsecond.
  { intros c d l. rewrite lookup_app_r by lia. by replace (length pre + 1 - length pre)%nat with 1%nat by lia. }
  assert (forall l n, drop (length pre + n)%nat (pre ++ l ++ post) = drop n (l ++ post)) as Hdrop.
  { intros l n. rewrite <- drop_drop, drop_app. reflexivity. }
  destruct Hl as [gs Hg|gs Hg|gs Hg|x radix gs Hx Hg].
  - destruct (underscored_digits 10 gs Hg) as (_ & _ & c & cs & Hu & Hc). destruct (digit_not 10 c Hc) as (_ & _ & H48).
    unfold parse_integer_literal. assert ((pre ++ underscored gs ++ post) !! length pre = Some c) as -> by (rewrite Hu; apply Hhead).
    assert (c <> 35) as H35 by lia.
    rewrite (parse_unsigned r _ 10 gs post) by (first [assumption | lia | rewrite <- (Nat.add_0_r (length pre)), Hdrop; reflexivity]).
    destruct c as [|p|p]; try lia. repeat (destruct p as [p|p|]; try (destruct (representable _ _); reflexivity); try lia).
  - unfold parse_integer_literal. rewrite Hhead.
    unfold parse_integer. rewrite Hhead.
    change (43 =? 45) with false. change (43 =? 43) with true. cbv zeta. cbn [length].
    rewrite (parse_digits0 r _ 10 gs post) by (first [assumption | lia | rewrite Hdrop; reflexivity]).
    pose proof (value_mono 10 (concat gs) 0 ltac:(lia) ltac:(lia)) as Hm. change (fold_left (step_value 10) (concat gs) 0) with (number 10 (concat gs)) in Hm.
    unfold generic_negative, representable. destruct Hr as [Hr1 Hr2].
    destruct (min_int r <=? - number 10 (concat gs)) eqn:E1; cbn [obind].
    + rewrite Z.opp_involutive. destruct (_ && _); reflexivity.
    + replace (number 10 (concat gs) <=? max_int r) with false by lia. rewrite andb_false_r. reflexivity.
  - unfold parse_integer_literal. rewrite Hhead.
    unfold parse_integer. rewrite Hhead.
    change (45 =? 45) with true. cbv zeta. cbn [length].
    rewrite (parse_digits0 r _ 10 gs post) by (first [assumption | lia | rewrite Hdrop; reflexivity]).
    pose proof (value_mono 10 (concat gs) 0 ltac:(lia) ltac:(lia)) as Hm. change (fold_left (step_value 10) (concat gs) 0) with (number 10 (concat gs)) in Hm.
    unfold representable. destruct Hr as [Hr1 Hr2]. replace (- number 10 (concat gs) <=? max_int r) with true by lia. rewrite andb_true_r.
    destruct (min_int r <=? - number 10 (concat gs)); reflexivity.
  - unfold parse_integer_literal. rewrite Hhead.
    rewrite Hsecond.
    assert (2 <= radix /\ (if (x =? 98) || (x =? 66) then Val 2 else if (x =? 111) || (x =? 79) then Val 8
              else if (x =? 120) || (x =? 88) then Val 16 else Signal "unexpected integer literal prefix") = Val radix) as [Hrad ->].
    { cbn in Hx. repeat destruct Hx as [[= <- <-]|Hx]; (split; [lia | reflexivity]) || done. }
    cbn [obind length].
    rewrite (parse_unsigned r _ radix gs post) by (first [assumption | cbn [length]; lia | rewrite Hdrop; reflexivity]).
    destruct (representable _ _); reflexivity.
Qed.

Lemma integer_token r pre lit post z lx fuel :
  range_ok r -> Forall is_byte (pre ++ lit ++ post) -> integer_literal lit z -> then_ends_number post ->
  lx_position lx = length pre -> (length lit < fuel)%nat ->
  get_token r fuel (pre ++ lit ++ post) lx =
    if representable r z then
      Val (Token (Some B_parse_integer_literal) (length pre) (lx_line lx) (Z.of_nat (length pre) - Z.of_nat (lx_line_start lx))
             (length pre + length lit) (lx_line lx) (Z.of_nat (length pre + length lit) - Z.of_nat (lx_line_start lx)),
           LInteger z, Lexer (length pre + length lit) (lx_line lx) (lx_line_start lx) (lx_counts lx))
    else Signal "integer-too-large".
Proof.
  intros Hr Hb Hl Hp Hpos Hf. destruct (run_integer lit z Hl) as (s & Hrun & Hbl & Hst).
  destruct (integer_no_newline lit z Hl) as [Hn _].
  assert (Forall is_byte post) as Hbp by (apply Forall_app in Hb as [_ Hb]; by apply Forall_app in Hb as [_ Hb]).
  unfold get_token. rewrite (scan_plain _ pre lit post lx s _ fuel eq_refl Hb Hn Hpos Hrun Hbl (Hst post Hbp Hp) Hf). cbn [obind].
  cbv zeta. cbn [tk_builder tk_start tk_end]. rewrite (parse_integer_value r pre lit post z Hr Hl). destruct (representable r z); reflexivity.
Qed.
