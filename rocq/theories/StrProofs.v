(** String and character literals. *)
From Verif Require Import Base LexTable LexModel LexSpec LexProofs LexPathProofs LitModel LitSpec LitProofs LitIntProofs StrSpec.
From Coq Require Import ZArith Lia ZifyBool ZifyNat.
Local Open Scope outcome_scope.
Local Open Scope Z_scope.

(** ** The machine *)

(** Up to the end of a path through plain states. *)
Lemma repeat_run text : Forall is_byte text -> forall cs rest s s' pos v fuel,
  plain s = true -> run s cs = Some s' -> Forall (fun c => c <> 10) cs -> drop pos text = cs ++ rest ->
  exists w, repeat_ (S (length cs + fuel)) text s pos v = advance_ fuel text s' (pos + length cs) w /\
    start_pos w = start_pos v /\ start_line w = start_line v /\ start_line_start w = start_line_start v /\
    cur_line w = cur_line v /\ cur_line_start w = cur_line_start v /\ kounts w = kounts v.
Proof.
  intros Hb. induction cs as [|c cs IH]; intros rest s s' pos v fuel Hp Hr Hn Hd; rewrite repeat_plain by done; cbn in Hr.
  - injection Hr as ->. destruct (saved_fields v pos s') as (E1 & E2 & E3 & E4 & E5 & E6). exists (saved v pos s').
    cbn [length]. rewrite Nat.add_0_r. split_and!; auto.
  - destruct (step s c) as [s1|] eqn:Es; [|discriminate]. destruct (plain s1) eqn:Ep; [|discriminate].
    apply Forall_cons in Hn as [Hc Hn]. cbn in Hd. cbn [length Nat.add]. rewrite (advance_step _ _ _ _ _ _ _ _ Hd Hb Hc Es).
    destruct (drop_cons_lookup _ _ _ _ Hd) as (_ & Hd' & _).
    destruct (IH rest s1 s' (S pos) (saved v pos s) fuel Ep Hr Hn Hd') as (w & -> & H1 & H2 & H3 & H4 & H5 & H6).
    destruct (saved_fields v pos s) as (E1 & E2 & E3 & E4 & E5 & E6). rewrite E1, E2, E3, E4, E5, E6 in *.
    exists w. rewrite <- Nat.add_succ_comm. split_and!; auto.
Qed.

(** A token in double quotes: a prefix, a quote, and then [cs] (with the closing quote). *)
Lemma scan_quoted text pre pfx cs post lx s0 sq se b fuel :
  text = pre ++ (pfx ++ 34 :: cs) ++ post -> Forall is_byte text -> Forall (fun c => c <> 10) (pfx ++ 34 :: cs) ->
  lx_position lx = length pre -> lx_counts lx = Counts 0 0 0 0 ->
  run S_start pfx = Some s0 -> step s0 34 = Some sq -> state_action sq = Some A_increment_double_quote_start_count -> state_builder sq = None ->
  cs <> [] -> run sq cs = Some se -> state_builder se = Some b -> stuck se post -> (length (pfx ++ 34%Z :: cs) + 2 < fuel)%nat ->
  let fin := (length pre + length (pfx ++ 34%Z :: cs))%nat in
  scan fuel text lx =
    Val (Token (Some b) (length pre) (lx_line lx) (Z.of_nat (length pre) - Z.of_nat (lx_line_start lx))
               fin (lx_line lx) (Z.of_nat fin - Z.of_nat (lx_line_start lx)),
         Lexer fin (lx_line lx) (lx_line_start lx) (Counts 1 0 0 0)).
Proof.
  intros Ht Hb Hn Hpos Hk Hr0 Hq Ha Hbq Hne Hr Hbe Hst Hf fin.
  assert (drop (length pre) text = pfx ++ 34 :: cs ++ post) as Hd by (rewrite Ht, drop_app, <- app_assoc; reflexivity).
  apply Forall_app in Hn as [Hn1 Hn2]. apply Forall_cons in Hn2 as [_ Hn2]. rewrite app_length in Hf. cbn [length] in Hf.
  destruct (repeat_run text Hb pfx (34 :: cs ++ post) S_start s0 (length pre) (initial_vars lx) (fuel - S (length pfx)) eq_refl Hr0 Hn1 Hd)
    as (w & Ew & H1 & H2 & H3 & H4 & H5 & H6).
  replace (S (length pfx + (fuel - S (length pfx))))%nat with fuel in Ew by lia.
  unfold scan. rewrite Hpos, Ew. clear Ew.
  assert (drop (length pre + length pfx) text = 34 :: cs ++ post) as Hd2 by (rewrite <- drop_drop, Hd, drop_app; reflexivity).
  rewrite (advance_step _ _ _ _ _ _ _ _ Hd2 Hb ltac:(discriminate) Hq).
  destruct (fuel - S (length pfx))%nat as [|f] eqn:Ef; [lia|]. rewrite repeat_unfold. unfold do_state_action. rewrite Ha, Hbq.
  rewrite H6. cbn [initial_vars kounts]. rewrite Hk. cbn [run_action dq_start dq_end dc_start dc_end]. change (1 =? 2)%nat with false. cbv zeta iota.
  destruct cs as [|c cs]; [done|]. cbn in Hr. destruct (step sq c) as [s1|] eqn:Es; [|discriminate]. destruct (plain s1) eqn:Ep; [|discriminate].
  destruct (drop_cons_lookup _ _ _ _ Hd2) as (_ & Hd3 & _). cbn in Hd3. apply Forall_cons in Hn2 as [Hc Hn2].
  rewrite (advance_step _ _ _ _ _ _ _ _ Hd3 Hb Hc Es). destruct (drop_cons_lookup _ _ _ _ Hd3) as (_ & Hd4 & _).
  destruct (repeat_path text se b post Hb Hbe Hst cs f s1 (S (S (length pre + length pfx))) (set_counts w (Counts 1 0 0 0)) Hd4 Hn2 Ep Hr)
    as (e & u & -> & G1 & G2 & G3 & G4 & G5 & G6 & G7 & G8); [cbn in Hf; lia|].
  cbn [obind]. rewrite G1, G2, G3, G4, G5, G6, G7, G8. cbn [set_counts start_pos start_line start_line_start cur_line cur_line_start kounts].
  rewrite H1, H2, H3, H4, H5. cbn [initial_vars start_pos start_line start_line_start cur_line cur_line_start]. rewrite Hpos.
  assert (S (S (length pre + length pfx)) + length cs = fin)%nat as ->; [|reflexivity].
  unfold fin. rewrite app_length. cbn [length]. lia.
Qed.

(** The empty string: two quotes and no third. *)
Lemma scan_empty text pre pfx post lx s0 sq s2 b fuel :
  text = pre ++ (pfx ++ [34; 34]) ++ post -> Forall is_byte text -> Forall (fun c => c <> 10) pfx ->
  lx_position lx = length pre -> lx_counts lx = Counts 0 0 0 0 ->
  run S_start pfx = Some s0 -> step s0 34 = Some sq -> state_action sq = Some A_increment_double_quote_start_count -> state_builder sq = None ->
  step sq 34 = Some s2 -> state_action s2 = Some A_increment_double_quote_start_count -> state_builder s2 = Some b -> string_builder b = true ->
  stuck s2 post -> (length pfx + 4 < fuel)%nat ->
  let fin := (length pre + length (pfx ++ [34%Z; 34%Z]))%nat in
  scan fuel text lx =
    Val (Token (Some b) (length pre) (lx_line lx) (Z.of_nat (length pre) - Z.of_nat (lx_line_start lx))
               fin (lx_line lx) (Z.of_nat fin - Z.of_nat (lx_line_start lx)),
         Lexer fin (lx_line lx) (lx_line_start lx) (Counts 2 0 0 0)).
Proof.
  intros Ht Hb Hn1 Hpos Hk Hr0 Hq Ha Hbq Hq2 Ha2 Hb2 Hsb Hst Hf fin.
  assert (drop (length pre) text = pfx ++ 34 :: 34 :: post) as Hd by (rewrite Ht, drop_app, <- app_assoc; reflexivity).
  destruct (repeat_run text Hb pfx (34 :: 34 :: post) S_start s0 (length pre) (initial_vars lx) (fuel - S (length pfx)) eq_refl Hr0 Hn1 Hd)
    as (w & Ew & H1 & H2 & H3 & H4 & H5 & H6).
  replace (S (length pfx + (fuel - S (length pfx))))%nat with fuel in Ew by lia.
  unfold scan. rewrite Hpos, Ew. clear Ew.
  assert (drop (length pre + length pfx) text = 34 :: 34 :: post) as Hd2 by (rewrite <- drop_drop, Hd, drop_app; reflexivity).
  rewrite (advance_step _ _ _ _ _ _ _ _ Hd2 Hb ltac:(discriminate) Hq).
  destruct (fuel - S (length pfx))%nat as [|[|f]] eqn:Ef; [lia..|]. rewrite repeat_unfold. unfold do_state_action. rewrite Ha, Hbq.
  rewrite H6. cbn [initial_vars kounts]. rewrite Hk. cbn [run_action dq_start dq_end dc_start dc_end]. change (1 =? 2)%nat with false. cbv zeta iota.
  destruct (drop_cons_lookup _ _ _ _ Hd2) as (_ & Hd3 & _).
  rewrite (advance_step _ _ _ _ _ _ _ _ Hd3 Hb ltac:(discriminate) Hq2). destruct (drop_cons_lookup _ _ _ _ Hd3) as (_ & Hd4 & _).
  rewrite repeat_unfold. unfold do_state_action. rewrite Ha2, Hb2. cbn [run_action set_counts kounts dq_start dq_end dc_start dc_end].
  change (2 =? 2)%nat with true. cbv zeta iota.
  destruct b; try discriminate Hsb; set (u := save_accepting _ _ _);
    destruct (advance_stuck f text s2 (S (S (length pre + length pfx))) u post Hd4 Hb Hst) as (u' & Eu & Hu);
    rewrite Eu; cbn [obind]; destruct Hu as (G1 & G2 & G3 & G4 & G5 & G6 & G7 & G8); rewrite G1, G2, G3, G4, G5, G6, G7, G8; subst u; cbn;
    rewrite H1, H2, H3, H4, H5; cbn; rewrite Hpos;
    (assert (S (S (length pre + length pfx)) = fin) as <- by (unfold fin; rewrite app_length; cbn [length]; lia)); reflexivity.
Qed.

Lemma run_char quote st esc less hex body s c :
  step st 92 = Some esc -> plain esc = true -> (forall e x, In (e, x) escapes -> step esc e = Some body) -> step esc 60 = Some less -> plain less = true ->
  (forall d, is_digit 16 d -> step less d = Some hex) -> (forall d, is_digit 16 d -> step hex d = Some hex) -> plain hex = true ->
  step hex 62 = Some body -> plain body = true ->
  (forall x, is_printable x = true -> x <> quote -> x <> 92 -> step st x = Some body) ->
  denotes_char quote s c -> run st s = Some body.
Proof.
  intros He Hpe Hes Hl Hpl Hd1 Hd2 Hph Hend Hpb Hpr [x H1 H2 H3|e x Hin|ds Hne Hds _].
  - cbn. by rewrite (Hpr x H1 H2 H3), Hpb.
  - cbn. by rewrite He, Hpe, (Hes e x Hin), Hpb.
  - cbn. rewrite He, Hpe, Hl, Hpl. destruct ds as [|d ds]; [done|]. apply Forall_cons in Hds as [Hd Hds]. cbn. rewrite (Hd1 d Hd), Hph.
    rewrite run_app, (run_group 16 hex ds Hph Hd2 Hds). cbn. by rewrite Hend, Hpb.
Qed.

Lemma printable_step quote st body :
  forallb (fun c => implb (is_printable c && negb (c =? quote) && negb (c =? 92)) (same_state (step st c) body)) all_codes = true ->
  forall x, is_printable x = true -> x <> quote -> x <> 92 -> step st x = Some body.
Proof.
  intros H x H1 H2 H3. eapply (class_step (fun c => is_printable c && negb (c =? quote) && negb (c =? 92))); [exact H| |].
  - unfold is_printable in H1. unfold is_byte. lia.
  - rewrite H1. lia.
Qed.
Lemma escapes_step esc body : forallb (fun p => same_state (step esc (fst p)) body) escapes = true -> forall e x, In (e, x) escapes -> step esc e = Some body.
Proof. intros H e x Hin. rewrite forallb_forall in H. apply same_state_true. apply (H _ Hin). Qed.

Lemma run_string_char st s c : (st = S_string_start \/ st = S_drm_string_body) -> denotes_char 34 s c -> run st s = Some S_drm_string_body.
Proof.
  intros Hst. apply (run_char 34 st S_drm_string_escape S_drm_string_escape_less S_drm_string_hex_char_digits S_drm_string_body); try reflexivity.
  - by destruct Hst as [-> | ->].
  - apply escapes_step. vm_compute. reflexivity.
  - apply digits_step. vm_compute. reflexivity.
  - apply digits_step. vm_compute. reflexivity.
  - destruct Hst as [-> | ->]; apply printable_step; vm_compute; reflexivity.
Qed.
Lemma run_quote_char s c : denotes_char 39 s c -> run S_quote s = Some S_quote_char.
Proof.
  apply (run_char 39 S_quote S_quote_escape S_quote_escape_less S_quote_hex_char_digits S_quote_char); try reflexivity.
  - apply escapes_step. vm_compute. reflexivity.
  - apply digits_step. vm_compute. reflexivity.
  - apply digits_step. vm_compute. reflexivity.
  - apply printable_step; vm_compute; reflexivity.
Qed.

Lemma denotes_char_nonempty quote s c : denotes_char quote s c -> s <> [].
Proof. by intros []. Qed.
Lemma denotes_nil s : denotes s [] -> s = [].
Proof. intros H. by inversion H. Qed.

Lemma run_denotes src content : denotes src content -> forall st, (st = S_string_start \/ st = S_drm_string_body) -> src <> [] -> run st src = Some S_drm_string_body.
Proof.
  induction 1 as [|s c src content Hc H IH]; intros st Hst Hne; [done|]. rewrite run_app, (run_string_char st s c Hst Hc).
  destruct src as [|x src]; [done|]. apply IH; [by right | done].
Qed.

(** No line breaks, tabs or other control characters. *)
Lemma denotes_char_printable quote s c : denotes_char quote s c -> Forall (fun c => is_printable c = true) s.
Proof.
  intros [x H1 H2 H3|e x Hin|ds Hne Hds _].
  - by repeat constructor.
  - assert (forallb (fun p => is_printable (fst p)) escapes = true) as H by (vm_compute; reflexivity).
    rewrite forallb_forall in H. specialize (H _ Hin). repeat constructor. done.
  - constructor; [done|]. constructor; [done|]. apply Forall_app. split; [|by repeat constructor].
    eapply Forall_impl; [exact Hds|]. intros d (x & Hx & _). unfold digit_value in Hx. unfold is_printable. repeat case_match; try discriminate; lia.
Qed.
Lemma denotes_printable src content : denotes src content -> Forall (fun c => is_printable c = true) src.
Proof. induction 1 as [|s c src content Hc H IH]; [done|]. apply Forall_app. split; [by eapply denotes_char_printable | done]. Qed.
Lemma printable_facts l : Forall (fun c => is_printable c = true) l -> Forall is_byte l /\ Forall (fun c => c <> 10) l.
Proof. intros H. split; (eapply Forall_impl; [exact H|]); intros c Hc; unfold is_printable, is_byte in *; lia. Qed.

(** ** The contents *)

Lemma split_lines_printable src part : Forall (fun c => is_printable c = true) src -> split_lines src part = Val [part ++ src].
Proof.
  revert part. induction src as [|c src IH]; intros part H; cbn; [by rewrite app_nil_r|]. apply Forall_cons in H as [Hc H]. unfold is_printable in Hc.
  replace (c =? 10) with false by lia. replace (c =? 13) with false by lia. replace (c =? 9) with false by lia. rewrite IH by done. by rewrite <- app_assoc.
Qed.

(** Integers for character codes are representable. *)
Definition range_codes (r : int_range) : Prop := min_int r <= -255 /\ 255 <= max_int r.

Lemma parse_hex r line finish : range_codes r -> forall ds rest fuel posn v,
  drop posn line = ds ++ 62 :: rest -> Forall (is_digit 16) ds -> (posn + length ds < finish)%nat -> (length ds < fuel)%nat -> 0 <= v ->
  fold_left (step_value 16) ds v <= 255 ->
  parse_repeat r line 16 finish true fuel posn (- v) = Val (- fold_left (step_value 16) ds v, (posn + length ds)%nat).
Proof.
  intros [Hr1 Hr2]. induction ds as [|c ds IH]; intros rest fuel posn v Hd Hc Hfin Hf Hv Hle; (destruct fuel as [|fuel]; [cbn in Hf; lia|]).
  - cbn [parse_repeat length] in *. replace (posn <? finish)%nat with true by lia. cbn in Hd. destruct (drop_cons_lookup _ _ _ _ Hd) as (-> & _). cbn.
    by rewrite Nat.add_0_r.
  - cbn [parse_repeat]. cbn [length] in *. replace (posn <? finish)%nat with true by lia.
    cbn in Hd. destruct (drop_cons_lookup _ _ _ _ Hd) as (-> & Hd' & _). apply Forall_cons in Hc as [Hc Hcs]. cbv zeta.
    cbn [fold_left] in *. destruct Hc as (d & Hc & Hlt). pose proof (digit_nonneg _ _ Hc) as Hd0.
    assert (step_value 16 v c = v * 16 + d) as Hsv by (unfold step_value; by rewrite Hc).
    pose proof (value_mono 16 ds (step_value 16 v c) ltac:(lia) ltac:(rewrite Hsv; lia)) as Hmono.
    assert (forall res, res = - step_value 16 v c ->
      (if representable r res then parse_repeat r line 16 finish true fuel (posn + 1) res else Signal "integer-too-large") =
      Val (- fold_left (step_value 16) ds (step_value 16 v c), (posn + S (length ds))%nat)) as Hgo.
    { intros res ->. unfold representable. replace (min_int r <=? - step_value 16 v c) with true by lia.
      replace (- step_value 16 v c <=? max_int r) with true by lia. cbn [andb]. rewrite Nat.add_1_r.
      rewrite (IH rest fuel (S posn) (step_value 16 v c)) by (first [done | lia]). do 2 f_equal. lia. }
    unfold digit_value in Hc.
    destruct ((48 <=? c) && (c <=? 57)); [injection Hc as <-; apply Hgo; lia|].
    destruct ((65 <=? c) && (c <=? 70)); [injection Hc as <-; apply Hgo; lia|].
    destruct ((97 <=? c) && (c <=? 102)); [injection Hc as <-; apply Hgo; lia | discriminate].
Qed.

Lemma parse_hex_integer r line finish posn ds rest : range_codes r -> ds <> [] -> Forall (is_digit 16) ds -> number 16 ds <= 255 ->
  drop posn line = ds ++ 62 :: rest -> (posn + length ds < finish)%nat ->
  parse_integer r line 16 posn finish true = Val (number 16 ds, (posn + length ds)%nat).
Proof.
  intros Hr Hne Hds Hle Hd Hf. destruct ds as [|d ds]; [done|]. unfold parse_integer.
  assert (line !! posn = Some d) as -> by (cbn in Hd; by apply drop_cons_lookup in Hd as (? & _)).
  pose proof Hds as Hds'. apply Forall_cons in Hds' as [Hdd _]. destruct (digit_not 16 d Hdd) as (_ & _ & H48).
  replace (d =? 45) with false by lia. replace (d =? 43) with false by lia. cbv zeta.
  pose proof (parse_hex r line finish Hr (d :: ds) rest (S (finish - posn)) posn 0 Hd Hds Hf ltac:(lia) ltac:(lia) Hle) as E. change (- 0) with 0 in E. rewrite E.
  cbn [obind]. change (fold_left (step_value 16) (d :: ds) 0) with (number 16 (d :: ds)).
  pose proof (value_mono 16 (d :: ds) 0 ltac:(lia) ltac:(lia)) as Hm. change (fold_left (step_value 16) (d :: ds) 0) with (number 16 (d :: ds)) in Hm.
  unfold generic_negative, representable. rewrite Z.opp_involutive. destruct Hr as [Hr1 Hr2].
  replace (min_int r <=? number 16 (d :: ds)) with true by lia. replace (number 16 (d :: ds) <=? max_int r) with true by lia. reflexivity.
Qed.

Lemma escape_value e c : In (e, c) escapes -> escape_character e = Val c.
Proof. intros H. cbn in H. repeat (destruct H as [[= <- <-]|H]; [reflexivity|]). done. Qed.
Lemma escape_not_less e c : In (e, c) escapes -> (e =? 60) = false.
Proof. intros H. cbn in H. repeat (destruct H as [[= <- <-]|H]; [reflexivity|]). done. Qed.

Lemma process_escapes_denotes r line finish : range_codes r -> forall src content, denotes src content -> forall fuel pos new,
  drop pos line = src -> (length line <= finish)%nat -> (pos <= length line)%nat -> (length src < fuel)%nat ->
  process_escapes r fuel line finish pos false new = Val (new ++ content).
Proof.
  intros Hr. induction 1 as [|s c src content Hc H IH]; intros fuel pos new Hd Hfin Hp Hf; (destruct fuel as [|fuel]; [lia|]).
  - cbn. assert (line !! pos = None) as ->. { apply lookup_ge_None. apply (f_equal length) in Hd. rewrite drop_length in Hd. cbn in Hd. lia. } by rewrite app_nil_r.
  - rewrite app_length in Hf. destruct Hc as [x H1 H2 H3|e x Hin|ds Hne Hds Hle].
    + cbn in Hd, Hf. destruct (drop_cons_lookup _ _ _ _ Hd) as (Hl & Hd' & Hlt). cbn. rewrite Hl. replace (x =? 92) with false by lia.
      rewrite Nat.add_1_r, IH by (first [done | lia]). by rewrite <- app_assoc.
    + cbn in Hd, Hf. destruct (drop_cons_lookup _ _ _ _ Hd) as (Hl & Hd' & Hlt). destruct (drop_cons_lookup _ _ _ _ Hd') as (Hl' & Hd'' & Hlt').
      cbn. rewrite Hl. cbn. destruct fuel as [|fuel]; [lia|]. cbn. rewrite Nat.add_1_r, Hl', (escape_not_less e x Hin), (escape_value e x Hin). cbn.
      rewrite Nat.add_1_r, IH by (first [done | lia]). by rewrite <- app_assoc.
    + cbn in Hd, Hf. rewrite app_length in Hf. cbn in Hf. rewrite <- app_assoc in Hd. cbn in Hd.
      destruct (drop_cons_lookup _ _ _ _ Hd) as (Hl & Hd' & Hlt). destruct (drop_cons_lookup _ _ _ _ Hd') as (Hl' & Hd'' & Hlt').
      cbn. rewrite Hl. cbn. destruct fuel as [|fuel]; [lia|]. cbn. rewrite Nat.add_1_r, Hl'. cbn. rewrite Nat.add_1_r.
      assert (length line = S (S pos) + (length ds + S (length src)))%nat as Hlen.
      { apply (f_equal length) in Hd''. rewrite drop_length, app_length in Hd''. cbn in Hd''. lia. }
      unfold parse_hex_escape. rewrite (parse_hex_integer r line finish (S (S pos)) ds src Hr Hne Hds Hle Hd'' ltac:(lia)). cbn [obind].
      assert (drop (S (S pos) + length ds) line = 62 :: src) as Hd3 by (rewrite <- drop_drop, Hd'', drop_app; reflexivity).
      destruct (drop_cons_lookup _ _ _ _ Hd3) as (-> & Hd4 & _). replace (255 <? number 16 ds) with false by lia. cbn [obind].
      rewrite Nat.add_1_r, IH by (first [done | lia]). by rewrite <- app_assoc.
Qed.

Lemma denotes_verbatim src content : denotes src content -> existsb (Z.eqb 92) src = false -> content = src.
Proof.
  induction 1 as [|s c src content Hc H IH]; intros He; [done|]. rewrite existsb_app in He. apply orb_false_iff in He as [He1 He2]. rewrite (IH He2).
  destruct Hc; [done | cbn in He1; discriminate..].
Qed.

Lemma decode_denotes r contents finish bpos epos src content : range_codes r -> denotes src content -> src <> [] ->
  take (epos - bpos) (drop bpos contents) = src -> (length src <= finish)%nat -> decode_string r contents finish bpos epos true = Val content.
Proof.
  intros Hr H Hne Ht Hf. unfold decode_string. rewrite Ht, split_lines_printable by (by eapply denotes_printable). cbn [obind app].
  unfold process_line. destruct src as [|x src]; [done|]. cbn [obind]. cbn [andb].
  destruct (existsb (Z.eqb 92) (x :: src)) eqn:Ee.
  - apply (process_escapes_denotes r (x :: src) finish Hr (x :: src) content H _ 0 []); auto. lia.
  - by rewrite (denotes_verbatim _ _ H Ee).
Qed.

Lemma decode_raw r contents finish bpos epos src : Forall (fun c => is_printable c = true) src -> src <> [] ->
  take (epos - bpos) (drop bpos contents) = src -> decode_string r contents finish bpos epos false = Val src.
Proof.
  intros H Hne Ht. unfold decode_string. rewrite Ht, split_lines_printable by done. cbn [obind app]. unfold process_line. destruct src as [|x src]; [done|]. reflexivity.
Qed.
