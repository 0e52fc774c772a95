(** C57: string, symbol and character literals. *)
From Verif Require Import Base LexTable LexModel LexSpec LexProofs LexPathProofs LitModel LitSpec LitProofs LitIntProofs LexProps BlankProofs BlankProps StrSpec StrProofs.
From Coq Require Import ZArith Lia ZifyBool ZifyNat.
Local Open Scope outcome_scope.
Local Open Scope Z_scope.

(** The token at [before], of which the literal is [lit]. *)
Definition gives (r : int_range) (before lit after : list Z) (l : literal) : Prop :=
  let text := before ++ lit ++ after in
  forall lx, ready text lx -> lx_position lx = length before ->
  exists t lx', get_token r (2 * length text + 1) text lx = Val (t, l, lx') /\
    tk_start t = length before /\ tk_end t = (length before + length lit)%nat /\ lx_position lx' = tk_end t /\ ready text lx'.

Lemma gives_from r before lit after l : Forall is_byte (before ++ lit ++ after) ->
  (forall lx, lx = lexer_at (before ++ lit ++ after) (length before) -> exists t lx',
    get_token r (2 * length (before ++ lit ++ after) + 1) (before ++ lit ++ after) lx = Val (t, l, lx') /\
    tk_start t = length before /\ tk_end t = (length before + length lit)%nat) ->
  gives r before lit after l.
Proof.
  intros Hb H lx Hr Hp. pose proof (proj1 (ready_at _ _ Hr)) as Elx. rewrite Hp in Elx. destruct (H lx Elx) as (t & lx' & E & H1 & H2).
  destruct (get_token_located r _ lx t l lx' _ Hb Hr (Nat.le_refl _) E) as (_ & _ & H3 & H4). eauto 10.
Qed.

Lemma bytes_of (before lit after : list Z) : Forall is_byte (before ++ lit ++ after) -> Forall is_byte after.
Proof. intros H. apply Forall_app in H as [_ H]. by apply Forall_app in H as [_ H]. Qed.

Lemma quoted_slice (before pfx src after : list Z) :
  take (length before + length (pfx ++ 34%Z :: src ++ [34%Z]) - 1 - (length before + 1 + length pfx))%nat
       (drop (length before + 1 + length pfx) (before ++ (pfx ++ 34%Z :: src ++ [34%Z]) ++ after)) = src.
Proof.
  assert (before ++ (pfx ++ 34 :: src ++ [34]) ++ after = (before ++ pfx ++ [34]) ++ src ++ 34 :: after) as ->.
  { rewrite <- !app_assoc. cbn. rewrite <- app_assoc. reflexivity. }
  rewrite (drop_app_alt (before ++ pfx ++ [34])) by (rewrite !app_length; cbn; lia).
  rewrite take_app_alt; [done|]. rewrite app_length. cbn [length]. rewrite app_length. cbn [length]. lia.
Qed.

Definition no_third_quote (src after : list Z) : Prop := src = [] -> head after <> Some 34.

Lemma no_third_stuck s2 after : (s2 = S_2_double_quotes \/ s2 = S_raw_2_double_quotes) -> head after <> Some 34 -> stuck s2 after.
Proof.
  intros Hs H. destruct after as [|x after]; [exact I|]. cbn [head] in H. cbn [stuck]. unfold step.
  destruct Hs as [-> | ->]; cbn [state_transitions lookup_transition on_codes existsb]; rewrite orb_false_r;
    (replace (x =? 34) with false by (symmetry; apply Z.eqb_neq; congruence)); reflexivity.
Qed.

(** The part that strings, symbols and raw strings have in common. *)
Lemma quoted_gives r before pfx src after l s0 sq s2 body send b :
  Forall is_byte (before ++ (pfx ++ 34 :: src ++ [34]) ++ after) -> Forall (fun c => is_printable c = true) (pfx ++ src) -> no_third_quote src after ->
  run S_start pfx = Some s0 -> step s0 34 = Some sq -> state_action sq = Some A_increment_double_quote_start_count -> state_builder sq = None ->
  step sq 34 = Some s2 -> (s2 = S_2_double_quotes \/ s2 = S_raw_2_double_quotes) -> state_builder s2 = Some b -> string_builder b = true ->
  (src <> [] -> run sq src = Some body) -> run body [34] = Some send -> state_builder send = Some b -> (forall post, stuck send post) ->
  (forall fuel text lx t lx0 (quotes : nat), scan fuel text lx = Val (t, lx0) -> tk_builder t = Some b -> text = before ++ (pfx ++ 34 :: src ++ [34]) ++ after ->
     tk_start t = length before -> tk_end t = (length before + length (pfx ++ 34%Z :: src ++ [34%Z]))%nat -> lx_counts lx0 = Counts quotes 0 0 0 ->
     (src = [] \/ quotes = 1%nat) ->
     exists lx', get_token r fuel text lx = Val (t, l, lx')) ->
  gives r before (pfx ++ 34 :: src ++ [34]) after l.
Proof.
  intros Hb Hpr H3 Hr0 Hq Ha Hbq Hq2 Hs2 Hb2 Hsb Hrun Hend Hbe Hst Hval. apply gives_from; [done|]. intros lx Elx.
  set (text := before ++ (pfx ++ 34 :: src ++ [34]) ++ after) in *. set (F := (2 * length text + 1)%nat).
  assert (length text = length before + (length pfx + S (length src + 1) + length after))%nat as Hlen.
  { unfold text. rewrite !app_length. cbn [length]. rewrite app_length. cbn. lia. }
  apply Forall_app in Hpr as [Hp1 Hp2]. destruct (printable_facts _ Hp1) as [_ Hn1]. destruct (printable_facts _ Hp2) as [_ Hn2].
  assert (lx_position lx = length before /\ lx_counts lx = Counts 0 0 0 0) as [Hpos Hk] by (subst lx; done).
  destruct (decide (src = [])) as [->|Hne].
  - pose proof (scan_empty text before pfx after lx s0 sq s2 b F eq_refl Hb Hn1 Hpos Hk Hr0 Hq Ha Hbq Hq2) as E.
    assert (state_action s2 = Some A_increment_double_quote_start_count) as Ha2 by (by destruct Hs2 as [-> | ->]).
    specialize (E Ha2 Hb2 Hsb (no_third_stuck s2 after Hs2 (H3 eq_refl)) ltac:(unfold F; cbn in Hlen; lia)). cbv zeta in E.
    destruct (Hval F text lx _ _ 2%nat E eq_refl eq_refl eq_refl eq_refl eq_refl (or_introl eq_refl)) as [lx' E'].
    eexists _, _. split; [exact E'|]. done.
  - pose proof (scan_quoted text before pfx (src ++ [34]) after lx s0 sq send b F eq_refl Hb) as E.
    assert (Forall (fun c => c <> 10) (pfx ++ 34 :: src ++ [34])) as Hn.
    { apply Forall_app. split; [done|]. constructor; [done|]. apply Forall_app. split; [done | by repeat constructor]. }
    specialize (E Hn Hpos Hk Hr0 Hq Ha Hbq). specialize (E ltac:(by destruct src)).
    assert (run sq (src ++ [34]) = Some send) as Hr by (by rewrite run_app, (Hrun Hne)).
    specialize (E Hr Hbe (Hst after)). specialize (E ltac:(unfold F; rewrite Hlen, app_length; cbn [length]; rewrite app_length; cbn [length]; lia)). cbv zeta in E.
    destruct (Hval F text lx _ _ 1%nat E eq_refl eq_refl eq_refl eq_refl eq_refl (or_intror eq_refl)) as [lx' E'].
    eexists _, _. split; [exact E'|]. done.
Qed.

(** A string literal on one line: its characters, escapes and hexadecimal codes give its contents. *)
Theorem C57_string : forall r before src content after,
  min_int r <= -255 -> 255 <= max_int r -> Forall is_byte (before ++ (34 :: src ++ [34]) ++ after) ->
  denotes src content -> no_third_quote src after -> gives r before (34 :: src ++ [34]) after (LString content).
Proof.
  intros r before src content after Hr1 Hr2 Hb Hd H3.
  apply (quoted_gives r before [] src after _ S_start S_string_start S_2_double_quotes S_drm_string_body S_drm_string_end B_make_stringish_literal); auto; try reflexivity.
  - by eapply denotes_printable.
  - intros Hne. by apply (run_denotes src content Hd); [left|].
  - by intros [].
  - intros fuel text lx t lx0 quotes E Hbt -> Hs He Hk Hq. unfold get_token. rewrite E. cbn [obind]. cbv zeta. rewrite Hbt, Hs, He, Hk. cbn [dq_start].
    rewrite lookup_app_r, Nat.sub_diag by lia. cbn [app lookup list_lookup]. unfold extract_string_contents. 
    destruct (decide (src = [])) as [->|Hne].
    + replace (_ =? 2 + 0)%nat with true by (cbn; lia). inversion Hd as [|s c src0 content0 Hc Hd0 Hs0 Hc0]; [|destruct s; [by apply denotes_char_nonempty in Hc | discriminate]].
      eexists. reflexivity.
    + replace (_ =? 2 + 0)%nat with false by (destruct src; [done|]; cbn; rewrite app_length; cbn; lia).
      destruct Hq as [?| ->]; [done|]. pose proof (quoted_slice before [] src after) as Q. cbn [app] in Q.
      rewrite (decode_denotes r _ _ _ _ src content (conj Hr1 Hr2) Hd Hne Q) by (cbn; rewrite app_length; lia). eexists. reflexivity.
Qed.

(** A symbol in quotes. *)
Theorem C57_symbol : forall r before src content after,
  min_int r <= -255 -> 255 <= max_int r -> Forall is_byte (before ++ (35 :: 34 :: src ++ [34]) ++ after) ->
  denotes src content -> no_third_quote src after -> gives r before (35 :: 34 :: src ++ [34]) after (LSymbol content).
Proof.
  intros r before src content after Hr1 Hr2 Hb Hd H3.
  apply (quoted_gives r before [35] src after _ S_sharp S_string_start S_2_double_quotes S_drm_string_body S_drm_string_end B_make_stringish_literal); auto; try reflexivity.
  - constructor; [done|]. by eapply denotes_printable.
  - intros Hne. by apply (run_denotes src content Hd); [left|].
  - by intros [].
  - intros fuel text lx t lx0 quotes E Hbt -> Hs He Hk Hq. unfold get_token. rewrite E. cbn [obind]. cbv zeta. rewrite Hbt, Hs, He, Hk. cbn [dq_start].
    rewrite lookup_app_r, Nat.sub_diag by lia. cbn [app lookup list_lookup]. unfold extract_string_contents.
    destruct (decide (src = [])) as [->|Hne].
    + replace (_ =? 2 + 1)%nat with true by (cbn; lia). inversion Hd as [|s c src0 content0 Hc Hd0 Hs0 Hc0]; [|destruct s; [by apply denotes_char_nonempty in Hc | discriminate]].
      eexists. reflexivity.
    + replace (_ =? 2 + 1)%nat with false by (destruct src; [done|]; cbn; rewrite app_length; cbn; lia).
      destruct Hq as [?| ->]; [done|]. pose proof (quoted_slice before [35] src after) as Q. cbn [app] in Q.
      rewrite (decode_denotes r _ _ _ _ src content (conj Hr1 Hr2) Hd Hne Q) by (cbn; rewrite app_length; lia). eexists. reflexivity.
Qed.

(** A raw string on one line: exactly the characters between the quotes, backslashes too. *)
Theorem C57_raw : forall r before x src after,
  (x = 114 \/ x = 82) -> Forall is_byte (before ++ (35 :: x :: 34 :: src ++ [34]) ++ after) ->
  Forall (fun c => is_printable c = true /\ c <> 34) src -> no_third_quote src after -> gives r before (35 :: x :: 34 :: src ++ [34]) after (LString src).
Proof.
  intros r before x src after Hx Hb Hd H3.
  assert (Forall (fun c => is_printable c = true) src) as Hpr by (eapply Forall_impl; [exact Hd | intros c [? _]; done]).
  apply (quoted_gives r before [35; x] src after _ S_sharp_r S_raw_string_start S_raw_2_double_quotes S_raw_one_line_string_body S_raw_one_line_string_end
    B_make_raw_string_literal); auto; try reflexivity.
  - cbn. constructor; [done|]. constructor; [destruct Hx as [-> | ->]; done | done].
  - destruct Hx as [-> | ->]; reflexivity.
  - assert (forall l st, (st = S_raw_string_start \/ st = S_raw_one_line_string_body) -> l <> [] -> Forall (fun c => is_printable c = true /\ c <> 34) l ->
      run st l = Some S_raw_one_line_string_body) as Hrun.
    { clear. induction l as [|c l IH]; intros st Hst Hne Hl; [done|]. apply Forall_cons in Hl as [[Hc1 Hc2] Hl].
      assert (step st c = Some S_raw_one_line_string_body) as Hs.
      { assert (is_byte c) by (unfold is_printable, is_byte in *; lia).
        destruct Hst as [-> | ->]; (eapply (class_step (fun c => is_printable c && negb (c =? 34))); [vm_compute; reflexivity | done | rewrite Hc1; lia]). }
      cbn [run]. rewrite Hs. change (plain S_raw_one_line_string_body) with true. cbv iota. destruct l as [|d l]; [done|]. apply IH; auto. }
    intros Hne. apply Hrun; auto.
  - by intros [].
  - intros fuel text lx t lx0 quotes E Hbt -> Hs He Hk Hq. unfold get_token. rewrite E. cbn [obind]. cbv zeta. rewrite Hbt, Hs, He, Hk. cbn [dq_start].
    unfold extract_string_contents.
    destruct (decide (src = [])) as [->|Hne].
    + replace (_ =? 2 + 2)%nat with true by (cbn; lia). eexists. reflexivity.
    + replace (_ =? 2 + 2)%nat with false by (destruct src; [done|]; cbn; rewrite app_length; cbn; lia).
      destruct Hq as [?| ->]; [done|]. pose proof (quoted_slice before [35; x] src after) as Q. cbn [app] in Q.
      cbn [app]. rewrite (decode_raw r _ _ _ _ src Hpr Hne Q). eexists. reflexivity.
Qed.

(** A character literal. *)
Theorem C57_character : forall r before src c after,
  min_int r <= -255 -> 255 <= max_int r -> Forall is_byte (before ++ (39 :: src ++ [39]) ++ after) ->
  denotes_char 39 src c -> gives r before (39 :: src ++ [39]) after (LCharacter c).
Proof.
  intros r before src c after Hr1 Hr2 Hb Hd. apply gives_from; [done|]. intros lx Elx.
  set (text := before ++ (39 :: src ++ [39]) ++ after) in *. set (F := (2 * length text + 1)%nat).
  assert (length text = length before + (S (length src + 1) + length after))%nat as Hlen.
  { unfold text. rewrite !app_length. cbn [length]. rewrite app_length. cbn. lia. }
  assert (lx_position lx = length before) as Hpos by (subst lx; done).
  assert (Forall (fun c => c <> 10) (39 :: src ++ [39])) as Hn.
  { constructor; [done|]. apply Forall_app. split; [|by repeat constructor]. eapply printable_facts. by eapply denotes_char_printable. }
  assert (run S_start (39 :: src ++ [39]) = Some S_character) as Hrun.
  { change (run S_quote (src ++ [39]) = Some S_character). rewrite run_app, (run_quote_char src c Hd). reflexivity. }
  pose proof (scan_plain text before (39 :: src ++ [39]) after lx S_character B_make_character_literal F eq_refl Hb Hn Hpos Hrun eq_refl) as E.
  specialize (E ltac:(by destruct after)). specialize (E ltac:(unfold F; rewrite Hlen; cbn [length]; rewrite app_length; cbn [length]; lia)).
  unfold get_token. rewrite E. cbn [obind tk_builder tk_start tk_end]. cbv zeta.
  assert (make_character_literal r text (length before) (length before + length (39%Z :: src ++ [39%Z])) = Val c) as ->; [|cbn [obind]; eexists _, _; split; [reflexivity|]; done].
  assert (forall n, text !! (length before + n)%nat = (39 :: src ++ [39] ++ after) !! n) as Hl.
  { intros n. unfold text. rewrite lookup_app_r by lia. replace (length before + n - length before)%nat with n by lia. cbn. by rewrite <- app_assoc. }
  unfold make_character_literal. rewrite !Hl. destruct Hd as [x H1 H2 H3|e x Hin|ds Hne Hds Hle].
  - cbn. destruct x as [|p|p]; try reflexivity. repeat (destruct p as [p|p|]; try reflexivity). done.
  - cbn. assert (forallb (fun p => negb (fst p =? 60)) escapes = true) as He by (vm_compute; reflexivity). rewrite forallb_forall in He. specialize (He _ Hin). cbn in He.
    pose proof (escape_value e x Hin) as Hv. destruct e as [|p|p]; try done. repeat (destruct p as [p|p|]; try done).
  - cbn. unfold hex_escape_character. rewrite (parse_hex_integer r text _ (length before + 3) ds (39 :: after) (conj Hr1 Hr2) Hne Hds Hle).
    + cbn [obind]. by replace (255 <? number 16 ds) with false by lia.
    + unfold text. rewrite <- drop_drop, drop_app. cbn. rewrite <- !app_assoc. reflexivity.
    + cbn. rewrite !app_length. cbn. lia.
Qed.

(** Every string of bytes can be written as a literal. *)
Theorem C57_expressible : forall content, Forall is_byte content -> exists src, denotes src content /\ Forall is_byte src.
Proof.
  assert (forall c, is_byte c -> exists s, denotes_char 34 s c) as Hc.
  { assert (forallb (fun c => match digit_value (if c / 16 <? 10 then 48 + c / 16 else 55 + c / 16), digit_value (if c mod 16 <? 10 then 48 + c mod 16 else 55 + c mod 16) with
      | Some h, Some l => (h <? 16) && (l <? 16) && (h * 16 + l =? c) | _, _ => false end) all_codes = true) as H by (vm_compute; reflexivity).
    intros c Hc. rewrite forallb_forall in H. specialize (H c (byte_in c Hc)).
    set (a := if c / 16 <? 10 then 48 + c / 16 else 55 + c / 16) in *. set (b := if c mod 16 <? 10 then 48 + c mod 16 else 55 + c mod 16) in *.
    destruct (digit_value a) as [h|] eqn:Ea; [|discriminate]. destruct (digit_value b) as [l|] eqn:Eb; [|discriminate].
    assert (number 16 [a; b] = c) as En. { unfold number. cbn [fold_left]. rewrite Ea, Eb. cbn [default]. cbn. lia. }
    exists (92 :: 60 :: [a; b] ++ [62]). rewrite <- En. apply DC_hex; [done| |rewrite En; unfold is_byte in Hc; lia].
    constructor; [exists h; split; [done | lia]|]. constructor; [exists l; split; [done | lia] | done]. }
  induction content as [|c content IH]; intros H; [exists []; split; [apply D_nil | done]|]. apply Forall_cons in H as [H1 H2].
  destruct (IH H2) as (src & Hs & Hb). destruct (Hc c H1) as (s & Hsc). exists (s ++ src). split; [by apply D_cons|].
  apply Forall_app. split; [|done]. eapply printable_facts. by eapply denotes_char_printable.
Qed.

Print Assumptions C57_string.
Print Assumptions C57_symbol.
Print Assumptions C57_raw.
Print Assumptions C57_character.
Print Assumptions C57_expressible.

(** ** The hypotheses are met *)

(** The characters a, escaped n, the code 7e and an escaped quotation mark. *)
Example C57_example_denotes : denotes [97; 92; 110; 92; 60; 55; 101; 62; 92; 34] [97; 10; 126; 34].
Proof.
  apply (D_cons [97] 97 [92; 110; 92; 60; 55; 101; 62; 92; 34]); [by apply DC_plain|].
  apply (D_cons [92; 110] 10 [92; 60; 55; 101; 62; 92; 34]); [apply DC_escape; cbn; tauto|].
  apply (D_cons [92; 60; 55; 101; 62] 126 [92; 34]).
  - apply (DC_hex 34 [55; 101]); [done | | vm_compute; discriminate]. repeat constructor; unfold is_digit; eexists; (split; [reflexivity | lia]).
  - apply (D_cons [92; 34] 34 []); [apply DC_escape; cbn; tauto | apply D_nil].
Qed.
Example C57_example : exists t lx,
  get_token (IntRange (-1024) 1023) 50 [40; 34; 97; 92; 110; 92; 60; 55; 101; 62; 92; 34; 34; 41] (Lexer 1 1 0 (Counts 0 0 0 0)) = Val (t, LString [97; 10; 126; 34], lx) /\
  tk_end t = 13%nat.
Proof. eexists _, _. split; vm_compute; reflexivity. Qed.
Example C57_example_ready : ready [40; 34; 97; 92; 110; 92; 60; 55; 101; 62; 92; 34; 34; 41] (Lexer 1 1 0 (Counts 0 0 0 0)).
Proof. split; [unfold good; vm_compute; split_and!; auto with lia | by split]. Qed.
