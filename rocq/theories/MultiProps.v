(** C57: strings, symbols and raw strings between three or more double quotes. *)
From Verif Require Import Base LexTable LexModel LexSpec LexProofs LexPathProofs LitModel LitSpec LitProofs LitIntProofs LexProps BlankProofs BlankProps StrSpec StrProofs StrProps MultiSpec MultiProofs.
From Coq Require Import ZArith Lia ZifyBool ZifyNat.
Local Open Scope outcome_scope.
Local Open Scope Z_scope.

Lemma is_kind_escaped : escaped_kind = escaped_kind \/ escaped_kind = raw_kind. Proof. by left. Qed.
Lemma is_kind_raw : raw_kind = escaped_kind \/ raw_kind = raw_kind. Proof. by right. Qed.

Lemma inside_lines k q w nl src cs : (k = escaped_kind \/ k = raw_kind) -> (3 <= q)%nat -> line_break nl -> indented_lines q w (k_char k) nl src cs ->
  forall s c, inside k q 0 s c -> exists s' c', qrun s c src = Some (s', c') /\ inside k q 0 s' c'.
Proof.
  intros Hk Hq Hnl. 
  assert (Forall (fun x => ordinary k x = true) nl /\ nl <> []) as [Hn1 Hn2].
  { destruct Hk as [-> | ->], Hnl as [-> | [-> | ->]]; split; try done; repeat constructor. }
  assert (forall j, Forall (fun x => ordinary k x = true) (replicate j 32)) as Hsp.
  { intros j. apply Forall_replicate. by destruct Hk as [-> | ->]. }
  induction 1 as [|line content src cs H1 H2 IH]; intros s c Hi; [by exists s, c|].
  assert (exists m s1 c1, (m < q)%nat /\ qrun s c line = Some (s1, c1) /\ inside k q m s1 c1) as (m & s1 & c1 & Hm & E1 & Hi1).
  { assert (forall j, exists s1 c1, qrun s c (replicate j 32) = Some (s1, c1) /\ inside k q 0 s1 c1) as Hj.
    { intros [|j]; [by exists s, c|]. apply (inside_ordinaries k q (replicate (S j) 32) Hk Hq (Hsp _) ltac:(done) 0 s c); [lia | by left]. }
    destruct H1 as [src1 c1 H1|j Hle].
    - destruct (Hj w) as (s1 & c2 & E & Hi1). rewrite qrun_app, E. apply (inside_line k q 0 src1 c1 Hk Hq H1); [lia | done].
    - destruct (Hj j) as (s1 & c2 & E & Hi1). exists 0%nat, s1, c2. split; [lia | done]. }
  rewrite qrun_app, E1, qrun_app.
  destruct (inside_ordinaries k q nl Hk Hq Hn1 Hn2 m s1 c1 Hm (or_introl Hi1)) as (s2 & c2 & E2 & Hi2). rewrite E2. auto.
Qed.

(** What the three kinds have in common: [body] between the delimiters leads back to the body. *)
Lemma multi_gives k r before pfx body after q l :
  (k = escaped_kind \/ k = raw_kind) -> (3 <= q)%nat -> prefix_of k pfx ->
  Forall is_byte (before ++ (pfx ++ replicate q 34%Z ++ body ++ replicate q 34%Z) ++ after) ->
  (exists s c, qrun (k_start k) (K (q - 1) 0) body = Some (s, c) /\ inside k q 0 s c) ->
  (forall fuel text lx t lx0, scan fuel text lx = Val (t, lx0) -> tk_builder t = Some (k_builder k) ->
     text = before ++ (pfx ++ replicate q 34%Z ++ body ++ replicate q 34%Z) ++ after ->
     tk_start t = length before -> tk_end t = (length before + length (pfx ++ replicate q 34%Z ++ body ++ replicate q 34%Z))%nat -> dq_start (lx_counts lx0) = q ->
     exists lx', get_token r fuel text lx = Val (t, l, lx')) ->
  gives r before (pfx ++ replicate q 34%Z ++ body ++ replicate q 34%Z) after l.
Proof.
  intros Hk Hq Hp Hb (s & c & Er & Hi) Hval. apply gives_from; [done|]. intros lx Elx.
  set (lit := pfx ++ replicate q 34%Z ++ body ++ replicate q 34%Z) in *. set (text := before ++ lit ++ after) in *.
  assert (qrun S_start (Counts 0 0 0 0) lit = Some (k_end k, K q (q - 1))) as E.
  { unfold lit. rewrite app_assoc, qrun_app, (opening k q pfx Hk Hq Hp), qrun_app, Er. apply (closing k q Hk Hq 0); [lia | done | done]. }
  destruct (scan_accept text before lit after lx _ _ _ (k_builder k) (2 * length text + 1) eq_refl Hb ltac:(by subst lx) ltac:(by subst lx) E (end_accepts k q Hk Hq))
    as (t & lx0 & Es & Hbt & Hs & He & Hkk).
  - by destruct Hk as [-> | ->].
  - by destruct Hk as [-> | ->].
  - unfold text. rewrite !app_length. lia.
  - destruct (Hval _ text lx t lx0 Es Hbt eq_refl Hs He ltac:(by rewrite Hkk)) as [lx' E']. exists t, lx'. done.
Qed.

Lemma body_slice (before pfx body after : list Z) q :
  take (length before + length (pfx ++ replicate q 34%Z ++ body ++ replicate q 34%Z) - q - (length before + q + length pfx))%nat
       (drop (length before + q + length pfx) (before ++ (pfx ++ replicate q 34%Z ++ body ++ replicate q 34%Z) ++ after)) = body.
Proof.
  assert (before ++ (pfx ++ replicate q 34%Z ++ body ++ replicate q 34%Z) ++ after = (before ++ pfx ++ replicate q 34%Z) ++ body ++ replicate q 34%Z ++ after) as ->.
  { by rewrite <- !app_assoc. }
  rewrite (drop_app_alt (before ++ pfx ++ replicate q 34%Z)) by (rewrite !app_length, replicate_length; lia).
  rewrite take_app_alt; [done|]. rewrite !app_length, !replicate_length. lia.
Qed.

(** The value, once decode-string is known. *)
Lemma multi_value k r before pfx body after q content :
  (k = escaped_kind \/ k = raw_kind) -> (3 <= q)%nat -> prefix_of k pfx ->
  (forall contents finish bpos epos, take (epos - bpos) (drop bpos contents) = body -> (length body <= finish)%nat ->
     decode_string r contents finish bpos epos (negb (is_raw k)) = Val content) ->
  forall fuel text lx t lx0, scan fuel text lx = Val (t, lx0) -> tk_builder t = Some (k_builder k) ->
     text = before ++ (pfx ++ replicate q 34%Z ++ body ++ replicate q 34%Z) ++ after ->
     tk_start t = length before -> tk_end t = (length before + length (pfx ++ replicate q 34%Z ++ body ++ replicate q 34%Z))%nat -> dq_start (lx_counts lx0) = q ->
     exists lx', get_token r fuel text lx = Val (t, (if bool_decide (pfx = [35]) then LSymbol else LString) content, lx').
Proof.
  intros Hk Hq Hp Hd fuel text lx t lx0 E Hb -> Hs He Hkq. unfold get_token. rewrite E. cbn [obind]. cbv zeta. rewrite Hb, Hs, He, Hkq.
  assert (forall p esc, p = length pfx -> esc = negb (is_raw k) ->
    extract_string_contents r p esc (before ++ (pfx ++ replicate q 34%Z ++ body ++ replicate q 34%Z) ++ after) q (length before)
      (length before + length (pfx ++ replicate q 34%Z ++ body ++ replicate q 34%Z)) = Val content) as Hx.
  { intros p esc -> ->. unfold extract_string_contents. replace (_ =? _)%nat with false by (rewrite !app_length, !replicate_length; lia).
    apply Hd; [apply body_slice|]. rewrite !app_length. lia. }
  assert (exists q', q = S q') as [q' Eq] by (exists (q - 1)%nat; lia).
  destruct Hk as [-> | ->]; cbn [prefix_of k_start escaped_kind raw_kind k_builder is_raw negb] in *; destruct Hp as [-> | ->].
  - rewrite lookup_app_r, Nat.sub_diag by lia. rewrite (Hx 0%nat true eq_refl eq_refl). rewrite Eq. cbn. eauto.
  - rewrite lookup_app_r, Nat.sub_diag by lia. rewrite (Hx 1%nat true eq_refl eq_refl). cbn. eauto.
  - rewrite (Hx 2%nat false eq_refl eq_refl). cbn. eauto.
  - rewrite (Hx 2%nat false eq_refl eq_refl). cbn. eauto.
Qed.

Lemma multi_line_gives k r before pfx after q w w0 nl src contents :
  (k = escaped_kind \/ k = raw_kind) -> (k = escaped_kind -> range_codes r) -> (3 <= q)%nat -> prefix_of k pfx -> line_break nl ->
  indented_lines q w (k_char k) nl src contents -> contents <> [] ->
  let lit := pfx ++ replicate q 34%Z ++ (replicate w0 32 ++ nl ++ src ++ replicate w 32) ++ replicate q 34%Z in
  Forall is_byte (before ++ lit ++ after) ->
  gives r before lit after ((if bool_decide (pfx = [35]) then LSymbol else LString) (with_newlines contents)).
Proof.
  intros Hk Hr Hq Hp Hnl Hl Hne lit Hb. apply (multi_gives k); auto.
  - assert (forall j, Forall (fun x => ordinary k x = true) (replicate j 32)) as Hsp.
    { intros j. apply Forall_replicate. by destruct Hk as [-> | ->]. }
    assert (Forall (fun x => ordinary k x = true) (replicate w0 32 ++ nl) /\ replicate w0 32 ++ nl <> []) as [Hn1 Hn2].
    { split; [apply Forall_app; split; [apply Hsp|]; destruct Hk as [-> | ->], Hnl as [-> | [-> | ->]]; repeat constructor|].
      destruct Hnl as [-> | [-> | ->]]; by destruct w0. }
    destruct (inside_ordinaries k q _ Hk Hq Hn1 Hn2 0 (k_start k) (K (q - 1) 0)) as (s1 & c1 & E1 & Hi1); [lia | by right|].
    destruct (inside_lines k q w nl src contents Hk Hq Hnl Hl s1 c1 Hi1) as (s2 & c2 & E2 & Hi2).
    rewrite app_assoc, qrun_app, E1, qrun_app, E2. destruct w as [|w]; [by exists s2, c2|].
    apply (inside_ordinaries k q (replicate (S w) 32) Hk Hq (Hsp _) ltac:(done) 0 s2 c2); [lia | by left].
  - apply multi_value; auto. intros text finish bpos epos Ht Hf. eapply decode_multi; eauto. rewrite !app_length in Hf. lia.
Qed.

Lemma line_snoc q char n src content s c : quoted_line q char n src content -> char s c -> quoted_line q char n (src ++ s) (content ++ [c]).
Proof.
  induction 1 as [n|n x y src content Hx H IH|n src content Hlt H IH]; intros Hc; cbn.
  - rewrite <- (app_nil_r s). apply QL_char; [done | constructor].
  - rewrite <- app_assoc. apply QL_char; auto.
  - apply QL_quote; auto.
Qed.

Lemma multi_quoted_gives k r before pfx after q src content s c :
  (k = escaped_kind \/ k = raw_kind) -> (k = escaped_kind -> range_codes r) -> (3 <= q)%nat -> prefix_of k pfx ->
  quoted_line q (k_char k) 0 src content -> head src <> Some 34 -> k_char k s c ->
  let lit := pfx ++ replicate q 34%Z ++ (src ++ s) ++ replicate q 34%Z in
  Forall is_byte (before ++ lit ++ after) ->
  gives r before lit after ((if bool_decide (pfx = [35]) then LSymbol else LString) (content ++ [c])).
Proof.
  intros Hk Hr Hq Hp Hl Hh Hc lit Hb. 
  assert (s <> []) as Hs by (destruct Hk as [-> | ->]; [exact (denotes_char_nonempty _ _ _ Hc) | by destruct Hc as (-> & _)]).
  apply (multi_gives k); auto.
  - inversion Hl as [|? x y src1 content1 Hx Hl1|? src1 content1]; subst.
    + apply (inside_char k q 0 _ _ s c Hk Hq); [lia | by right | done].
    + destruct (inside_char k q 0 (k_start k) (K (q - 1) 0) x y Hk Hq ltac:(lia) (or_intror (conj eq_refl (conj eq_refl eq_refl))) Hx) as (s1 & c1 & E1 & Hi1).
      destruct (inside_line k q 0 src1 content1 Hk Hq Hl1 ltac:(lia) s1 c1 Hi1) as (m & s2 & c2 & Hm & E2 & Hi2).
      rewrite <- app_assoc, qrun_app, E1, qrun_app, E2. apply (inside_char k q m _ _ s c Hk Hq Hm); [by left | done].
    + done.
  - apply multi_value; auto. intros text finish bpos epos Ht Hf. apply (decode_single k r text finish bpos epos q (src ++ s)); auto; [by apply line_snoc|].
    intros E. apply app_eq_nil in E as [_ ?]. done.
Qed.

(** A string of several lines: the line of the opening delimiter has nothing else, the spaces before the
    closing one are taken off every line, and the lines are joined with newlines, whatever the line
    breaks of the source are. *)
Theorem C57_multi_line_string : forall r before after q w w0 nl src contents,
  min_int r <= -255 -> 255 <= max_int r -> (3 <= q)%nat -> line_break nl -> indented_lines q w (denotes_char 34) nl src contents -> contents <> [] ->
  let lit := replicate q 34%Z ++ (replicate w0 32 ++ nl ++ src ++ replicate w 32) ++ replicate q 34%Z in
  Forall is_byte (before ++ lit ++ after) ->
  gives r before lit after (LString (with_newlines contents)).
Proof.
  intros r before after q w w0 nl src contents H1 H2. intros.
  apply (multi_line_gives escaped_kind r before [] after q w w0 nl src contents); auto; [by split | by left].
Qed.

Theorem C57_multi_line_symbol : forall r before after q w w0 nl src contents,
  min_int r <= -255 -> 255 <= max_int r -> (3 <= q)%nat -> line_break nl -> indented_lines q w (denotes_char 34) nl src contents -> contents <> [] ->
  let lit := 35 :: replicate q 34%Z ++ (replicate w0 32 ++ nl ++ src ++ replicate w 32) ++ replicate q 34%Z in
  Forall is_byte (before ++ lit ++ after) ->
  gives r before lit after (LSymbol (with_newlines contents)).
Proof.
  intros r before after q w w0 nl src contents H1 H2. intros.
  apply (multi_line_gives escaped_kind r before [35] after q w w0 nl src contents); auto; [by split | by right].
Qed.

(** In a raw string every character is itself, the backslash too. *)
Theorem C57_multi_line_raw : forall r before after x q w w0 nl src contents,
  (x = 114 \/ x = 82) -> (3 <= q)%nat -> line_break nl -> indented_lines q w raw_char nl src contents -> contents <> [] ->
  let lit := 35 :: x :: replicate q 34%Z ++ (replicate w0 32 ++ nl ++ src ++ replicate w 32) ++ replicate q 34%Z in
  Forall is_byte (before ++ lit ++ after) ->
  gives r before lit after (LString (with_newlines contents)).
Proof.
  intros r before after x q w w0 nl src contents Hx Hq Hnl Hl Hne lit Hb.
  pose proof (multi_line_gives raw_kind r before [35; x] after q w w0 nl src contents is_kind_raw ltac:(discriminate) Hq) as H.
  rewrite bool_decide_eq_false_2 in H by discriminate. apply H; auto. destruct Hx as [-> | ->]; [by left | by right].
Qed.

(** On one line between three or more quotes: the contents may have quotes, fewer in a row than the
    delimiters have, but neither first nor last. *)
Theorem C57_multi_quoted_string : forall r before after q src content s c,
  min_int r <= -255 -> 255 <= max_int r -> (3 <= q)%nat -> quoted_line q (denotes_char 34) 0 src content -> head src <> Some 34 -> denotes_char 34 s c ->
  let lit := replicate q 34%Z ++ (src ++ s) ++ replicate q 34%Z in
  Forall is_byte (before ++ lit ++ after) ->
  gives r before lit after (LString (content ++ [c])).
Proof.
  intros r before after q src content s c H1 H2. intros.
  apply (multi_quoted_gives escaped_kind r before [] after q src content s c); auto; [by split | by left].
Qed.

Theorem C57_multi_quoted_symbol : forall r before after q src content s c,
  min_int r <= -255 -> 255 <= max_int r -> (3 <= q)%nat -> quoted_line q (denotes_char 34) 0 src content -> head src <> Some 34 -> denotes_char 34 s c ->
  let lit := 35 :: replicate q 34%Z ++ (src ++ s) ++ replicate q 34%Z in
  Forall is_byte (before ++ lit ++ after) ->
  gives r before lit after (LSymbol (content ++ [c])).
Proof.
  intros r before after q src content s c H1 H2. intros.
  apply (multi_quoted_gives escaped_kind r before [35] after q src content s c); auto; [by split | by right].
Qed.

Theorem C57_multi_quoted_raw : forall r before after x q src content s c,
  (x = 114 \/ x = 82) -> (3 <= q)%nat -> quoted_line q raw_char 0 src content -> head src <> Some 34 -> raw_char s c ->
  let lit := 35 :: x :: replicate q 34%Z ++ (src ++ s) ++ replicate q 34%Z in
  Forall is_byte (before ++ lit ++ after) ->
  gives r before lit after (LString (content ++ [c])).
Proof.
  intros r before after x q src content s c Hx Hq Hl Hh Hc lit Hb.
  pose proof (multi_quoted_gives raw_kind r before [35; x] after q src content s c is_kind_raw ltac:(discriminate) Hq) as H.
  rewrite bool_decide_eq_false_2 in H by discriminate. apply H; auto. destruct Hx as [-> | ->]; [by left | by right].
Qed.

(** Two lines, the second with quotes in it, indented by two spaces, with CRLF:
<<
"""
  a\n
  "b" c
  """
>> *)
Example C57_multi_sample : indented_lines 3 2 (denotes_char 34) [13; 10]
  ([32; 32; 97; 92; 110] ++ [13; 10] ++ [32; 32; 34; 98; 34; 32; 99] ++ [13; 10] ++ []) [[97; 10]; [34; 98; 34; 32; 99]].
Proof.
  apply IL_cons; [|apply IL_cons; [|apply IL_nil]].
  - apply (IN_line 3 2 _ [97; 92; 110]). apply (QL_char 3 _ 0 [97]); [by apply DC_plain|]. apply (QL_char 3 _ 0 [92; 110]); [apply DC_escape; cbn; tauto | constructor].
  - apply (IN_line 3 2 _ [34; 98; 34; 32; 99]). apply QL_quote; [lia|]. apply (QL_char 3 _ 1 [98]); [by apply DC_plain|]. apply QL_quote; [lia|].
    apply (QL_char 3 _ 1 [32]); [by apply DC_plain|]. apply (QL_char 3 _ 0 [99]); [by apply DC_plain | constructor].
Qed.
Example C57_multi_sample_run :
  get_token (IntRange (-1000) 1000) 100 ([34; 34; 34] ++ ([] ++ [13; 10] ++ [32; 32; 97; 92; 110; 13; 10; 32; 32; 34; 98; 34; 32; 99; 13; 10] ++ [32; 32]) ++ [34; 34; 34]) new_lexer =
  Val (Token (Some B_make_stringish_literal) 0 1 0 26 4 5, LString [97; 10; 10; 34; 98; 34; 32; 99], Lexer 26 4 21 (Counts 0 0 0 0)).
Proof. vm_compute. reflexivity. Qed.

Print Assumptions C57_multi_line_string.
Print Assumptions C57_multi_line_symbol.
Print Assumptions C57_multi_line_raw.
Print Assumptions C57_multi_quoted_string.
Print Assumptions C57_multi_quoted_symbol.
Print Assumptions C57_multi_quoted_raw.
