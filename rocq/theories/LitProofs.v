(** Proofs about literals and get-token. *)
From Verif Require Import Base LexTable LexModel LexSpec LexProofs LitModel.
From Coq Require Import ZArith Lia ZifyBool ZifyNat.
Local Open Scope outcome_scope.
Local Open Scope nat_scope.

(** ** Every function of LitModel answers or signals *)

Definition answers {A} (o : outcome A) : Prop := (exists a, o = Val a) \/ exists m, o = Signal m.

Lemma answers_val {A} (a : A) : answers (Val a).
Proof. left. eauto. Qed.
Lemma answers_signal {A} m : answers (@Signal A m).
Proof. right. eauto. Qed.
Lemma answers_bind {A B} (o : outcome A) (f : A -> outcome B) : answers o -> (forall a, answers (f a)) -> answers (obind o f).
Proof. intros [[a ->]|[m ->]] Hf; cbn; [apply Hf | apply answers_signal]. Qed.
Global Hint Resolve answers_val answers_signal : answers.

Lemma parse_repeat_answers r contents radix finish stop fuel : forall posn result,
  finish - posn < fuel -> answers (parse_repeat r contents radix finish stop fuel posn result).
Proof.
  induction fuel as [|fuel IH]; intros posn result Hf; [lia|]. cbn [parse_repeat].
  destruct (posn <? finish) eqn:E; [|apply answers_val]. destruct (contents !! posn) as [d|]; [|apply answers_signal].
  cbv zeta. repeat (case_match; try apply answers_val; try apply answers_signal); apply IH; lia.
Qed.
Lemma generic_negative_answers r z : answers (generic_negative r z).
Proof. unfold generic_negative. case_match; auto with answers. Qed.
Lemma parse_integer_answers r contents radix start finish stop : answers (parse_integer r contents radix start finish stop).
Proof.
  unfold parse_integer. destruct (contents !! start) as [first|]; [|apply answers_signal]. cbv zeta.
  repeat case_match; repeat (first [apply parse_repeat_answers; lia | apply answers_bind; [|intros [? ?]] | apply answers_bind; [apply generic_negative_answers|intros ?]]; auto with answers).
Qed.
Lemma parse_integer_literal_answers r contents start finish : answers (parse_integer_literal r contents start finish).
Proof.
  unfold parse_integer_literal.
  assert (forall radix st, answers (do ' (int, _) <- parse_integer r contents radix st finish false ; Val int)) as H.
  { intros radix st. apply answers_bind; [apply parse_integer_answers | intros [? ?]; apply answers_val]. }
  destruct (contents !! start) as [z|]; [|apply answers_signal].
  repeat (case_match; try apply answers_val; try apply answers_signal; try apply H); apply answers_bind; try apply answers_signal; try apply answers_val;
   intros; apply H.
Qed.
Lemma parse_hex_escape_answers r line start finish : answers (parse_hex_escape r line start finish).
Proof.
  unfold parse_hex_escape. apply answers_bind; [apply parse_integer_answers|]. intros [code epos].
  repeat case_match; auto with answers.
Qed.

Lemma parse_repeat_end r contents radix finish stop fuel : forall posn result z e,
  parse_repeat r contents radix finish stop fuel posn result = Val (z, e) -> posn <= e.
Proof.
  induction fuel as [|fuel IH]; intros posn result z e; [discriminate|]. cbn [parse_repeat]. cbv zeta.
  repeat (case_match; try discriminate); intros He; try (injection He as _ <-; lia); apply IH in He; lia.
Qed.
Lemma parse_integer_end r contents radix start finish stop z e : parse_integer r contents radix start finish stop = Val (z, e) -> start <= e.
Proof.
  unfold parse_integer. destruct (contents !! start) as [first|]; [|discriminate]. cbv zeta.
  destruct (first =? 45)%Z; [intros H; apply parse_repeat_end in H; lia|].
  destruct (first =? 43)%Z; destruct (parse_repeat _ _ _ _ _ _ _ _) as [[i e']| | |] eqn:E; try discriminate; cbn [obind];
    destruct (generic_negative r i); try discriminate; cbn; intros [= _ <-]; apply parse_repeat_end in E; lia.
Qed.
Lemma process_escapes_answers r line finish fuel : forall pos escaped new,
  length line - pos < fuel -> answers (process_escapes r fuel line finish pos escaped new).
Proof.
  induction fuel as [|fuel IH]; intros pos escaped new Hf; [lia|]. cbn [process_escapes].
  destruct (line !! pos) as [code|] eqn:El; [|apply answers_val]. apply lookup_lt_Some in El.
  destruct escaped.
  - destruct (code =? 60)%Z.
    + destruct (parse_hex_escape_answers r line (pos + 1) finish) as [[[c e] E]|[m E]]; rewrite E; cbn [obind]; [|apply answers_signal].
      apply IH. unfold parse_hex_escape in E. destruct (parse_integer _ _ _ _ _ _) as [[c' e']| | |] eqn:Ep; try discriminate. cbn [obind] in E.
      apply parse_integer_end in Ep. repeat (case_match; try discriminate). injection E as _ <-. lia.
    + apply answers_bind; [|intros; apply IH; lia]. unfold escape_character. repeat case_match; auto with answers.
  - destruct (code =? 92)%Z; apply IH; lia.
Qed.
Lemma process_line_answers r escapes finish prefix line : answers (process_line r escapes finish prefix line).
Proof.
  unfold process_line. destruct line as [|c line]; [apply answers_val|]. apply answers_bind.
  - unfold remove_prefix. repeat case_match; auto with answers.
  - intros l. case_match; [apply process_escapes_answers; lia | apply answers_val].
Qed.
Lemma split_lines_answers n : forall text part, length text <= n -> answers (split_lines text part).
Proof.
  induction n as [|n IH]; intros [|c text] part Hn; try apply answers_val; [cbn in Hn; lia|]. cbn [split_lines]. cbn in Hn.
  destruct (c =? 10)%Z; [apply answers_bind; [apply IH; lia | auto with answers]|].
  destruct (c =? 13)%Z.
  - repeat case_match; apply answers_bind; auto with answers; apply IH; subst; cbn in *; lia.
  - destruct (c =? 9)%Z; [apply answers_signal|]. apply IH. lia.
Qed.
Lemma decode_string_answers r contents finish bpos epos escapes : answers (decode_string r contents finish bpos epos escapes).
Proof.
  unfold decode_string. apply answers_bind; [eapply split_lines_answers; reflexivity|]. intros parts.
  assert (forall prefix ls, answers (process_lines r escapes finish prefix ls)) as Hl.
  { intros prefix. induction ls as [|l ls IH]; cbn; [apply answers_val|]. apply answers_bind; [apply process_line_answers|].
    intros. apply answers_bind; auto with answers. }
  assert (forall prefix ls, answers (do lines <- process_lines r escapes finish prefix ls ; Val (join_lines lines))) as Hl'.
  { intros. apply answers_bind; auto with answers. }
  cbv zeta. repeat (case_match; try apply answers_signal; try apply process_line_answers; try apply Hl').
Qed.
Lemma extract_string_answers r n escapes contents quotes start finish : answers (extract_string_contents r n escapes contents quotes start finish).
Proof. unfold extract_string_contents. case_match; [apply answers_val | apply decode_string_answers]. Qed.
Lemma atof_answers s : answers (atof s).
Proof.
  assert (forall s a, answers (atof_mantissa s a)) as Hm.
  { clear s. induction s as [|c s IH]; intros a; cbn; [apply answers_val|]. repeat (case_match; auto with answers). }
  assert (forall s e, answers (atof_exponent s e)) as He.
  { clear s. induction s as [|c s IH]; intros a; cbn; [apply answers_val|]. repeat (case_match; auto with answers). }
  unfold atof. match goal with |- answers (let '(_, _) := ?p in _) => destruct p as [sign t] end. apply answers_bind; [apply Hm|]. intros [a [rest|]]; [|apply answers_val].
  cbv zeta. match goal with |- answers (let '(_, _) := ?p in _) => destruct p as [up u] end. apply answers_bind; auto with answers.
Qed.
Lemma character_answers r contents start finish : answers (make_character_literal r contents start finish).
Proof.
  unfold make_character_literal.
  assert (answers (hex_escape_character r contents (start + 3) finish)) as Hh.
  { unfold hex_escape_character. apply answers_bind; [apply parse_integer_answers|]. intros [? ?]. case_match; auto with answers. }
  assert (forall c, answers (escape_character c)) as He by (intros c; unfold escape_character; repeat case_match; auto with answers).
  destruct (contents !! (start + 1)) as [z|]; [|apply answers_signal].
  repeat (case_match; try apply answers_val; try apply answers_signal; try apply Hh; try apply He).
Qed.

(** ** get-token *)

(** A lexer between tokens: its line and line start are those of its position, its counters are 0. *)
Definition ready (text : list Z) (lx : lexer) : Prop :=
  good text (lx_position lx) (lx_line lx) (lx_line_start lx) /\ rested lx.

Lemma new_ready text : ready text new_lexer.
Proof. split; [|by split]. unfold good. cbn. split_and!; auto with lia. Qed.

Lemma get_token_ok r text lx fuel :
  Forall is_byte text -> ready text lx -> 2 * (length text - lx_position lx) + 1 <= fuel ->
  (exists m, get_token r fuel text lx = Signal m) \/
  exists t l lx', get_token r fuel text lx = Val (t, l, lx') /\
    (exists lx0, scan fuel text lx = Val (t, lx0) /\ lx_position lx0 = lx_position lx') /\
    ready text lx'.
Proof.
  intros Hb [Hg Hr] Hf. destruct (scan_ok text lx fuel Hb Hg Hf) as [E|(t & lx0 & E & Hs)].
  { left. unfold get_token. rewrite E. eexists. reflexivity. }
  destruct Hs as (_ & _ & _ & _ & _ & _ & _ & _ & Hg').
  pose proof (scan_counts text fuel lx t lx0 Hr (proj1 Hg) E) as [Hdc Hdq].
  unfold get_token. rewrite E. cbn [obind]. cbv zeta.
  assert (ready text (reset_quotes lx0)) as Hrq by (split; [exact Hg' | split; [split; reflexivity | exact Hdc]]).
  assert (forall l : literal, (match tk_builder t with Some b => string_builder b | None => false end = false) ->
     (exists m, Val (t, l, lx0) = Signal m) \/ (exists t0 l0 lx', Val (t, l, lx0) = Val (t0, l0, lx') /\
       (exists lx1, Val (t, lx0) = Val (t0, lx1) /\ lx_position lx1 = lx_position lx') /\ ready text lx')) as Hplain.
  { intros l Hn. right. exists t, l, lx0. split_and!; eauto. split; [exact Hg'|]. split; [|exact Hdc].
    destruct Hdq as [(b & Eb & Hsb)|]; [rewrite Eb in Hn; congruence | done]. }
  assert (forall l : literal, (exists m, Val (t, l, reset_quotes lx0) = Signal m) \/ (exists t0 l0 lx', Val (t, l, reset_quotes lx0) = Val (t0, l0, lx') /\
       (exists lx1, Val (t, lx0) = Val (t0, lx1) /\ lx_position lx1 = lx_position lx') /\ ready text lx')) as Hstr.
  { intros l. right. exists t, l, (reset_quotes lx0). split_and!; eauto. }
  destruct (tk_builder t) as [b|]; [|apply Hplain; reflexivity].
  destruct b; try (apply Hplain; reflexivity); try (left; eexists; reflexivity).
  - destruct (parse_integer_literal_answers r text (tk_start t) (tk_end t)) as [[a ->]|[m ->]]; cbn [obind];
      [apply Hplain; reflexivity | left; eexists; reflexivity].
  - destruct (character_answers r text (tk_start t) (tk_end t)) as [[a ->]|[m ->]]; cbn [obind];
      [apply Hplain; reflexivity | left; eexists; reflexivity].
  - assert (forall n, answers (extract_string_contents r n true text (dq_start (lx_counts lx0)) (tk_start t) (tk_end t))) as Ha
      by (intros; apply extract_string_answers).
    repeat case_match;
      match goal with |- context [extract_string_contents r ?n _ _ _ _ _] => destruct (Ha n) as [[a ->]|[m ->]] end;
      cbn [obind]; try (left; eexists; reflexivity); apply Hstr.
  - destruct (extract_string_answers r 2 false text (dq_start (lx_counts lx0)) (tk_start t) (tk_end t)) as [[a ->]|[m ->]]; cbn [obind];
      [apply Hstr | left; eexists; reflexivity].
  - destruct (atof_answers (take (tk_end t - tk_start t) (drop (tk_start t) text))) as [[a ->]|[m ->]]; cbn [obind];
      [apply Hplain; reflexivity | left; eexists; reflexivity].
Qed.
