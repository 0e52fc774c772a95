(** C56: whitespace and comments are skipped, and nothing else is. *)
From Verif Require Import Base LexTable LexModel LexSpec LexProofs LexPathProofs LitModel LitProofs BlankSpec BlankProofs.
From Coq Require Import ZArith Lia ZifyBool ZifyNat.
Local Open Scope outcome_scope.
Local Open Scope nat_scope.

Lemma ready_at text lx : ready text lx -> lx = lexer_at text (lx_position lx) /\ lx_position lx <= length text.
Proof.
  intros [Hg [[H1 H2] [H3 H4]]]. split; [|apply Hg]. apply good_start in Hg as [Hl Hs]. destruct lx as [p l s [a b c d]]. cbn in *. subst. reflexivity.
Qed.

(** Whitespace and comments before a token make no difference: reading from before them is the same as
    reading from after them.  (Partial: provided no comment bracket is closed right before a slash or a
    star, see [C56_tight_close_refuted].) *)
Theorem C56_skipped_partial : forall r before blanks rest lx lx',
  let text := before ++ blanks ++ rest in
  Forall is_byte text -> Forall (fun c => is_legal c = true) (blanks ++ rest) -> no_tight_close (blanks ++ rest) ->
  skips (blanks ++ rest) rest ->
  ready text lx -> lx_position lx = length before ->
  ready text lx' -> lx_position lx' = length before + length blanks ->
  get_token r (2 * length text + 1) text lx = get_token r (2 * length text + 1) text lx'.
Proof.
  intros r before blanks rest lx lx' text Hb Hl Ht Hs Hr Hp Hr' Hp'.
  assert (scan (2 * length text + 1) text lx = scan (2 * length text + 1) text lx') as E; [|by unfold get_token; rewrite E].
  apply ready_at in Hr as [Elx Hle]. apply ready_at in Hr' as [Elx' Hle']. rewrite Elx, Elx', Hp, Hp'. rewrite Hp in Hle. rewrite Hp' in Hle'. clear Elx Elx' lx lx' Hp Hp'.
  set (F := 2 * length text + 1).
  assert (repeat_ F text S_start (length before) (initial_vars (lexer_at text (length before))) =
    repeat_ F text S_start (length before + length blanks) (initial_vars (lexer_at text (length before + length blanks)))) as E; [|by unfold scan; cbn [lx_position lexer_at]; rewrite E].
  assert (drop (length before) text = blanks ++ rest) as Hd by (unfold text; apply drop_app).
  assert (length text = length before + (length blanks + length rest)) as Hlen by (unfold text; by rewrite !app_length).
  destruct (skips_repeat text _ rest Hb Hs (length before) (initial_vars (lexer_at text (length before))) F Hd Hle Hl Ht (good_at text _ Hle) eq_refl)
    as (f & p & E & Hd' & Hp & Hf).
  { rewrite app_length. unfold F. lia. }
  assert (p = length before + length blanks) as -> by (apply (f_equal length) in Hd'; rewrite drop_length in Hd'; lia).
  rewrite E. clear E. set (p := length before + length blanks) in *.
  assert (inv text p S_start p (initial_vars (lexer_at text p))) as Hi.
  { destruct (good_at text p Hp) as (Hg & _ & _). split; cbn; auto; try congruence. intros ? ?; discriminate. }
  destruct (repeat_ok text p f Hb S_start p _ Hi) as (e & v & E & _); [rewrite measure_S_start; lia|].
  destruct (repeat_ok text p F Hb S_start p _ Hi) as (e' & v' & E' & _); [rewrite measure_S_start; unfold F; lia|].
  pose proof (repeat_mono f text (Nat.max f F) _ _ _ _ ltac:(lia) E ltac:(discriminate)) as M.
  pose proof (repeat_mono F text (Nat.max f F) _ _ _ _ ltac:(lia) E' ltac:(discriminate)) as M'. congruence.
Qed.

(** What is skipped before a token is only whitespace and comments, and all of it: no whitespace and no
    comment begins where the token begins.  (Partial: in a text that ends in an end of line, see
    [C56_last_line_refuted], and without tight closes.) *)
Theorem C56_only_blanks_partial : forall r text lx t l lx',
  Forall (fun c => is_legal c = true) text -> no_tight_close text -> (forall c, last text = Some c -> is_eol c = true) ->
  ready text lx -> get_token r (2 * length text + 1) text lx = Val (t, l, lx') ->
  skips (drop (lx_position lx) text) (drop (tk_start t) text) /\ no_blank (drop (tk_start t) text) /\ tk_start t <= length text.
Proof.
  intros r text lx t l lx' Hl Ht He Hr E.
  assert (Forall is_byte text) as Hb by (eapply Forall_impl; [exact Hl | intros c; apply is_legal_byte]).
  destruct (get_token_ok r text lx (2 * length text + 1) Hb Hr) as [(m & E')|(t' & l' & lx1 & E' & (lx0 & Es & _) & _)]; [lia | congruence|].
  rewrite E in E'. injection E' as <- <- <-.
  apply ready_at in Hr as [Elx Hp]. rewrite Elx in Es. set (p := lx_position lx) in *. clearbody p.
  clear E. unfold scan in Es. cbn [lx_position lexer_at] in Es.
  destruct (repeat_ _ text S_start p (initial_vars (lexer_at text p))) as [[e v]| | |] eqn:Er; cbn [obind] in Es; try discriminate.
  assert (tk_start t = start_pos v /\ (bldr v <> None \/ length text <= start_pos v)) as [-> Hv].
  { destruct (bldr v) as [b|] eqn:Eb.
    - destruct (end_pos v), (end_line v), (end_line_start v); try discriminate. injection Es as <- <-. split; [done | left; congruence].
    - destruct (length text <=? start_pos v) eqn:Eq; [|discriminate]. injection Es as <- <-. split; [done | right; lia]. }
  assert (inv text p S_start p (initial_vars (lexer_at text p))) as Hi.
  { destruct (good_at text p Hp) as (Hg & _ & _). split; cbn; auto; try congruence. intros ? ?; discriminate. }
  destruct (repeat_ok text p (2 * length text + 1) Hb S_start p _ Hi) as (e' & v' & Er' & Ho); [rewrite measure_S_start; lia|].
  rewrite Er in Er'. injection Er' as <- <-. destruct Ho as [Hsg _ _ _].
  assert (exists pre, text = pre ++ drop p text) as [pre Hpre] by (exists (take p text); by rewrite take_drop).
  destruct (repeat_skips text Hb (length text) (drop p text) p (2 * length text + 1) e v) as (rest & H1 & H2 & H3 & H4); auto.
  - rewrite drop_length. lia.
  - by apply Forall_drop.
  - rewrite Hpre in Ht. by apply no_tight_app in Ht.
  - intros c Hc. apply He. rewrite Hpre, last_app, Hc. reflexivity.
  - rewrite drop_length. lia.
  - destruct Hv as [Hv|Hv]; [by left | right]. destruct Hsg as [Hsg _]. lia.
  - rewrite H2. done.
Qed.

(** A comment that is never closed is reported. *)
Theorem C56_unterminated : forall r before rest lx,
  let text := before ++ 47%Z :: 42%Z :: rest in
  Forall is_byte text -> Forall (fun c => is_legal c = true) rest -> no_tight_close rest ->
  after_comment 1 false rest = None -> ready text lx -> lx_position lx = length before ->
  get_token r (2 * length text + 1) text lx = Signal "invalid-token".
Proof.
  intros r before rest lx text Hb Hl Ht Ha Hr Hp. apply ready_at in Hr as [Elx Hle]. rewrite Elx, Hp. rewrite Hp in Hle. clear Elx Hp lx.
  assert (drop (length before) text = 47%Z :: 42%Z :: rest) as Hd by (unfold text; apply drop_app).
  assert (length text = length before + S (S (length rest))) as Hlen by (unfold text; by rewrite app_length).
  pose proof (comment_restarts text (length before) _ (2 * length text + 1) rest Hb Hd Hl Ht (good_at text _ Hle)) as H. rewrite Ha in H.
  destruct H as (e & v & E & Hbv & Hsv); [cbn [length]; lia|].
  unfold get_token, scan. cbn [lx_position lexer_at]. rewrite E. cbn [obind]. rewrite Hbv. cbn in Hsv.
  replace (length text <=? start_pos v) with false by lia. reflexivity.
Qed.

(** A comment in a comment that is closed right before a slash or a star is not seen to be closed: in
    "/* b /* c */*/ x" the comment is never closed, and "/* b /* c *//* */ */ x" is read as if the
    comment ended at the first "*/" but one. *)
Theorem C56_tight_close_refuted : exists text,
  Forall (fun c => is_legal c = true) text /\ skips text [120; 10]%Z /\
  forall r, get_token r (2 * length text + 1) text new_lexer = Signal "invalid-token".
Proof.
  exists [47; 42; 32; 98; 32; 47; 42; 32; 99; 32; 42; 47; 42; 47; 32; 120; 10]%Z. split_and!.
  - repeat constructor.
  - eapply skips_comment; [vm_compute; reflexivity|]. apply skips_white; [done|]. apply skips_none.
  - intros r. vm_compute. reflexivity.
Qed.
Theorem C56_early_close_refuted : exists text t lx,
  Forall (fun c => is_legal c = true) text /\ skips text [120; 10]%Z /\
  forall r, get_token r (2 * length text + 1) text new_lexer = Val (t, LText [42]%Z, lx).
Proof.
  exists [47; 42; 32; 98; 32; 47; 42; 32; 99; 32; 42; 47; 47; 42; 32; 42; 47; 32; 42; 47; 32; 120; 10]%Z. eexists _, _. split_and!.
  - repeat constructor.
  - eapply skips_comment; [vm_compute; reflexivity|]. apply skips_white; [done|]. apply skips_none.
  - intros r. vm_compute. reflexivity.
Qed.

(** A comment on the last line, when that has no end of line, is not a comment: "// x" is read as the
    tokens /, / and x. *)
Theorem C56_last_line_refuted : forall r,
  let text := [47; 47; 32; 120]%Z in
  let lexer_after n := Lexer n 1 0 (Counts 0 0 0 0) in
  (exists t, get_token r 9 text new_lexer = Val (t, LText [47]%Z, lexer_after 1)) /\
  (exists t, get_token r 9 text (lexer_after 1) = Val (t, LText [47]%Z, lexer_after 2)) /\
  (exists t, get_token r 9 text (lexer_after 2) = Val (t, LText [120]%Z, lexer_after 4)).
Proof. intros r text lexer_after. subst text lexer_after. split_and!; eexists; vm_compute; reflexivity. Qed.

Print Assumptions C56_skipped_partial.
Print Assumptions C56_only_blanks_partial.
Print Assumptions C56_unterminated.
Print Assumptions C56_tight_close_refuted.
Print Assumptions C56_early_close_refuted.
Print Assumptions C56_last_line_refuted.

(** ** The hypotheses are met *)

(** " /* a /* b */ // c */\n */ // d\n x\n" *)
Definition blank_example : list Z :=
  [32; 47; 42; 32; 97; 32; 47; 42; 32; 98; 32; 42; 47; 32; 47; 47; 32; 99; 32; 42; 47; 10; 32; 42; 47; 32; 47; 47; 32; 100; 10; 32; 120; 10]%Z.
Fixpoint tight_b (l : list Z) : bool :=
  match l with
  | [] => false
  | a :: l' => match l' with b :: c :: _ => (a =? 42)%Z && (b =? 47)%Z && ((c =? 47)%Z || (c =? 42)%Z) | _ => false end || tight_b l'
  end.
Lemma tight_b_ok l : tight_b l = false -> no_tight_close l.
Proof.
  intros H b c a ->. induction b as [|x b IH]; cbn [app tight_b] in H.
  - apply orb_false_iff in H as [H _]. change ((42 =? 42)%Z && (47 =? 47)%Z) with true in H. cbn [andb] in H. lia.
  - apply orb_false_iff in H as [_ H]. by apply IH.
Qed.
Example C56_example : skips blank_example [120; 10]%Z /\ Forall (fun c => is_legal c = true) blank_example /\ no_tight_close blank_example /\
  no_blank [120; 10]%Z /\
  exists t lx, get_token (IntRange (-8) 7) 100 blank_example new_lexer = Val (t, LText [120]%Z, lx) /\ tk_start t = 32 /\ tk_start_line t = 3.
Proof.
  split_and!.
  - apply skips_white; [done|]. eapply skips_comment; [vm_compute; reflexivity|]. apply skips_white; [done|].
    eapply skips_line; [vm_compute; reflexivity|]. apply skips_white; [done|]. apply skips_none.
  - repeat constructor.
  - apply tight_b_ok. reflexivity.
  - split; [reflexivity | intros [? _]; discriminate].
  - eexists _, _. split; [vm_compute; reflexivity | split; reflexivity].
Qed.
Example C56_example_unterminated : after_comment 1 false [32; 47; 42; 32; 42; 47; 32; 120]%Z = None.
Proof. reflexivity. Qed.
