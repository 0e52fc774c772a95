(** Whitespace and comments. *)
From Verif Require Import Base LexTable LexModel LexSpec LexProofs LexPathProofs BlankSpec.
From Coq Require Import ZArith Lia ZifyBool ZifyNat.
Local Open Scope outcome_scope.
Local Open Scope nat_scope.

(** More fuel changes nothing. *)
Lemma repeat_mono fuel text : forall fuel' s pos v x, fuel <= fuel' -> repeat_ fuel text s pos v = x -> x <> NoFuel -> repeat_ fuel' text s pos v = x.
Proof.
  induction fuel as [|fuel IH]; intros fuel' s pos v x Hf E Hx; [cbn in E; congruence|]. destruct fuel' as [|fuel']; [lia|].
  assert (forall s pos v x, advance_ fuel text s pos v = x -> x <> NoFuel -> advance_ fuel' text s pos v = x) as Ha.
  { clear -IH Hf. intros s pos v x E Hx. unfold advance_ in *. destruct (pos <? length text); [|done].
    destruct (next_state text s pos v) as [[[s'|] v']| | |]; cbn [obind] in *; auto. apply (IH fuel'); auto. lia. }
  rewrite repeat_unfold in *. cbv zeta in *. destruct (do_state_action s (kounts v)) as [acc k].
  destruct acc; [by apply Ha| | by apply Ha | |];
    (destruct (state_builder s) as [[]|]; first [by apply Ha | by apply (IH fuel'); [lia|..] | done]).
Qed.

(** Advancing over a character. *)
Lemma advance_any fuel text s pos v c rest s' :
  drop pos text = c :: rest -> Forall is_byte text -> step s c = Some s' -> good text pos (cur_line v) (cur_line_start v) ->
  exists v', advance_ fuel text s pos v = repeat_ fuel text s' (S pos) v' /\ drop (S pos) text = rest /\
    good text (S pos) (cur_line v') (cur_line_start v') /\ kounts v' = kounts v /\ bldr v' = bldr v /\ start_pos v' = start_pos v.
Proof.
  intros Hd Hb Hs Hg. destruct (drop_cons_lookup _ _ _ _ Hd) as (Hc & Hd' & _). pose proof (good_step text pos _ _ c Hg Hc) as Hg'.
  unfold newline_code in Hg'. destruct (Z.eqb_spec c 10) as [->|Hn].
  - exists (newline_seen v pos). by rewrite (advance_newline _ _ _ _ _ _ _ Hd Hs).
  - exists v. by rewrite (advance_step _ _ _ _ _ _ _ _ Hd Hb Hn Hs).
Qed.

Definition zero_counts (k : counts) : Prop := k = Counts 0 0 0 0.

(** The machine has gone back to the start after a blank. *)
Definition restarts (text : list Z) (o : outcome (nat * vars)) (rest : list Z) : Prop :=
  exists fuel pos v, o = repeat_ fuel text S_start pos (started_over v pos) /\ drop pos text = rest /\ good text pos (cur_line v) (cur_line_start v) /\
    zero_counts (kounts v) /\ 2 * length rest + 1 <= fuel.

Lemma is_legal_byte c : is_legal c = true -> is_byte c.
Proof. unfold is_legal, is_white, is_byte. lia. Qed.

Lemma legal_step (f : Z -> bool) s s' :
  forallb (fun c => implb (is_legal c && f c) (same_state (step s c) s')) all_codes = true -> forall c, is_legal c = true -> f c = true -> step s c = Some s'.
Proof. intros H c Hl Hf. eapply (class_step (fun c => is_legal c && f c)); [exact H | by apply is_legal_byte | by rewrite Hl, Hf]. Qed.

Lemma no_tight_tail c text : no_tight_close (c :: text) -> no_tight_close text.
Proof. intros H b x a ->. apply (H (c :: b) x a). reflexivity. Qed.

(** ** Comments in brackets *)

Definition pending (s : lstate) : list Z :=
  match s with S_delimited_comment_slash => [47%Z] | S_delimited_comment_star => [42%Z] | _ => [] end.
Definition hidden (s : lstate) : bool := match s with S_delimited_comment_slash_slash => true | _ => false end.
Definition in_comment (s : lstate) : bool :=
  match s with
  | S_delimited_comment_start | S_delimited_comment_slash | S_delimited_comment_slash_slash | S_delimited_comment_star
  | S_delimited_comment_body | S_delimited_comment_end => true
  | _ => false
  end.

Definition ends_badly (o : outcome (nat * vars)) (start : nat) : Prop :=
  exists e v, o = Val (e, v) /\ bldr v = None /\ start_pos v = start.

Lemma comment_states : forall s, in_comment s = true -> s = S_delimited_comment_start \/ s = S_delimited_comment_slash \/
  s = S_delimited_comment_slash_slash \/ s = S_delimited_comment_star \/ s = S_delimited_comment_body \/ s = S_delimited_comment_end.
Proof. intros s. destruct s; cbn; intros; try discriminate; tauto. Qed.

Lemma after_comment_other d c text : c <> 47%Z -> c <> 42%Z -> after_comment d false (c :: text) = after_comment d false text.
Proof.
  intros H1 H2. cbn [after_comment]. replace (c =? 47)%Z with false by lia. replace (c =? 42)%Z with false by lia. cbn [andb].
  by destruct text.
Qed.

Lemma after_comment_two d a b text : after_comment d false (a :: b :: text) =
  if (a =? 47)%Z && (b =? 47)%Z then after_comment d true (b :: text)
  else if (a =? 47)%Z && (b =? 42)%Z then after_comment (S d) false text
  else if (a =? 42)%Z && (b =? 47)%Z then match d with S (S d) => after_comment (S d) false text | _ => Some text end
  else after_comment d false (b :: text).
Proof. reflexivity. Qed.
Lemma after_comment_hidden d c text : after_comment d true (c :: text) = after_comment d (negb (is_eol c)) text.
Proof. reflexivity. Qed.
Local Arguments after_comment : simpl never.

Lemma body_plain : plain S_delimited_comment_body = true /\ plain S_delimited_comment_slash = true /\ plain S_delimited_comment_slash_slash = true /\
  plain S_delimited_comment_star = true.
Proof. by split_and!. Qed.

Lemma comment_loop text : Forall is_byte text -> forall rest s pos v fuel d,
  in_comment s = true -> drop pos text = rest -> Forall (fun c => is_legal c = true) rest -> no_tight_close (pending s ++ rest) ->
  (s = S_delimited_comment_end -> no_tight_close (42%Z :: 47%Z :: rest)) ->
  good text pos (cur_line v) (cur_line_start v) -> bldr v = None ->
  dq_start (kounts v) = 0 -> dq_end (kounts v) = 0 -> dc_start (kounts v) = d + dc_end (kounts v) -> 1 <= d -> 2 * length rest + 2 <= fuel ->
  match after_comment d (hidden s) (pending s ++ rest) with
  | Some rest' => restarts text (advance_ fuel text s pos v) rest'
  | None => ends_badly (advance_ fuel text s pos v) (start_pos v)
  end.
Proof.
  intros Hb. induction rest as [|c rest IH]; intros s pos v fuel d Hs Hd Hl Ht Hte Hg Hbl Hq1 Hq2 Hc Hd1 Hf.
  { assert (after_comment d (hidden s) (pending s ++ []) = None) as ->.
    { destruct (comment_states s Hs) as [->|[->|[->|[->|[->| ->]]]]]; reflexivity. }
    destruct (advance_stuck fuel text s pos v [] Hd Hb I) as (w & -> & Hw). destruct Hw as (H1 & _ & _ & H4 & _).
    exists pos, w. rewrite H1, H4. done. }
  apply Forall_cons in Hl as [Hlc Hl]. cbn [length] in Hf. destruct fuel as [|fuel]; [lia|].
  (* a step to an ordinary state of the comment *)
  assert (forall s', step s c = Some s' -> in_comment s' = true -> plain s' = true -> state_builder s' = None -> no_tight_close (pending s' ++ rest) ->
    s' <> S_delimited_comment_end ->
    match after_comment d (hidden s') (pending s' ++ rest) with
    | Some rest' => restarts text (advance_ (S fuel) text s pos v) rest'
    | None => ends_badly (advance_ (S fuel) text s pos v) (start_pos v)
    end) as Hgo.
  { intros s' Hst Hs' Hp Hbs Ht' Hne. destruct (advance_any (S fuel) text s pos v c rest s' Hd Hb Hst Hg) as (v' & -> & Hd' & Hg' & Hk' & Hb' & Hsp').
    rewrite repeat_plain by done. unfold saved. rewrite Hbs. rewrite <- Hsp'. apply IH; auto; try congruence. lia. }
  assert (no_tight_close rest) as Htr.
  { destruct (comment_states s Hs) as [->|[->|[->|[->|[->| ->]]]]]; cbn in Ht; repeat (apply no_tight_tail in Ht); done. }
  assert (c = 47%Z -> no_tight_close (47%Z :: rest)) as Ht47.
  { intros ->. destruct (comment_states s Hs) as [->|[->|[->|[->|[->| ->]]]]]; cbn in Ht; try exact Ht; by apply no_tight_tail in Ht. }
  assert (c = 42%Z -> no_tight_close (42%Z :: rest)) as Ht42.
  { intros ->. destruct (comment_states s Hs) as [->|[->|[->|[->|[->| ->]]]]]; cbn in Ht; try exact Ht; by apply no_tight_tail in Ht. }
  assert (forall s, (s = S_delimited_comment_start \/ s = S_delimited_comment_body) -> step s c =
     if (c =? 47)%Z then Some S_delimited_comment_slash else if (c =? 42)%Z then Some S_delimited_comment_star else Some S_delimited_comment_body) as Hbody.
  { intros s0 Hs0. destruct (Z.eqb_spec c 47) as [->|H47]; [by destruct Hs0 as [-> | ->]|]. destruct (Z.eqb_spec c 42) as [->|H42]; [by destruct Hs0 as [-> | ->]|].
    destruct Hs0 as [-> | ->]; (eapply (legal_step (fun c => negb (c =? 47)%Z && negb (c =? 42)%Z)); [vm_compute; reflexivity | done | lia]). }
  assert (step s c = (if (c =? 47)%Z then Some S_delimited_comment_slash else if (c =? 42)%Z then Some S_delimited_comment_star else Some S_delimited_comment_body) ->
    hidden s = false -> pending s = [] ->
    match after_comment d (hidden s) (pending s ++ c :: rest) with
    | Some rest' => restarts text (advance_ (S fuel) text s pos v) rest'
    | None => ends_badly (advance_ (S fuel) text s pos v) (start_pos v)
    end) as Hord.
  { intros Hst -> ->. cbn [app]. destruct (Z.eqb_spec c 47) as [->|H47]; [apply (Hgo S_delimited_comment_slash Hst); auto; done|].
    destruct (Z.eqb_spec c 42) as [->|H42]; [apply (Hgo S_delimited_comment_star Hst); auto; done|].
    rewrite after_comment_other by done. apply (Hgo S_delimited_comment_body Hst); auto; done. }
  destruct (comment_states s Hs) as [->|[->|[->|[->|[->| ->]]]]].
  - apply Hord; auto.
  - (* after a slash *)
    cbn [pending hidden app]. rewrite after_comment_two.
    destruct (Z.eqb_spec c 47) as [->|H47].
    { change ((47 =? 47)%Z && true) with true. cbv iota. rewrite after_comment_hidden. change (negb (is_eol 47)) with true. apply (Hgo S_delimited_comment_slash_slash); done. }
    destruct (Z.eqb_spec c 42) as [->|H42].
    { change ((47 =? 47)%Z && false) with false. change ((47 =? 47)%Z && true) with true. cbv iota.
      destruct (advance_any (S fuel) text S_delimited_comment_slash pos v 42 rest S_delimited_comment_start Hd Hb eq_refl Hg) as (v' & -> & Hd' & Hg' & Hk' & Hb' & Hsp').
      rewrite repeat_unfold. change (do_state_action S_delimited_comment_start (kounts v')) with
        (AClear, Counts (dq_start (kounts v')) (dq_end (kounts v')) (S (dc_start (kounts v'))) (dc_end (kounts v'))). cbv zeta iota.
      set (w := clear_previous _).
      pose proof (IH S_delimited_comment_start (S pos) w fuel (S d)) as H. cbn [pending hidden app] in H. rewrite <- Hsp'.
      change (start_pos v') with (start_pos w). apply H; auto; subst w; cbn; rewrite ?Hk'; try done; lia. }
    change ((47 =? 47)%Z && false) with false. change (47 =? 42)%Z with false. cbn [andb].
    rewrite (after_comment_other d c rest H47 H42).
    apply (Hgo S_delimited_comment_body); auto; try done.
    eapply (legal_step (fun c => negb (c =? 47)%Z && negb (c =? 42)%Z)); [vm_compute; reflexivity | done | lia].
  - (* in the rest of a line after two slashes *)
    cbn [pending hidden app]. rewrite after_comment_hidden. destruct (is_eol c) eqn:Ee; cbn [negb].
    + apply (Hgo S_delimited_comment_body); auto; try done. eapply (legal_step is_eol); [vm_compute; reflexivity | done | done].
    + apply (Hgo S_delimited_comment_slash_slash); auto; try done. eapply (legal_step (fun c => negb (is_eol c))); [vm_compute; reflexivity | done | by rewrite Ee].
  - (* after a star *)
    cbn [pending hidden app]. rewrite after_comment_two.
    destruct (Z.eqb_spec c 47) as [->|H47].
    { change ((42 =? 47)%Z && true) with false. change ((42 =? 47)%Z && (47 =? 42)%Z) with false. change ((42 =? 42)%Z && true) with true. cbv iota.
      destruct (advance_any (S fuel) text S_delimited_comment_star pos v 47 rest S_delimited_comment_end Hd Hb eq_refl Hg) as (v' & -> & Hd' & Hg' & Hk' & Hb' & Hsp').
      rewrite repeat_unfold. unfold do_state_action. cbn [state_action state_builder run_action].
      destruct d as [|[|d]]; [lia| |].
      - replace (S (dc_end (kounts v')) =? dc_start (kounts v')) with true by (rewrite Hk'; lia). cbv zeta iota.
        exists fuel, (S pos), (reset_comment (set_counts v' (Counts (dq_start (kounts v')) (dq_end (kounts v')) (dc_start (kounts v')) (S (dc_end (kounts v')))))).
        split_and!; auto; [|lia]. unfold zero_counts. cbn. rewrite Hk', Hq1, Hq2. reflexivity.
      - replace (S (dc_end (kounts v')) =? dc_start (kounts v')) with false by (rewrite Hk'; lia). cbv zeta iota.
        set (w := set_counts _ _).
        pose proof (IH S_delimited_comment_end (S pos) w fuel (S d)) as H. cbn [pending hidden app] in H. rewrite <- Hsp'.
        change (start_pos v') with (start_pos w). apply H; auto; subst w; cbn; rewrite ?Hk'; try done; try lia. congruence. }
    replace ((42 =? 47)%Z && false) with false by done. change ((42 =? 47)%Z) with false. cbn [andb].
    rewrite andb_false_r. cbv iota.
    destruct (Z.eqb_spec c 42) as [->|H42]; [apply (Hgo S_delimited_comment_star); auto; done|].
    rewrite (after_comment_other d c rest H47 H42).
    apply (Hgo S_delimited_comment_body); auto; try done.
    eapply (legal_step (fun c => negb (c =? 47)%Z && negb (c =? 42)%Z)); [vm_compute; reflexivity | done | lia].
  - apply Hord; auto.
  - (* after an inner comment *)
    destruct (Hte eq_refl [] c rest eq_refl) as [H47 H42].
    cbn [pending hidden app]. rewrite after_comment_other by done. apply (Hgo S_delimited_comment_body); auto; try done.
    eapply (legal_step (fun c => true)); [vm_compute; reflexivity | done | done].
Qed.

(** ** Comments to the end of the line *)

Lemma line_loop text : Forall is_byte text -> forall rest pos v fuel rest',
  drop pos text = rest -> Forall (fun c => is_legal c = true) rest -> good text pos (cur_line v) (cur_line_start v) ->
  zero_counts (kounts v) -> 2 * length rest + 2 <= fuel -> after_line_comment rest = Some rest' ->
  restarts text (advance_ fuel text S_single_line_comment pos v) rest'.
Proof.
  intros Hb. induction rest as [|c rest IH]; intros pos v fuel rest' Hd Hl Hg Hk Hf Ha; [discriminate|].
  apply Forall_cons in Hl as [Hlc Hl]. cbn [length] in Hf. destruct fuel as [|fuel]; [lia|]. cbn in Ha. destruct (is_eol c) eqn:Ee.
  - injection Ha as <-.
    assert (exists s', step S_single_line_comment c = Some s' /\ state_action s' = None /\ state_builder s' = Some B_comment) as (s' & Hst & Hac & Hbs).
    { unfold is_eol in Ee. assert (c = 10 \/ c = 13)%Z as [-> | ->] by lia;
        [exists S_single_line_comment_end | exists S_single_line_comment_cr]; split_and!; reflexivity. }
    destruct (advance_any (S fuel) text _ pos v c rest s' Hd Hb Hst Hg) as (v' & -> & Hd' & Hg' & Hk' & _).
    rewrite repeat_unfold. unfold do_state_action. rewrite Hac, Hbs. cbv zeta iota. rewrite set_counts_same.
    exists fuel, (S pos), (reset_comment v'). split_and!; auto; [|lia]. unfold zero_counts in *. cbn. by rewrite Hk', Hk.
  - assert (step S_single_line_comment c = Some S_single_line_comment) as Hst.
    { eapply (legal_step (fun c => negb (is_eol c))); [vm_compute; reflexivity | done | by rewrite Ee]. }
    destruct (advance_any (S fuel) text _ pos v c rest _ Hd Hb Hst Hg) as (v' & -> & Hd' & Hg' & Hk' & _).
    rewrite repeat_plain by done. unfold saved. cbn [state_builder]. apply IH; auto; [|lia]. unfold zero_counts in *. congruence.
Qed.

(** ** One blank *)

Definition ready_vars (text : list Z) (pos : nat) (v : vars) : Prop :=
  good text pos (cur_line v) (cur_line_start v) /\ zero_counts (kounts v) /\ bldr v = None.

Lemma start_plain : plain S_start = true /\ state_builder S_start = None.
Proof. done. Qed.

Lemma white_restarts text pos v fuel c rest :
  Forall is_byte text -> drop pos text = c :: rest -> is_white c = true -> ready_vars text pos v -> 2 * length (c :: rest) + 1 <= fuel ->
  restarts text (repeat_ fuel text S_start pos v) rest.
Proof.
  intros Hb Hd Hw (Hg & Hk & _) Hf. cbn [length] in Hf. destruct fuel as [|[|fuel]]; [lia..|]. rewrite repeat_plain by done. unfold saved. cbn [state_builder].
  assert (step S_start c = Some S_whitespace) as Hst.
  { eapply (legal_step is_white); [vm_compute; reflexivity | unfold is_legal; by rewrite Hw | done]. }
  destruct (advance_any (S fuel) text _ pos v c rest _ Hd Hb Hst Hg) as (v' & -> & Hd' & Hg' & Hk' & _).
  rewrite repeat_unfold. change (do_state_action S_whitespace (kounts v')) with (AYes, kounts v'). cbn [state_builder]. cbv zeta iota. rewrite set_counts_same.
  exists fuel, (S pos), v'. split_and!; auto; [unfold zero_counts in *; congruence | lia].
Qed.

(** The first slash of a comment. *)
Lemma slash_first text pos v fuel rest :
  Forall is_byte text -> drop pos text = 47%Z :: rest -> ready_vars text pos v ->
  exists w, repeat_ (S (S fuel)) text S_start pos v = advance_ fuel text S_slash (S pos) w /\ drop (S pos) text = rest /\
    good text (S pos) (cur_line w) (cur_line_start w) /\ kounts w = kounts v /\ start_pos w = start_pos v.
Proof.
  intros Hb Hd (Hg & Hk & _). rewrite repeat_plain by done. unfold saved. cbn [state_builder].
  destruct (advance_any (S fuel) text S_start pos v 47 rest S_slash Hd Hb eq_refl Hg) as (v' & -> & Hd' & Hg' & Hk' & _ & Hs').
  rewrite repeat_plain by done. destruct (saved_fields v' (S pos) S_slash) as (E1 & _ & _ & E4 & E5 & E6).
  exists (saved v' (S pos) S_slash). rewrite E1, E4, E5, E6. split_and!; auto.
Qed.

Lemma line_restarts text pos v fuel rest rest' :
  Forall is_byte text -> drop pos text = 47%Z :: 47%Z :: rest -> Forall (fun c => is_legal c = true) rest -> ready_vars text pos v ->
  after_line_comment rest = Some rest' -> 2 * length (47%Z :: 47%Z :: rest) + 1 <= fuel ->
  restarts text (repeat_ fuel text S_start pos v) rest'.
Proof.
  intros Hb Hd Hl Hr Ha Hf. cbn [length] in Hf. destruct fuel as [|[|[|fuel]]]; [lia..|].
  destruct (slash_first text pos v (S fuel) _ Hb Hd Hr) as (w & -> & Hd' & Hg' & Hk' & _).
  destruct (advance_any (S fuel) text S_slash (S pos) w 47 rest S_single_line_comment Hd' Hb eq_refl Hg') as (v' & -> & Hd'' & Hg'' & Hk'' & _).
  rewrite repeat_plain by done. unfold saved. cbn [state_builder]. eapply line_loop; eauto; [|lia].
  destruct Hr as (_ & Hk & _). unfold zero_counts in *. congruence.
Qed.

Lemma comment_restarts text pos v fuel rest :
  Forall is_byte text -> drop pos text = 47%Z :: 42%Z :: rest -> Forall (fun c => is_legal c = true) rest -> no_tight_close rest -> ready_vars text pos v ->
  2 * length (47%Z :: 42%Z :: rest) + 1 <= fuel ->
  match after_comment 1 false rest with
  | Some rest' => restarts text (repeat_ fuel text S_start pos v) rest'
  | None => ends_badly (repeat_ fuel text S_start pos v) (start_pos v)
  end.
Proof.
  intros Hb Hd Hl Ht Hr Hf. cbn [length] in Hf. destruct fuel as [|[|[|fuel]]]; [lia..|].
  destruct (slash_first text pos v (S fuel) _ Hb Hd Hr) as (w & -> & Hd' & Hg' & Hk' & Hs').
  destruct (advance_any (S fuel) text S_slash (S pos) w 42 rest S_delimited_comment_start Hd' Hb eq_refl Hg') as (v' & -> & Hd'' & Hg'' & Hk'' & _ & Hs'').
  rewrite repeat_unfold. change (do_state_action S_delimited_comment_start (kounts v')) with
    (AClear, Counts (dq_start (kounts v')) (dq_end (kounts v')) (S (dc_start (kounts v'))) (dc_end (kounts v'))). cbv zeta iota.
  set (u := clear_previous _). destruct Hr as (_ & Hk & _). unfold zero_counts in Hk.
  pose proof (comment_loop text Hb rest S_delimited_comment_start (S (S pos)) u fuel 1) as H. cbn [pending hidden app] in H.
  rewrite <- Hs', <- Hs''. change (start_pos v') with (start_pos u). apply H; auto; subst u; cbn; rewrite ?Hk'', ?Hk', ?Hk; try done; lia.
Qed.

Lemma restarts_ready text o rest : restarts text o rest -> exists fuel pos v, o = repeat_ fuel text S_start pos v /\ drop pos text = rest /\
  ready_vars text pos v /\ start_pos v = pos /\ start_line v = cur_line v /\ start_line_start v = cur_line_start v /\ end_pos v = None /\ end_line v = None /\ end_line_start v = None /\
  2 * length rest + 1 <= fuel.
Proof. intros (fuel & pos & v & -> & Hd & Hg & Hk & Hf). exists fuel, pos, (started_over v pos). split_and!; auto. by split_and!. Qed.

Lemma good_start text pos line start : good text pos line start -> line = line_at text pos /\ start = pos - column_at text pos.
Proof. unfold good. lia. Qed.

(** The lexer at a position, between tokens. *)
Definition lexer_at (text : list Z) (pos : nat) : lexer := Lexer pos (line_at text pos) (pos - column_at text pos) (Counts 0 0 0 0).

Lemma fresh_vars text pos v : ready_vars text pos v -> start_pos v = pos -> start_line v = cur_line v -> start_line_start v = cur_line_start v ->
  end_pos v = None -> end_line v = None -> end_line_start v = None -> v = initial_vars (lexer_at text pos).
Proof.
  intros (Hg & Hk & Hb) H1 H2 H3 H4 H5 H6. apply good_start in Hg as [Hl Hs]. unfold zero_counts in Hk. destruct v; cbn in *; subst. reflexivity.
Qed.

Lemma drop_suffix {A} pos pos' (text pre rest : list A) : drop pos text = pre ++ rest -> drop pos' text = rest -> pos <= length text -> pos' <= length text ->
  pos' = pos + length pre.
Proof.
  intros H1 H2 Hp Hp'. apply (f_equal length) in H1. apply (f_equal length) in H2. rewrite drop_length in H1, H2. rewrite app_length in H1. lia.
Qed.

Lemma good_at text pos : pos <= length text -> ready_vars text pos (initial_vars (lexer_at text pos)).
Proof.
  intros Hp. unfold ready_vars, good. cbn. split_and!; auto; try done. unfold column_at. pose proof (column_le (take pos text) 0). rewrite take_length in H. lia.
Qed.

Lemma after_line_suffix text rest : after_line_comment text = Some rest -> exists pre, text = pre ++ rest.
Proof.
  induction text as [|c text IH]; [discriminate|]. cbn. destruct (is_eol c); [intros [= <-]; by exists [c]|]. intros H. destruct (IH H) as [pre ->]. by exists (c :: pre).
Qed.
Lemma after_comment_suffix n : forall text d h rest, length text <= n -> after_comment d h text = Some rest -> exists pre, text = pre ++ rest.
Proof.
  induction n as [|n IH]; intros text d h rest Hn H; (destruct text as [|c text]; [discriminate|]); cbn [length] in Hn; [lia|].
  destruct h.
  { rewrite after_comment_hidden in H. apply IH in H as [pre ->]; [|lia]. by exists (c :: pre). }
  destruct text as [|x text]; [discriminate|]. cbn [length] in Hn. rewrite after_comment_two in H.
  destruct ((c =? 47)%Z && (x =? 47)%Z); [apply IH in H as [pre ->]; [by exists (c :: pre) | cbn [length]; lia]|].
  destruct ((c =? 47)%Z && (x =? 42)%Z); [apply IH in H as [pre ->]; [by exists (c :: x :: pre) | lia]|].
  destruct ((c =? 42)%Z && (x =? 47)%Z).
  - destruct d as [|[|d]]; [injection H as <-; by exists [c; x] | injection H as <-; by exists [c; x] | apply IH in H as [pre ->]; [by exists (c :: x :: pre) | lia]].
  - apply IH in H as [pre ->]; [by exists (c :: pre) | cbn [length]; lia].
Qed.
Lemma skips_suffix text rest : skips text rest -> exists pre, text = pre ++ rest.
Proof.
  intros H. induction H as [rest|c text rest _ _ [pre ->]|text text' rest Ha _ [pre ->]|text text' rest Ha _ [pre ->]].
  - by exists [].
  - by exists (c :: pre).
  - apply after_line_suffix in Ha as [p ->]. exists (47%Z :: 47%Z :: p ++ pre). cbn. by rewrite <- app_assoc.
  - apply (after_comment_suffix (length text)) in Ha as [p ->]; [|done]. exists (47%Z :: 42%Z :: p ++ pre). cbn. by rewrite <- app_assoc.
Qed.

(** ** Blanks are skipped *)

Lemma no_tight_app a b : no_tight_close (a ++ b) -> no_tight_close b.
Proof. induction a as [|c a IH]; [done|]. intros H. apply IH. by apply no_tight_tail in H. Qed.

Lemma skips_repeat text src rest : Forall is_byte text -> skips src rest -> forall pos v fuel,
  drop pos text = src -> pos <= length text -> Forall (fun c => is_legal c = true) src -> no_tight_close src -> ready_vars text pos v ->
  v = initial_vars (lexer_at text pos) -> 2 * length src + 1 <= fuel ->
  exists fuel' pos', repeat_ fuel text S_start pos v = repeat_ fuel' text S_start pos' (initial_vars (lexer_at text pos')) /\
    drop pos' text = rest /\ pos' <= length text /\ 2 * length rest + 1 <= fuel'.
Proof.
  intros Hb H. 
  assert (forall o rest0, restarts text o rest0 ->
    exists fuel' pos', o = repeat_ fuel' text S_start pos' (initial_vars (lexer_at text pos')) /\ drop pos' text = rest0 /\ pos' <= length text /\
      ready_vars text pos' (initial_vars (lexer_at text pos')) /\ 2 * length rest0 + 1 <= fuel') as Hre.
  { intros o rest0 Hr. destruct (restarts_ready text o rest0 Hr) as (f & p & w & -> & Hd & Hrv & H1 & H2 & H3 & H4 & H5 & H6 & Hf).
    pose proof (fresh_vars text p w Hrv H1 H2 H3 H4 H5 H6) as ->. exists f, p. split_and!; auto. apply (proj1 (proj1 Hrv)). }
  induction H as [rest|c src rest Hw H IH|src src' rest Ha H IH|src src' rest Ha H IH]; intros pos v fuel Hd Hp Hl Ht Hr Hv Hf.
  - subst v. exists fuel, pos. done.
  - apply Forall_cons in Hl as [_ Hl]. destruct (Hre _ _ (white_restarts text pos v fuel c src Hb Hd Hw Hr Hf)) as (f & p & -> & Hd' & Hp' & Hr' & Hf').
    apply IH; auto. by apply no_tight_tail in Ht.
  - apply Forall_cons in Hl as [_ Hl]. apply Forall_cons in Hl as [_ Hl].
    destruct (Hre _ _ (line_restarts text pos v fuel src src' Hb Hd Hl Hr Ha Hf)) as (f & p & -> & Hd' & Hp' & Hr' & Hf').
    destruct (after_line_suffix _ _ Ha) as [pre ->]. apply Forall_app in Hl as [_ Hl]. apply IH; auto. do 2 apply no_tight_tail in Ht. by apply no_tight_app in Ht.
  - apply Forall_cons in Hl as [_ Hl]. apply Forall_cons in Hl as [_ Hl]. do 2 apply no_tight_tail in Ht.
    pose proof (comment_restarts text pos v fuel src Hb Hd Hl Ht Hr Hf) as Hc. rewrite Ha in Hc.
    destruct (Hre _ _ Hc) as (f & p & -> & Hd' & Hp' & Hr' & Hf').
    destruct (after_comment_suffix (length src) _ _ _ _ (Nat.le_refl _) Ha) as [pre ->]. apply Forall_app in Hl as [_ Hl]. apply IH; auto. by apply no_tight_app in Ht.
Qed.

(** ** Nothing else is skipped *)

(** States in which no blank can end. *)
Definition in_token (s : lstate) : bool :=
  match s with
  | S_start | S_whitespace | S_slash | S_single_line_comment | S_single_line_comment_cr | S_single_line_comment_end | S_delimited_comment_start
  | S_delimited_comment_slash | S_delimited_comment_slash_slash | S_delimited_comment_star | S_delimited_comment_body | S_delimited_comment_end => false
  | _ => match state_builder s with Some B_whitespace | Some B_comment => false | _ => true end
  end.

Lemma in_token_step s c s' : in_token s = true -> step s c = Some s' -> in_token s' = true.
Proof.
  assert (forallb (fun s => implb (in_token s) (forallb (fun p => in_token (snd p)) (state_transitions s))) all_states = true) as H by (vm_compute; reflexivity).
  rewrite forallb_forall in H. specialize (H s (all_states_complete s)). intros Hs Hst. rewrite Hs in H. cbn [implb] in H.
  destruct (lookup_in _ _ _ Hst) as [o Hin]. rewrite forallb_forall in H. apply (H (o, s')). done.
Qed.
Lemma in_token_builder s : in_token s = true -> state_builder s <> Some B_whitespace /\ state_builder s <> Some B_comment.
Proof. unfold in_token. destruct s; try discriminate; split; discriminate. Qed.

Lemma next_state_start text s pos v o v' : next_state text s pos v = Val (o, v') -> start_pos v' = start_pos v /\ (forall s', o = Some s' -> exists c, step s c = Some s').
Proof.
  unfold next_state, step. destruct (state_transitions s) as [|tr trs] eqn:Et; [intros [= <- <-]; done|]. rewrite <- Et. clear Et. destruct (text !! pos) as [c|]; [|done].
  destruct (_ && _); [|done]. intros [= <- <-]. split; [by destruct (c =? newline_code)%Z|]. intros s' H. eauto.
Qed.

Lemma no_restart text fuel : forall s pos v e v', in_token s = true -> repeat_ fuel text s pos v = Val (e, v') -> start_pos v' = start_pos v.
Proof.
  induction fuel as [|fuel IH]; intros s pos v e v' Hs E; [discriminate|].
  assert (forall w, advance_ fuel text s pos w = Val (e, v') -> start_pos v' = start_pos w) as Ha.
  { clear E. intros w E. unfold advance_ in E. destruct (pos <? length text); [|by injection E as <- <-].
    destruct (next_state text s pos w) as [[o w']| | |] eqn:En; cbn [obind] in E; try discriminate.
    destruct (next_state_start _ _ _ _ _ _ En) as [H1 H2]. destruct o as [s'|]; [|by injection E as <- <-].
    destruct (H2 s' eq_refl) as [c Hc]. rewrite <- H1. eapply IH; [|exact E]. by eapply in_token_step. }
  rewrite repeat_unfold in E. cbv zeta in E. destruct (in_token_builder s Hs) as [Hw Hc].
  destruct (do_state_action s (kounts v)) as [acc k].
  destruct acc; [by apply Ha in E| | by apply Ha in E | |]; (destruct (state_builder s) as [b|]; [|by apply Ha in E]).
  - destruct b; try congruence; by apply Ha in E.
  - destruct b; try congruence; (cbn in E; destruct (bldr v); [|discriminate]; destruct (end_pos v); [|discriminate]; by injection E as <- <-).
  - destruct b; try congruence; by injection E as <- <-.
Qed.

Lemma start_in_token c s' : is_white c = false -> c <> 47%Z -> step S_start c = Some s' -> in_token s' = true.
Proof.
  intros Hw H47 Hs.
  assert (forallb (fun p => implb (existsb (fun c => negb (is_white c) && negb (c =? 47)%Z) (on_codes (fst p))) (in_token (snd p))) (state_transitions S_start) = true) as H
    by (vm_compute; reflexivity).
  assert (forall trs, lookup_transition trs c = Some s' -> exists o, In (o, s') trs /\ In c (on_codes o)) as Hl.
  { clear. induction trs as [|[o s] trs IH]; [discriminate|]. cbn. destruct (existsb (Z.eqb c) (on_codes o)) eqn:E.
    - intros [= <-]. exists o. split; [by left|]. apply existsb_exists in E as (x & Hx & E). by replace c with x by lia.
    - intros H. destruct (IH H) as (o' & H1 & H2). eauto. }
  destruct (Hl _ Hs) as (o & Hin & Hc). rewrite forallb_forall in H. specialize (H _ Hin). cbn [fst snd] in H.
  replace (existsb (fun c => negb (is_white c) && negb (c =? 47)%Z) (on_codes o)) with true in H; [exact H|].
  symmetry. apply existsb_exists. exists c. split; [done|]. rewrite Hw. cbn. lia.
Qed.

Lemma no_blank_start text pos v fuel e v' : drop pos text = drop pos text -> Forall is_byte text -> no_blank (drop pos text) -> ready_vars text pos v ->
  repeat_ fuel text S_start pos v = Val (e, v') -> start_pos v' = start_pos v.
Proof.
  intros _ Hb Hn Hr E. destruct (drop pos text) as [|c rest] eqn:Hd.
  { destruct fuel as [|fuel]; [discriminate|]. rewrite repeat_plain in E by done. unfold saved in E. cbn [state_builder] in E.
    destruct (advance_stuck fuel text S_start pos v [] Hd Hb I) as (w & Ew & Hw). rewrite Ew in E. injection E as <- <-. apply Hw. }
  destruct Hn as [Hw Hs]. destruct fuel as [|fuel]; [discriminate|].
  destruct (Z.eq_dec c 47) as [->|H47].
  - destruct fuel as [|fuel].
    { rewrite repeat_plain in E by done. unfold saved in E. cbn [state_builder] in E.
      destruct (advance_any 0 text S_start pos v 47 rest S_slash Hd Hb eq_refl (proj1 Hr)) as (w & Ew & _). rewrite Ew in E. discriminate. }
    destruct (slash_first text pos v fuel rest Hb Hd Hr) as (w & Ew & Hd' & _ & _ & Hsw). rewrite Ew in E.
    destruct (advance_stuck fuel text S_slash (S pos) w rest Hd' Hb) as (u & Eu & Hu).
    { destruct rest as [|x rest]; [done|]. cbn [stuck]. cbn [head] in Hs. unfold step. cbn [state_transitions lookup_transition on_codes existsb]. rewrite !orb_false_r.
      replace (x =? 47)%Z with false by (symmetry; apply Z.eqb_neq; intros ->; tauto).
      replace (x =? 42)%Z with false by (symmetry; apply Z.eqb_neq; intros ->; tauto). reflexivity. }
    rewrite Eu in E. injection E as <- <-. destruct Hu as [Hu _]. congruence.
  - rewrite repeat_plain in E by done. unfold saved in E. cbn [state_builder] in E.
    destruct (step S_start c) as [s'|] eqn:Es.
    + destruct (advance_any fuel text S_start pos v c rest s' Hd Hb Es (proj1 Hr)) as (w & Ew & _ & _ & _ & _ & Hsw). rewrite Ew in E.
      rewrite <- Hsw. eapply no_restart; [|exact E]. by eapply start_in_token.
    + destruct (advance_stuck fuel text S_start pos v (c :: rest) Hd Hb Es) as (w & Ew & Hw'). rewrite Ew in E. injection E as <- <-. apply Hw'.
Qed.

(** The text up to the token is blanks, and the token does not begin with one. *)
Lemma repeat_skips text : Forall is_byte text -> forall n src pos fuel e v',
  length src <= n -> drop pos text = src -> pos <= length text -> Forall (fun c => is_legal c = true) src -> no_tight_close src ->
  (forall c, last src = Some c -> is_eol c = true) -> 2 * length src + 1 <= fuel ->
  repeat_ fuel text S_start pos (initial_vars (lexer_at text pos)) = Val (e, v') ->
  (bldr v' <> None \/ start_pos v' = length text) ->
  exists rest, skips src rest /\ drop (start_pos v') text = rest /\ no_blank rest /\ start_pos v' <= length text.
Proof.
  intros Hb. induction n as [|n IH]; intros src pos fuel e v' Hn Hd Hp Hl Ht He Hf E Hv.
  { destruct src; [|cbn in Hn; lia]. pose proof (good_at text pos Hp) as Hr. exists [].
    pose proof (no_blank_start text pos _ fuel e v' eq_refl Hb ltac:(rewrite Hd; exact I) Hr E) as Hs. cbn in Hs. rewrite Hs. split_and!; try apply skips_none; try exact I; auto. }
  pose proof (good_at text pos Hp) as Hr.
  assert (forall rest0, restarts text (repeat_ fuel text S_start pos (initial_vars (lexer_at text pos))) rest0 ->
    length rest0 <= n -> Forall (fun c => is_legal c = true) rest0 -> no_tight_close rest0 -> (forall c, last rest0 = Some c -> is_eol c = true) ->
    exists rest, skips rest0 rest /\ drop (start_pos v') text = rest /\ no_blank rest /\ start_pos v' <= length text) as Hre.
  { intros rest0 Hr0 Hn0 Hl0 Ht0 He0. destruct (restarts_ready text _ rest0 Hr0) as (f & p & w & Ew & Hd' & Hrv & H1 & H2 & H3 & H4 & H5 & H6 & Hf').
    pose proof (fresh_vars text p w Hrv H1 H2 H3 H4 H5 H6) as ->. rewrite Ew in E. eapply (IH rest0 p f e v'); eauto. apply (proj1 (proj1 Hrv)). }
  assert (forall pre rest0, src = pre ++ rest0 -> forall c, last rest0 = Some c -> is_eol c = true) as Hlast.
  { intros pre rest0 -> c Hc. apply He. rewrite last_app, Hc. reflexivity. }
  destruct src as [|c src].
  { exists []. pose proof (no_blank_start text pos _ fuel e v' eq_refl Hb ltac:(rewrite Hd; exact I) Hr E) as Hs. cbn in Hs. rewrite Hs. split_and!; try apply skips_none; try exact I; auto. }
  pose proof Hl as Hl'. apply Forall_cons in Hl' as [Hlc Hl']. cbn [length] in Hn.
  destruct (is_white c) eqn:Hw.
  { destruct (Hre src) as (rest & H1 & H2); auto; [by eapply white_restarts | lia | by apply no_tight_tail in Ht | apply (Hlast [c]); reflexivity |].
    exists rest. split; [by apply skips_white | exact H2]. }
  destruct (decide (c = 47%Z /\ (head src = Some 47%Z \/ head src = Some 42%Z))) as [[-> Hh]|Hnb].
  - destruct src as [|x src]; [destruct Hh; discriminate|]. apply Forall_cons in Hl' as [_ Hl']. cbn [length] in Hn. do 2 apply no_tight_tail in Ht.
    assert (x = 47 \/ x = 42)%Z as [-> | ->] by (cbn in Hh; destruct Hh; [left | right]; congruence).
    + assert (exists rest0, after_line_comment src = Some rest0) as (rest0 & Ha).
      { assert (forall l, l <> [] -> (forall c, last l = Some c -> is_eol c = true) -> exists r0, after_line_comment l = Some r0) as Hex.
        { clear. induction l as [|c l IH]; [done|]. intros _ H. cbn. destruct (is_eol c) eqn:Ec; [eauto|]. apply IH.
          - intros ->. specialize (H c eq_refl). congruence.
          - intros d Hd. apply H. rewrite last_cons, Hd. reflexivity. }
        apply Hex.
        - intros ->. specialize (He 47%Z eq_refl). discriminate.
        - apply (Hlast [47%Z; 47%Z]). reflexivity. }
      destruct (after_line_suffix _ _ Ha) as [pre Hpre].
      destruct (Hre rest0) as (rest & H1 & H2).
      * eapply line_restarts; eauto.
      * subst src. rewrite app_length in Hn. lia.
      * subst src. by apply Forall_app in Hl' as [_ ?].
      * subst src. by apply no_tight_app in Ht.
      * apply (Hlast (47%Z :: 47%Z :: pre)). by rewrite Hpre.
      * exists rest. split; [by eapply skips_line | exact H2].
    + pose proof (comment_restarts text pos _ fuel src Hb Hd Hl' Ht Hr Hf) as Hc. destruct (after_comment 1 false src) as [rest0|] eqn:Ha.
      * destruct (after_comment_suffix (length src) _ _ _ _ (Nat.le_refl _) Ha) as [pre Hpre].
        destruct (Hre rest0) as (rest & H1 & H2); auto.
        -- subst src. rewrite app_length in Hn. lia.
        -- subst src. by apply Forall_app in Hl' as [_ ?].
        -- subst src. by apply no_tight_app in Ht.
        -- apply (Hlast (47%Z :: 42%Z :: pre)). by rewrite Hpre.
        -- exists rest. split; [by eapply skips_comment | exact H2].
      * destruct Hc as (e' & w & E' & Hbw & Hsw). rewrite E in E'. injection E' as <- <-. destruct Hv as [Hv|Hv]; [done|]. cbn in Hsw.
        apply (f_equal length) in Hd. rewrite drop_length in Hd. cbn in Hd. lia.
  - assert (no_blank (c :: src)) as Hnb' by (split; auto). pose proof (no_blank_start text pos _ fuel e v' eq_refl Hb ltac:(rewrite Hd; exact Hnb') Hr E) as Hs.
    cbn in Hs. exists (c :: src). rewrite Hs. split_and!; try apply skips_none; try exact I; auto.
Qed.
