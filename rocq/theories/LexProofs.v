(** Proofs about the lexer's interpreter. *)
From Verif Require Import Base LexTable LexModel LexSpec.
From Coq Require Import ZArith Lia ZifyBool ZifyNat.
Local Open Scope outcome_scope.
Local Open Scope nat_scope.

(** ** The table *)

Lemma all_states_complete s : In s all_states.
Proof. apply (nth_error_In _ (state_index s)). destruct s; reflexivity. Qed.

(** No two transitions of a state overlap, so make-transition-table signals no error. *)
Definition no_clash (trs : list (on * lstate)) : bool :=
  (fix nodup (l : list Z) := match l with [] => true | c :: l => negb (existsb (Z.eqb c) l) && nodup l end)
    (concat (map (fun p => match p.1 with OnOtherwise => [] | o => on_codes o end) trs)).
Definition otherwise_last (trs : list (on * lstate)) : bool :=
  forallb (fun p => match p.1 with OnOtherwise => false | _ => true end) (removelast trs).
Lemma table_no_clash s : no_clash (state_transitions s) = true /\ otherwise_last (state_transitions s) = true.
Proof.
  assert (forallb (fun s => no_clash (state_transitions s) && otherwise_last (state_transitions s)) all_states = true) as H by (vm_compute; reflexivity).
  rewrite forallb_forall in H. specialize (H s (all_states_complete s)). by apply andb_true_iff in H.
Qed.

Lemma lookup_in trs c s : lookup_transition trs c = Some s -> exists o, In (o, s) trs.
Proof.
  induction trs as [|[o s'] trs IH]; cbn; [discriminate|]. destruct (existsb _ _); [intros [= <-]; eauto|].
  intros H. destruct (IH H) as [o' ?]. eauto.
Qed.
Lemma never_start s c : lookup_transition (state_transitions s) c <> Some S_start.
Proof.
  intros H. apply lookup_in in H as [o H].
  assert (forallb (fun s => forallb (fun p => match p.2 with S_start => false | _ => true end) (state_transitions s)) all_states = true) as Ht
    by (vm_compute; reflexivity).
  rewrite forallb_forall in Ht. specialize (Ht s (all_states_complete s)). rewrite forallb_forall in Ht. by specialize (Ht _ H).
Qed.

Lemma use_previous_no_builder s k k' : do_state_action s k = (AUsePrevious, k') -> state_builder s = None.
Proof.
  destruct s; cbn; try discriminate; try reflexivity; intros H; exfalso; revert H; repeat case_match; discriminate.
Qed.
Lemma start_action k : do_state_action S_start k = (ANo, k).
Proof. reflexivity. Qed.

(** ** Positions *)

Lemma column_snoc l c n : column (l ++ [c]) n = if (c =? 10)%Z then 0 else S (column l n).
Proof.
  revert n. induction l as [|x l IH]; intros n; cbn; [reflexivity|]. destruct (x =? 10)%Z; apply IH.
Qed.
Lemma column_le l n : column l n <= n + length l.
Proof. revert n. induction l as [|x l IH]; intros n; cbn; [lia|]. destruct (x =? 10)%Z; specialize (IH 0) as H0; specialize (IH (S n)); lia. Qed.

(** [line] and [start] are the line of position [pos] and the position where that line starts. *)
Definition good (text : list Z) (pos line start : nat) : Prop :=
  pos <= length text /\ line = line_at text pos /\ start + column_at text pos = pos.

Lemma good_step text pos line start c :
  good text pos line start -> text !! pos = Some c ->
  if (c =? newline_code)%Z then good text (S pos) (S line) (S pos) else good text (S pos) line start.
Proof.
  intros (Hp & -> & Hs) Hc. pose proof (lookup_lt_Some _ _ _ Hc) as Hlt.
  unfold good, line_at, column_at in *. rewrite (take_S_r _ _ _ Hc), List.filter_app, app_length, column_snoc. cbn [List.filter].
  unfold newline_code. rewrite (Z.eqb_sym 10 c). destruct (c =? 10)%Z eqn:E; cbn [length]; lia.
Qed.

Definition saved_ok (text : list Z) (v : vars) (pos : nat) : Prop :=
  forall b, bldr v = Some b -> exists e el els, end_pos v = Some e /\ end_line v = Some el /\ end_line_start v = Some els /\
    good text e el els /\ start_pos v < e <= pos.

Record inv (text : list Z) (p0 : nat) (s : lstate) (pos : nat) (v : vars) : Prop := Inv {
  inv_cur : good text pos (cur_line v) (cur_line_start v);
  inv_start : good text (start_pos v) (start_line v) (start_line_start v);
  inv_from : p0 <= start_pos v;
  inv_pos : s <> S_start -> start_pos v < pos;
  inv_le : start_pos v <= pos;
  inv_saved : saved_ok text v pos }.

Record inv_out (text : list Z) (p0 : nat) (v : vars) : Prop := InvOut {
  out_start : good text (start_pos v) (start_line v) (start_line_start v);
  out_from : p0 <= start_pos v;
  out_saved : saved_ok text v (length text);
  out_end : start_pos v = length text -> good text (start_pos v) (cur_line v) (cur_line_start v) }.

Definition advance_ (fuel : nat) (contents : list Z) (s : lstate) (pos : nat) (v : vars) : outcome (nat * vars) :=
  if pos <? length contents then
    do ' (new_state, v) <- next_state contents s pos v ;
    match new_state with
    | Some s' => repeat_ fuel contents s' (pos + 1) v
    | None => Val (pos, v)
    end
  else Val (pos, v).

Lemma repeat_unfold fuel contents s pos v :
  repeat_ (S fuel) contents s pos v =
    let b := state_builder s in
    let '(acc, k) := do_state_action s (kounts v) in
    let v := set_counts v k in
    match acc, b with
    | AClear, _ => advance_ fuel contents s pos (clear_previous v)
    | ANo, _ | _, None => advance_ fuel contents s pos v
    | _, Some B_whitespace => repeat_ fuel contents S_start pos (started_over v pos)
    | _, Some B_comment => repeat_ fuel contents S_start pos (started_over (reset_comment v) pos)
    | AYes, Some b => advance_ fuel contents s pos (save_accepting v pos b)
    | AUsePrevious, Some _ =>
        match bldr v, end_pos v with
        | Some _, Some e => Val (e, v)
        | _, _ => Signal "the lexer expected a previous accepting state but there is none"
        end
    | AAccept, Some b => Val (pos, save_accepting v pos b)
    end.
Proof. reflexivity. Qed.

Lemma saved_mono text v pos pos' : saved_ok text v pos -> pos <= pos' -> saved_ok text v pos'.
Proof. intros H Hle b Hb. destruct (H b Hb) as (e & el & els & ? & ? & ? & ? & ?). exists e, el, els. split_and!; auto; lia. Qed.

Lemma inv_to_out text p0 s pos v : inv text p0 s pos v -> pos = length text \/ start_pos v < length text -> inv_out text p0 v.
Proof.
  intros [Hc Hs Hf Hp Hle Hsv] Hor. split; auto.
  - eapply saved_mono; [exact Hsv | apply Hc].
  - intros He. replace (start_pos v) with pos; [exact Hc|]. destruct Hc as [Hc _]. lia.
Qed.

Definition measure (text : list Z) (s : lstate) (pos : nat) : nat :=
  2 * (length text - pos) + match s with S_start => 1 | _ => 2 end.

Lemma measure_S_start text pos : measure text S_start pos = 2 * (length text - pos) + 1.
Proof. reflexivity. Qed.
Lemma measure_other text s pos : s <> S_start -> measure text s pos = 2 * (length text - pos) + 2.
Proof. destruct s; reflexivity || congruence. Qed.
Lemma measure_ge text s pos : 2 * (length text - pos) + 1 <= measure text s pos <= 2 * (length text - pos) + 2.
Proof. unfold measure. destruct s; lia. Qed.

Lemma advance_ok text p0 s pos v fuel :
  Forall is_byte text ->
  (forall s pos v, inv text p0 s pos v -> measure text s pos <= fuel ->
     exists e v', repeat_ fuel text s pos v = Val (e, v') /\ inv_out text p0 v') ->
  inv text p0 s pos v -> measure text s pos <= S fuel ->
  exists e v', advance_ fuel text s pos v = Val (e, v') /\ inv_out text p0 v'.
Proof.
  intros Hb IH Hi Hm. unfold advance_. destruct (pos <? length text) eqn:E.
  2:{ exists pos, v. split; [reflexivity|]. eapply inv_to_out; eauto. left. destruct Hi as [[? _] _ _ _ _ _]. lia. }
  unfold next_state. destruct (state_transitions s) as [|tr trs] eqn:Et.
  { cbn [obind]. exists pos, v. split; [reflexivity|]. eapply inv_to_out; eauto. right. destruct Hi. lia. }
  rewrite <- Et. clear tr trs Et.
  destruct (lookup_lt_is_Some_2 text pos ltac:(lia)) as [c Hc]. rewrite Hc.
  pose proof (proj1 (Forall_forall _ _) Hb c (elem_of_list_lookup_2 _ _ _ Hc)) as Hbyte. unfold is_byte in Hbyte.
  replace ((0 <=? c)%Z && (c <=? 255)%Z) with true by lia. cbn [obind].
  set (v' := if (c =? newline_code)%Z then newline_seen v pos else v).
  assert (inv text p0 S_slash (pos + 1) v') as Hi'.
  { destruct Hi as [Hcur Hst Hfr Hp Hle Hsv]. pose proof (good_step text pos _ _ c Hcur Hc) as Hg. rewrite Nat.add_1_r. subst v'.
    destruct (c =? newline_code)%Z; split; cbn; auto; try lia; eapply saved_mono; eauto. }
  destruct (lookup_transition _ c) as [s'|] eqn:El.
  - assert (s' <> S_start) as Hns by (intros ->; exact (never_start _ _ El)). apply IH.
    + destruct Hi'; split; auto.
    + pose proof (measure_ge text s pos). rewrite measure_other by done. lia.
  - exists pos, v'. split; [reflexivity|]. destruct Hi' as [Hcur Hst Hfr Hp Hle Hsv]. 
    assert (start_pos v' = start_pos v) as Hsp by (subst v'; by destruct (c =? newline_code)%Z).
    destruct Hi as [_ _ _ _ Hle0 _]. split; auto; [|lia]. eapply saved_mono; eauto. lia.
Qed.

Lemma repeat_ok text p0 fuel : Forall is_byte text -> forall s pos v,
  inv text p0 s pos v -> measure text s pos <= fuel ->
  exists e v', repeat_ fuel text s pos v = Val (e, v') /\ inv_out text p0 v'.
Proof.
  intros Hb. induction fuel as [|fuel IH]; intros s pos v Hi Hm.
  { pose proof (measure_ge text s pos). lia. }
  rewrite repeat_unfold. cbv zeta. destruct (do_state_action s (kounts v)) as [acc k] eqn:Ea.
  assert (inv text p0 s pos (set_counts v k)) as Hi0 by (destruct Hi; split; auto).
  assert (state_builder s <> None -> s <> S_start) as Hns by (intros Hn ->; cbn in Hn; congruence).
  assert (forall b, inv text p0 S_start pos (set_counts v b) -> inv text p0 S_start pos (started_over (set_counts v b) pos)) as Hov.
  { intros b [Hcur Hst Hfr Hp Hle Hsv]. split; cbn; auto; try congruence; [|intros ? ?; discriminate]. cbn in *; lia. }
  assert (forall b, state_builder s <> None -> inv text p0 s pos (save_accepting (set_counts v k) pos b)) as Hsave.
  { intros b Hn. destruct Hi as [Hcur Hst Hfr Hp Hle Hsv]. split; cbn; auto. intros b' [= <-]. cbn.
    specialize (Hp (Hns Hn)). do 3 eexists. split_and!; try reflexivity; auto. }
  assert (exists e v', advance_ fuel text s pos (set_counts v k) = Val (e, v') /\ inv_out text p0 v') as Hadv
    by (eapply advance_ok; eauto).
  assert (forall b, state_builder s <> None -> exists e v', advance_ fuel text s pos (save_accepting (set_counts v k) pos b) = Val (e, v') /\ inv_out text p0 v') as Hsadv
    by (intros b Hn; eapply advance_ok; eauto).
  assert (state_builder s <> None -> forall w, (forall (s0 : lstate), inv text p0 S_start pos w) ->
     exists e v', repeat_ fuel text S_start pos w = Val (e, v') /\ inv_out text p0 v') as Hrep.
  { intros Hn w Hw. apply IH; [apply Hw, s|]. rewrite measure_S_start. rewrite measure_other in Hm by auto. lia. }
  assert (state_builder s <> None -> exists e v', repeat_ fuel text S_start pos (started_over (set_counts v k) pos) = Val (e, v') /\ inv_out text p0 v') as Hws.
  { intros Hn. apply Hrep; [done|]. intros _. destruct Hi as [Hcur Hst Hfr Hp Hle Hsv]. split; cbn; auto; try congruence; [lia | intros ? ?; discriminate]. }
  assert (state_builder s <> None -> exists e v', repeat_ fuel text S_start pos (started_over (reset_comment (set_counts v k)) pos) = Val (e, v') /\ inv_out text p0 v') as Hcm.
  { intros Hn. apply Hrep; [done|]. intros _. destruct Hi as [Hcur Hst Hfr Hp Hle Hsv]. split; cbn; auto; try congruence; [lia | intros ? ?; discriminate]. }
  assert (exists e v', advance_ fuel text s pos (clear_previous (set_counts v k)) = Val (e, v') /\ inv_out text p0 v') as Hclear.
  { eapply advance_ok; eauto. destruct Hi as [Hcur Hst Hfr Hp Hle Hsv]. split; auto. intros ? ?; discriminate. }
  destruct acc; try assumption.
  - destruct (state_builder s) as [b|]; [|assumption].
    specialize (Hsadv b ltac:(done)). specialize (Hws ltac:(done)). specialize (Hcm ltac:(done)). destruct b; assumption.
  - apply use_previous_no_builder in Ea as ->. assumption.
  - destruct (state_builder s) as [b|] eqn:Eb; [|assumption].
    specialize (Hsave b ltac:(done)). specialize (Hws ltac:(done)). specialize (Hcm ltac:(done)).
    assert (inv_out text p0 (save_accepting (set_counts v k) pos b)) as Hout.
    { destruct Hsave as [Hcur Hst Hfr Hp Hle Hsv]. split; auto.
      - eapply saved_mono; eauto. apply Hcur.
      - specialize (Hp (Hns ltac:(done))). destruct Hcur as [Hcur _]. lia. }
    destruct b; try assumption; eexists _, _; (split; [reflexivity | exact Hout]).
Qed.

(** ** scan *)

Local Arguments column_at : simpl never.
Local Arguments line_at : simpl never.

Lemma scan_ok text lx fuel :
  Forall is_byte text -> good text (lx_position lx) (lx_line lx) (lx_line_start lx) ->
  2 * (length text - lx_position lx) + 1 <= fuel ->
  scan fuel text lx = Signal "invalid-token" \/
  exists t lx', scan fuel text lx = Val (t, lx') /\
    good text (tk_start t) (tk_start_line t) (tk_start t - column_at text (tk_start t)) /\
    tk_start_column t = Z.of_nat (column_at text (tk_start t)) /\
    good text (tk_end t) (tk_end_line t) (tk_end t - column_at text (tk_end t)) /\
    tk_end_column t = Z.of_nat (column_at text (tk_end t)) /\
    lx_position lx <= tk_start t /\
    (tk_builder t = None -> tk_start t = length text /\ tk_end t = length text) /\
    (tk_builder t <> None -> tk_start t < tk_end t) /\
    lx_position lx' = tk_end t /\ good text (lx_position lx') (lx_line lx') (lx_line_start lx').
Proof.
  intros Hb Hg Hf. unfold scan.
  destruct (repeat_ok text (lx_position lx) fuel Hb S_start (lx_position lx) (initial_vars lx)) as (e & v & -> & Ho).
  { split; cbn; auto; try congruence. intros ? ?; discriminate. }
  { rewrite measure_S_start. lia. }
  cbn [obind]. destruct Ho as [Hs Hfr Hsv He]. destruct (bldr v) as [b|] eqn:Eb.
  - right. destruct (Hsv b Eb) as (ep & el & els & -> & -> & -> & Hge & Hlt). eexists _, _. split; [reflexivity|]. cbn.
    unfold good in Hs, Hge |- *. split_and!; try tauto; try lia; try congruence.
  - destruct (length text <=? start_pos v) eqn:El; [|auto]. right. eexists _, _. split; [reflexivity|]. cbn.
    assert (start_pos v = length text) as Hsl by (destruct Hs; lia). specialize (He Hsl).
    unfold good in Hs, He |- *. split_and!; try tauto; try lia; try congruence.
Qed.

(** ** The counters are zero between tokens *)

(** How far a state is: nothing can have been accepted yet (0), ordinary (1), in a string (2), in a
    delimited comment (3). *)
Definition cls (s : lstate) : nat :=
  match s with
  | S_start | S_sharp | S_sharp_r | S_quote => 0
  | S_string_start | S_2_double_quotes | S_drm_string_body | S_drm_string_end | S_drm_string_escape | S_drm_string_escape_less
  | S_drm_string_hex_char_digits | S_multi_string_start | S_multi_string_body | S_multi_string_body_continue | S_multi_string_end
  | S_multi_string_escape | S_multi_string_escape_less | S_multi_string_hex_char_digits | S_raw_string_start | S_raw_2_double_quotes
  | S_raw_one_line_string_body | S_raw_one_line_string_end | S_raw_multi_string_start | S_raw_multi_string_body
  | S_raw_multi_string_body_continue | S_raw_multi_string_end | S_not_allowed => 2
  | S_delimited_comment_start | S_delimited_comment_slash | S_delimited_comment_slash_slash | S_delimited_comment_star
  | S_delimited_comment_body | S_delimited_comment_end => 3
  | _ => 1
  end.

Definition string_builder (b : builder) : bool :=
  match b with B_make_stringish_literal | B_make_raw_string_literal => true | _ => false end.

Definition cls_step (s s' : lstate) : bool :=
  match cls s, cls s' with
  | 0, 0 | 0, 1 | 0, 2 | 1, 1 | 2, 2 | 3, 3 => true
  | 1, 3 => match s' with S_delimited_comment_start => true | _ => false end
  | _, _ => false
  end.

Definition zero_dq (k : counts) : Prop := dq_start k = 0 /\ dq_end k = 0.
Definition zero_dc (k : counts) : Prop := dc_start k = 0 /\ dc_end k = 0.

(** What is known before the action of [s]. *)
Definition cnt (s : lstate) (v : vars) : Prop :=
  match cls s with
  | 0 => bldr v = None /\ zero_dq (kounts v) /\ zero_dc (kounts v)
  | 1 => zero_dq (kounts v) /\ zero_dc (kounts v)
  | 2 => (forall b, bldr v = Some b -> string_builder b = true) /\ zero_dc (kounts v)
  | _ => zero_dq (kounts v) /\ (s <> S_delimited_comment_start -> bldr v = None)
  end.
Definition cnt_out (text : list Z) (v : vars) : Prop :=
  (forall b, bldr v = Some b -> zero_dc (kounts v) /\ (string_builder b = true \/ zero_dq (kounts v))) /\
  (start_pos v = length text -> zero_dq (kounts v) /\ zero_dc (kounts v)) /\ start_pos v <= length text.
(** What is known after it. *)
Definition cnt_after (s : lstate) (v : vars) : Prop :=
  match cls s with
  | 0 => bldr v = None /\ zero_dq (kounts v) /\ zero_dc (kounts v)
  | 1 => zero_dq (kounts v) /\ zero_dc (kounts v)
  | 2 => (forall b, bldr v = Some b -> string_builder b = true) /\ zero_dc (kounts v)
  | _ => zero_dq (kounts v) /\ bldr v = None
  end.

Lemma cls_steps s c s' : lookup_transition (state_transitions s) c = Some s' -> cls_step s s' = true.
Proof.
  intros H. apply lookup_in in H as [o H].
  assert (forallb (fun s => forallb (fun p => cls_step s p.2) (state_transitions s)) all_states = true) as Ht by (vm_compute; reflexivity).
  rewrite forallb_forall in Ht. specialize (Ht s (all_states_complete s)). rewrite forallb_forall in Ht. by specialize (Ht _ H).
Qed.

Lemma cnt_next s c s' v : cnt_after s v -> lookup_transition (state_transitions s) c = Some s' -> cnt s' v.
Proof.
  intros Hc Hl. apply cls_steps in Hl. unfold cnt, cnt_after, cls_step in *.
  destruct (cls s) as [|[|[|[|]]]], (cls s') as [|[|[|[|]]]]; try discriminate; try tauto.
  - destruct Hc as (Hb & _ & ?). split; [|done]. intros b. rewrite Hb. discriminate.
  - split; [tauto|]. destruct s'; try discriminate. congruence.
Qed.

Definition cls_builder_ok (s : lstate) : bool :=
  match cls s, state_builder s with
  | 0, None | 1, _ | 2, None | 3, None | 3, Some B_comment => true
  | 2, Some b => string_builder b
  | _, _ => false
  end.
Lemma cls_builder s : cls_builder_ok s = true.
Proof.
  assert (forallb cls_builder_ok all_states = true) as Ht by (vm_compute; reflexivity).
  rewrite forallb_forall in Ht. exact (Ht s (all_states_complete s)).
Qed.
Definition cls_action_ok (s : lstate) : bool :=
  match cls s, state_action s with
  | 0, None | 1, None | 2, None | 3, None => true
  | 2, Some (A_increment_double_quote_start_count | A_increment_double_quote_end_count | A_reset_double_quote_end_count) => true
  | 3, Some A_increment_delimited_comment_start_count => match s with S_delimited_comment_start => true | _ => false end
  | 3, Some A_increment_delimited_comment_end_count => match s with S_delimited_comment_start => false | _ => true end
  | _, _ => false
  end.
Lemma cls_action s : cls_action_ok s = true.
Proof.
  assert (forallb cls_action_ok all_states = true) as Ht by (vm_compute; reflexivity).
  rewrite forallb_forall in Ht. exact (Ht s (all_states_complete s)).
Qed.

Lemma action_cases s k : let '(acc, k') := do_state_action s k in
  match cls s with
  | 0 | 1 => k' = k /\ (acc = AYes \/ acc = ANo)
  | 2 => dc_start k' = dc_start k /\ dc_end k' = dc_end k /\ acc <> AClear
  | _ => dq_start k' = dq_start k /\ dq_end k' = dq_end k /\ (s = S_delimited_comment_start -> acc = AClear) /\ acc <> AAccept /\ acc <> AUsePrevious
  end.
Proof.
  pose proof (cls_action s) as H. unfold cls_action_ok in H. unfold do_state_action.
  destruct (cls s) as [|[|[|[|]]]], (state_action s) as [[]|] eqn:Ea; try discriminate; cbn; repeat case_match;
    split_and!; cbn; auto; try congruence; try (intros ->; discriminate).
Qed.

Lemma cnt_after_out text s pos v :
  cnt_after s v -> (s <> S_start -> start_pos v < pos) -> start_pos v <= pos -> pos <= length text -> cnt_out text v.
Proof.
  intros Hc Hp Hle Hl. unfold cnt_out. split_and!; [| |lia].
  - intros b Hb. unfold cnt_after in Hc. destruct (cls s) as [|[|[|]]]; [destruct Hc; congruence | tauto | | destruct Hc; congruence].
    destruct Hc as [Hs Hd]. split; [done|]. left. auto.
  - intros He. assert (s = S_start \/ s <> S_start) as [->|Hn]; [destruct s; (by left) || (by right)| |].
    + cbn in Hc. tauto.
    + specialize (Hp Hn). lia.
Qed.

Lemma advance_counts text fuel s pos v e v' :
  (forall s pos v e v', cnt s v -> (s <> S_start -> start_pos v < pos) -> start_pos v <= pos -> pos <= length text ->
     repeat_ fuel text s pos v = Val (e, v') -> cnt_out text v') ->
  cnt_after s v -> (s <> S_start -> start_pos v < pos) -> start_pos v <= pos -> pos <= length text ->
  advance_ fuel text s pos v = Val (e, v') -> cnt_out text v'.
Proof.
  intros IH Hc Hp Hle Hl. unfold advance_. destruct (pos <? length text) eqn:E.
  2:{ intros [= _ <-]. eapply cnt_after_out; eauto. }
  unfold next_state. destruct (state_transitions s) as [|tr trs] eqn:Et.
  { cbn [obind]. intros [= _ <-]. eapply cnt_after_out; eauto. }
  rewrite <- Et. clear tr trs Et. destruct (text !! pos) as [c|]; [|discriminate].
  destruct (_ && _); [|discriminate]. cbn [obind].
  set (w := if (c =? newline_code)%Z then newline_seen v pos else v).
  assert (cnt_after s w /\ start_pos w = start_pos v) as [Hw Hsw] by (subst w; by destruct (c =? newline_code)%Z).
  destruct (lookup_transition _ c) as [s'|] eqn:El.
  - intros H. eapply IH; [eapply cnt_next; eauto | | | | exact H]; rewrite ?Hsw; lia.
  - intros [= _ <-]. apply (cnt_after_out text s pos); rewrite ?Hsw; auto.
Qed.

Lemma repeat_counts text fuel : forall s pos v e v', cnt s v -> (s <> S_start -> start_pos v < pos) -> start_pos v <= pos -> pos <= length text ->
  repeat_ fuel text s pos v = Val (e, v') -> cnt_out text v'.
Proof.
  induction fuel as [|fuel IH]; intros s pos v e v' Hc Hp Hle Hl; [discriminate|].
  rewrite repeat_unfold. cbv zeta. pose proof (action_cases s (kounts v)) as Ha. pose proof (cls_builder s) as Hcb.
  destruct (do_state_action s (kounts v)) as [acc k] eqn:Ea.
  unfold cls_builder_ok in Hcb.
  assert (acc <> AClear -> cnt_after s (set_counts v k)) as Hafter.
  { intros Hn. unfold cnt, cnt_after, zero_dq, zero_dc in *. destruct (cls s) as [|[|[|]]] eqn:Ecls; cbn.
    - destruct Ha as [-> _]. tauto.
    - destruct Ha as [-> _]. tauto.
    - destruct Ha as (-> & -> & _). tauto.
    - destruct Ha as (-> & -> & Hs & _). split; [tauto|]. apply Hc. intros ->. by apply Hn, Hs. }
  assert (forall v', advance_ fuel text s pos (set_counts v k) = Val (e, v') -> acc <> AClear -> cnt_out text v') as Hadv.
  { intros w Hw Hn. eapply advance_counts; eauto. }
  assert (forall b v', state_builder s = Some b -> b <> B_comment -> acc <> AClear -> advance_ fuel text s pos (save_accepting (set_counts v k) pos b) = Val (e, v') -> cnt_out text v') as Hsave.
  { intros b w Hb Hbc Hn. specialize (Hafter Hn). eapply advance_counts; eauto.
    unfold cnt_after in *. rewrite Hb in Hcb. destruct (cls s) as [|[|[|[|]]]]; cbn; try discriminate; [tauto | | destruct b; discriminate || congruence].
    split; [intros b' [= <-]; done | tauto]. }
  assert (forall w, zero_dq (kounts w) -> zero_dc (kounts w) -> repeat_ fuel text S_start pos (started_over w pos) = Val (e, v') -> cnt_out text v') as Hover.
  { intros w H1 H2. apply IH; cbn; auto. congruence. }
  destruct acc.
  - intros H. by apply Hadv in H.
  - destruct (state_builder s) as [b|] eqn:Eb; [|intros H; by apply Hadv in H].
    specialize (Hafter ltac:(done)). unfold cnt_after in Hafter. destruct b; try (intros H; eapply Hsave in H; done).
    + apply Hover; destruct (cls s) as [|[|[|[|]]]]; try discriminate; cbn; tauto.
    + apply Hover; destruct (cls s) as [|[|[|[|]]]]; try discriminate; cbn; try tauto; done.
  - apply advance_counts; auto; cbn; auto. destruct (cls s) as [|[|[|]]] eqn:Ecls.
    + destruct Ha as [_ [|]]; discriminate.
    + destruct Ha as [_ [|]]; discriminate.
    + destruct Ha as (_ & _ & ?). congruence.
    + unfold cnt_after, cnt in *. rewrite Ecls in *. destruct Ha as (H1 & H2 & _). unfold zero_dq in *. cbn. rewrite H1, H2. tauto.
  - apply use_previous_no_builder in Ea as ->. intros H. by apply Hadv in H.
  - destruct (state_builder s) as [b|] eqn:Eb; [|intros H; by apply Hadv in H].
    specialize (Hafter ltac:(done)). unfold cnt_after in Hafter.
    assert (cls s = 2) as Ec.
    { destruct (cls s) as [|[|[|]]]; [destruct Ha as [_ [|]]; discriminate | destruct Ha as [_ [|]]; discriminate | done |].
      destruct Ha as (_ & _ & _ & ? & _). congruence. }
    rewrite Ec in *. assert (s <> S_start) as Hns by (intros ->; discriminate). specialize (Hp Hns).
    assert (cnt_out text (save_accepting (set_counts v k) pos b)) as Hout.
    { split_and!; cbn; [intros b' [= <-]; split; [tauto | left; exact Hcb] | lia | lia]. }
    destruct b; try discriminate; intros [= _ <-]; exact Hout.
Qed.

(** The counters between tokens. *)
Definition rested (lx : lexer) : Prop := zero_dq (lx_counts lx) /\ zero_dc (lx_counts lx).

Lemma scan_counts text fuel lx t lx' :
  rested lx -> lx_position lx <= length text -> scan fuel text lx = Val (t, lx') ->
  zero_dc (lx_counts lx') /\ ((exists b, tk_builder t = Some b /\ string_builder b = true) \/ zero_dq (lx_counts lx')).
Proof.
  intros [H1 H2] Hl. unfold scan.
  destruct (repeat_ fuel text S_start (lx_position lx) (initial_vars lx)) as [[e v]| | |] eqn:Er; try discriminate. cbn [obind].
  apply repeat_counts in Er; cbn; auto; [|congruence]. destruct Er as (Hb & He & Hle).
  destruct (bldr v) as [b|].
  - destruct (end_pos v), (end_line v), (end_line_start v); try discriminate. intros [= <- <-]. cbn.
    destruct (Hb b eq_refl) as [? [?|?]]; split; auto. left. eauto.
  - destruct (length text <=? start_pos v) eqn:El; [|discriminate]. intros [= <- <-]. cbn.
    destruct He as [? ?]; [lia|]. auto.
Qed.
