(** Following the state machine through a token. *)
From Verif Require Import Base LexTable LexModel LexSpec LexProofs.
From Coq Require Import ZArith Lia ZifyBool ZifyNat.
Local Open Scope outcome_scope.
Local Open Scope nat_scope.

(** A state without an action that does not start over. *)
Definition plain (s : lstate) : bool :=
  match state_action s, state_builder s with
  | Some _, _ | _, Some B_whitespace | _, Some B_comment => false
  | _, _ => true
  end.

Definition step (s : lstate) (c : Z) : option lstate := lookup_transition (state_transitions s) c.

(** The state after [cs], through plain states only. *)
Fixpoint run (s : lstate) (cs : list Z) : option lstate :=
  match cs with
  | [] => Some s
  | c :: cs => match step s c with Some s' => if plain s' then run s' cs else None | None => None end
  end.
Definition stuck (s : lstate) (post : list Z) : Prop := match post with [] => True | c :: _ => step s c = None end.

Lemma run_app s cs ds : run s (cs ++ ds) = match run s cs with Some s' => run s' ds | None => None end.
Proof. revert s. induction cs as [|c cs IH]; intros s; cbn; [done|]. destruct (step s c) as [s'|]; [|done]. destruct (plain s'); auto. Qed.

Lemma set_counts_same v : set_counts v (kounts v) = v.
Proof. by destruct v. Qed.

Definition saved (v : vars) (pos : nat) (s : lstate) : vars :=
  match state_builder s with Some b => save_accepting v pos b | None => v end.

Lemma repeat_plain fuel text s pos v : plain s = true -> repeat_ (S fuel) text s pos v = advance_ fuel text s pos (saved v pos s).
Proof.
  intros Hp. rewrite repeat_unfold. unfold plain in Hp. unfold do_state_action, saved. destruct (state_action s); [discriminate|]. cbv zeta.
  rewrite set_counts_same. destruct (state_builder s) as [[]|]; try reflexivity; discriminate.
Qed.

Lemma drop_cons_lookup {A} (l : list A) n c r : drop n l = c :: r -> l !! n = Some c /\ drop (S n) l = r /\ n < length l.
Proof.
  intros H. assert (l !! n = Some c) as Hc.
  { rewrite <- (Nat.add_0_r n), <- lookup_drop, H. reflexivity. }
  split_and!; [done | | by eapply lookup_lt_Some]. rewrite <- Nat.add_1_r, <- drop_drop, H. reflexivity.
Qed.

(** Advancing over a character other than a newline. *)
Lemma advance_step fuel text s pos v c rest s' :
  drop pos text = c :: rest -> Forall is_byte text -> c <> 10%Z -> step s c = Some s' ->
  advance_ fuel text s pos v = repeat_ fuel text s' (S pos) v.
Proof.
  intros Hd Hb Hn Hs. destruct (drop_cons_lookup _ _ _ _ Hd) as (Hc & _ & Hl). unfold advance_.
  replace (pos <? length text) with true by lia. unfold next_state, step in *.
  destruct (state_transitions s) as [|tr trs] eqn:Et; [discriminate|]. rewrite <- Et in *. clear Et. rewrite Hc.
  pose proof (proj1 (Forall_forall _ _) Hb c (elem_of_list_lookup_2 _ _ _ Hc)) as Hbyte. unfold is_byte in Hbyte.
  replace ((0 <=? c)%Z && (c <=? 255)%Z) with true by lia. cbn [obind]. rewrite Hs.
  unfold newline_code. replace (c =? 10)%Z with false by lia. by rewrite Nat.add_1_r.
Qed.

(** Over a newline. *)
Lemma advance_newline fuel text s pos v rest s' :
  drop pos text = 10%Z :: rest -> step s 10 = Some s' ->
  advance_ fuel text s pos v = repeat_ fuel text s' (S pos) (newline_seen v pos).
Proof.
  intros Hd Hs. destruct (drop_cons_lookup _ _ _ _ Hd) as (Hc & _ & Hl). unfold advance_.
  replace (pos <? length text) with true by lia. unfold next_state, step in *.
  destruct (state_transitions s) as [|tr trs] eqn:Et; [discriminate|]. rewrite <- Et in *. clear Et. rewrite Hc.
  change ((0 <=? 10)%Z && (10 <=? 255)%Z) with true. cbn [obind]. rewrite Hs.
  unfold newline_code. replace (10 =? 10)%Z with true by lia. by rewrite Nat.add_1_r.
Qed.

(** The same but for the variables that only matter while the machine runs. *)
Definition same_saved (v w : vars) : Prop :=
  start_pos w = start_pos v /\ start_line w = start_line v /\ start_line_start w = start_line_start v /\
  bldr w = bldr v /\ end_pos w = end_pos v /\ end_line w = end_line v /\ end_line_start w = end_line_start v /\ kounts w = kounts v.

Lemma advance_stuck fuel text s pos v post :
  drop pos text = post -> Forall is_byte text -> stuck s post ->
  exists w, advance_ fuel text s pos v = Val (pos, w) /\ same_saved v w.
Proof.
  intros Hd Hb Hs. unfold advance_. destruct post as [|c post].
  - assert (pos >= length text). { apply (f_equal length) in Hd. rewrite drop_length in Hd. cbn in Hd. lia. }
    replace (pos <? length text) with false by lia. eexists. split; [reflexivity | by split_and!].
  - destruct (drop_cons_lookup _ _ _ _ Hd) as (Hc & _ & Hl). replace (pos <? length text) with true by lia.
    unfold next_state. unfold stuck, step in Hs. destruct (state_transitions s) as [|tr trs] eqn:Et; [eexists; split; [reflexivity | by split_and!]|].
    rewrite <- Et in *. clear Et. rewrite Hc.
    pose proof (proj1 (Forall_forall _ _) Hb c (elem_of_list_lookup_2 _ _ _ Hc)) as Hbyte. unfold is_byte in Hbyte.
    replace ((0 <=? c)%Z && (c <=? 255)%Z) with true by lia. cbn [obind]. rewrite Hs.
    eexists. split; [reflexivity|]. destruct (c =? newline_code)%Z; by split_and!.
Qed.

Lemma saved_fields v pos s : start_pos (saved v pos s) = start_pos v /\ start_line (saved v pos s) = start_line v /\
  start_line_start (saved v pos s) = start_line_start v /\ cur_line (saved v pos s) = cur_line v /\
  cur_line_start (saved v pos s) = cur_line_start v /\ kounts (saved v pos s) = kounts v.
Proof. unfold saved. destruct (state_builder s); by split_and!. Qed.

Lemma repeat_path text s' b post : Forall is_byte text -> state_builder s' = Some b -> stuck s' post ->
  forall cs fuel s pos v, drop pos text = cs ++ post -> Forall (fun c => c <> 10%Z) cs -> plain s = true -> run s cs = Some s' ->
  length cs < fuel ->
  exists e w, repeat_ fuel text s pos v = Val (e, w) /\ bldr w = Some b /\ end_pos w = Some (pos + length cs) /\
    end_line w = Some (cur_line v) /\ end_line_start w = Some (cur_line_start v) /\
    start_pos w = start_pos v /\ start_line w = start_line v /\ start_line_start w = start_line_start v /\ kounts w = kounts v.
Proof.
  intros Hb Hbl Hst. induction cs as [|c cs IH]; intros fuel s pos v Hd Hn Hp Hr Hf; (destruct fuel as [|fuel]; [cbn in Hf; lia|]);
    rewrite repeat_plain by done; cbn in Hr.
  - injection Hr as ->. cbn in Hd. destruct (advance_stuck fuel text s' pos (saved v pos s') post Hd Hb Hst) as (w & -> & Hw).
    destruct Hw as (H1 & H2 & H3 & H4 & H5 & H6 & H7 & H8). exists pos, w. destruct (saved_fields v pos s') as (E1 & E2 & E3 & E4 & E5 & E6).
    split; [reflexivity|]. rewrite H1, H2, H3, H4, H5, H6, H7, H8, E1, E2, E3, E6. unfold saved. rewrite Hbl. cbn. rewrite Nat.add_0_r. by split_and!.
  - destruct (step s c) as [s1|] eqn:Es; [|discriminate]. destruct (plain s1) eqn:Ep; [|discriminate].
    apply Forall_cons in Hn as [Hc Hn]. cbn in Hd. rewrite (advance_step _ _ _ _ _ _ _ _ Hd Hb Hc Es).
    destruct (drop_cons_lookup _ _ _ _ Hd) as (_ & Hd' & _).
    destruct (IH fuel s1 (S pos) (saved v pos s) Hd' Hn Ep Hr) as (e & w & -> & H); [cbn in Hf; lia|].
    destruct (saved_fields v pos s) as (E1 & E2 & E3 & E4 & E5 & E6). rewrite E1, E2, E3, E4, E5, E6 in H.
    exists e, w. cbn [length]. rewrite <- Nat.add_succ_comm. tauto.
Qed.

(** A token made of plain states. *)
Lemma scan_plain text pre cs post lx s' b fuel :
  text = pre ++ cs ++ post -> Forall is_byte text -> Forall (fun c => c <> 10%Z) cs ->
  lx_position lx = length pre -> run S_start cs = Some s' -> state_builder s' = Some b -> stuck s' post -> length cs < fuel ->
  scan fuel text lx =
    Val (Token (Some b) (length pre) (lx_line lx) (Z.of_nat (length pre) - Z.of_nat (lx_line_start lx))
               (length pre + length cs) (lx_line lx) (Z.of_nat (length pre + length cs) - Z.of_nat (lx_line_start lx)),
         Lexer (length pre + length cs) (lx_line lx) (lx_line_start lx) (lx_counts lx)).
Proof.
  intros Ht Hb Hn Hpos Hr Hbl Hst Hf. unfold scan.
  destruct (repeat_path text s' b post Hb Hbl Hst cs fuel S_start (lx_position lx) (initial_vars lx)) as (e & w & -> & H1 & H2 & H3 & H4 & H5 & H6 & H7 & H8); auto.
  { rewrite Hpos, Ht, drop_app. reflexivity. }
  cbn [obind]. rewrite H1, H2, H3, H4, H5, H6, H7, H8. cbn. rewrite Hpos. reflexivity.
Qed.

(** ** Transitions on classes of characters *)

Definition same_state (o : option lstate) (s : lstate) : bool :=
  match o with Some t => state_index t =? state_index s | None => false end.
Lemma state_index_inj s t : state_index s = state_index t -> s = t.
Proof.
  intros H. assert (forall s, nth_error all_states (state_index s) = Some s) as Hi by (intros []; reflexivity).
  pose proof (Hi s) as H1. rewrite H, Hi in H1. congruence.
Qed.
Lemma same_state_true o s : same_state o s = true -> o = Some s.
Proof. destruct o as [t|]; cbn; [|discriminate]. intros H. apply Nat.eqb_eq, state_index_inj in H. congruence. Qed.

Definition all_codes : list Z := zrange 0 255.
Lemma zrange_in lo hi c : (lo <= c <= hi)%Z -> In c (zrange lo hi).
Proof.
  intros H. unfold zrange. apply in_map_iff. exists (Z.to_nat (c - lo)). split; [lia|]. apply in_seq. lia.
Qed.
Lemma byte_in c : is_byte c -> In c all_codes.
Proof. apply zrange_in. Qed.

Lemma class_step (f : Z -> bool) s s' :
  forallb (fun c => implb (f c) (same_state (step s c) s')) all_codes = true -> forall c, is_byte c -> f c = true -> step s c = Some s'.
Proof.
  intros H c Hb Hf. rewrite forallb_forall in H. specialize (H c (byte_in c Hb)). rewrite Hf in H. by apply same_state_true in H.
Qed.
Lemma class_stuck (f : Z -> bool) s :
  forallb (fun c => implb (f c) (match step s c with None => true | Some _ => false end)) all_codes = true ->
  forall c, is_byte c -> f c = true -> step s c = None.
Proof.
  intros H c Hb Hf. rewrite forallb_forall in H. specialize (H c (byte_in c Hb)). rewrite Hf in H. cbn in H. by destruct (step s c).
Qed.
