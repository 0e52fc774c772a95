(** C54: tokens and where they are in the source. *)
From Verif Require Import Base LexTable LexModel LexSpec LexProofs LitModel LitProofs.
From Coq Require Import ZArith Lia ZifyBool ZifyNat.
Local Open Scope outcome_scope.
Local Open Scope nat_scope.

(** The tokens that successive calls of get-token on a source text give. *)
Inductive reads (r : int_range) (text : list Z) : lexer -> list (token * literal) -> lexer -> Prop :=
  | reads_nil lx : reads r text lx [] lx
  | reads_cons lx t l lx' ts lx'' :
      get_token r (2 * length text + 1) text lx = Val (t, l, lx') -> reads r text lx' ts lx'' -> reads r text lx ((t, l) :: ts) lx''.

Lemma reads_ready r text lx ts lx' : Forall is_byte text -> ready text lx -> reads r text lx ts lx' -> ready text lx'.
Proof.
  intros Hb Hr H. induction H as [|lx t l lx1 ts lx2 E _ IH]; [done|]. apply IH.
  destruct (get_token_ok r text lx (2 * length text + 1) Hb Hr) as [(m & E')|(t' & l' & lx1' & E' & _ & Hr')]; [lia | congruence|].
  rewrite E in E'. injection E' as <- <- <-. done.
Qed.

(** What is known about one token. *)
Definition located (text : list Z) (t : token) : Prop :=
  tk_start t <= length text /\ tk_end t <= length text /\
  tk_start_line t = line_at text (tk_start t) /\ tk_start_column t = Z.of_nat (column_at text (tk_start t)) /\
  tk_end_line t = line_at text (tk_end t) /\ tk_end_column t = Z.of_nat (column_at text (tk_end t)) /\
  match tk_builder t with None => tk_start t = length text /\ tk_end t = length text | Some _ => tk_start t < tk_end t end.

Lemma get_token_located r text lx t l lx' fuel : Forall is_byte text -> ready text lx -> 2 * length text + 1 <= fuel ->
  get_token r fuel text lx = Val (t, l, lx') ->
  located text t /\ lx_position lx <= tk_start t /\ lx_position lx' = tk_end t /\ ready text lx'.
Proof.
  intros Hb Hr Hf E. destruct (get_token_ok r text lx fuel Hb Hr) as [(m & E')|(t' & l' & lx1 & E' & (lx0 & Es & Hp) & Hr')]; [lia | congruence|].
  rewrite E in E'. injection E' as <- <- <-.
  destruct (scan_ok text lx fuel Hb (proj1 Hr)) as [E''|(t'' & lx0' & E'' & H)]; [lia | congruence|].
  rewrite Es in E''. injection E'' as <- <-. destruct H as (H1 & H2 & H3 & H4 & H5 & H6 & H7 & H8 & _).
  unfold good in *. unfold located. destruct (tk_builder t); split_and!; try tauto; try lia; try congruence. apply H7. congruence.
Qed.

(** After any number of tokens, the next call of get-token answers: it gives a token or reports an error,
    but it never runs on for ever, and never reads beyond the end of the text. *)
Theorem C54_answers : forall r text ts lx,
  Forall is_byte text -> reads r text new_lexer ts lx ->
  (exists t l lx', get_token r (2 * length text + 1) text lx = Val (t, l, lx')) \/
  exists message, get_token r (2 * length text + 1) text lx = Signal message.
Proof.
  intros r text ts lx Hb H. pose proof (reads_ready _ _ _ _ _ Hb (new_ready text) H) as Hr.
  destruct (get_token_ok r text lx (2 * length text + 1) Hb Hr) as [(m & E')|(t' & l' & lx1 & E' & _)]; [lia | eauto | eauto].
Qed.

(** Every token is part of the text, not empty except at the end, and its lines and columns are right. *)
Theorem C54_located : forall r text ts lx t l,
  Forall is_byte text -> reads r text new_lexer ts lx -> In (t, l) ts -> located text t.
Proof.
  intros r text ts lx t l Hb H Hin. pose proof (new_ready text) as Hr. revert Hr. induction H as [|lx t1 l1 lx1 ts lx2 E _ IH]; intros Hr; [done|].
  destruct (get_token_located r text lx t1 l1 lx1 _ Hb Hr (Nat.le_refl _) E) as (H1 & _ & _ & Hr1).
  destruct Hin as [[= <- <-]|Hin]; [done | by apply IH].
Qed.

(** Tokens come in the order of the text, without overlaps. *)
Theorem C54_order : forall r text ts lx i j t l t' l',
  Forall is_byte text -> reads r text new_lexer ts lx -> i < j -> ts !! i = Some (t, l) -> ts !! j = Some (t', l') -> tk_end t <= tk_start t'.
Proof.
  intros r text ts lx i j t l t' l' Hb H Hij Hi Hj.
  assert (forall lx ts lx2, ready text lx -> reads r text lx ts lx2 -> forall j t' l', ts !! j = Some (t', l') -> lx_position lx <= tk_start t' <= tk_end t') as Hge.
  { clear -Hb. intros lx ts lx2 Hr H. revert Hr. induction H as [|lx t1 l1 lx1 ts lx2 E _ IH]; intros Hr j t' l' Hj; [done|].
    destruct (get_token_located r text lx t1 l1 lx1 _ Hb Hr (Nat.le_refl _) E) as (H1 & H2 & H3 & Hr1).
    assert (tk_start t1 <= tk_end t1) by (unfold located in H1; destruct (tk_builder t1); lia).
    destruct j as [|j]; cbn in Hj; [injection Hj as <- <-; lia|]. specialize (IH Hr1 j t' l' Hj). lia. }
  pose proof (new_ready text) as Hr. revert Hr i j Hij Hi Hj. induction H as [|lx t1 l1 lx1 ts lx2 E Hts IH]; intros Hr i j Hij Hi Hj; [done|].
  destruct (get_token_located r text lx t1 l1 lx1 _ Hb Hr (Nat.le_refl _) E) as (H1 & H2 & H3 & Hr1).
  destruct j as [|j]; [lia|]. destruct i as [|i]; cbn in Hi, Hj; [|apply (IH Hr1 i j ltac:(lia) Hi Hj)].
  injection Hi as <- <-. specialize (Hge lx1 ts lx2 Hr1 Hts j t' l' Hj). lia.
Qed.

(** No state of the transition table has two transitions for one character, and #"otherwise" is always the
    last: building the table does not signal its error, and which transition is taken is not a question
    of the order. *)
Theorem C54_table : forall s before o t between o' t' after c,
  state_transitions s = before ++ (o, t) :: between ++ (o', t') :: after ->
  o <> OnOtherwise /\ (In c (on_codes o) -> o' <> OnOtherwise -> ~ In c (on_codes o')).
Proof.
  intros s a o t b o' t' d c E. destruct (table_no_clash s) as [H1 H2]. rewrite E in H1, H2. unfold otherwise_last in H2.
  assert (o <> OnOtherwise) as Ho.
  { rewrite forallb_forall in H2. specialize (H2 (o, t)). intros ->. cbn in H2. discriminate H2.
    rewrite removelast_app by discriminate. apply in_or_app. right. destruct (b ++ (o', t') :: d) eqn:Eb; [by destruct b | by left]. }
  split; [done|]. intros Hc Ho' Hc'. unfold no_clash in H1. rewrite !map_app in H1. cbn [map fst] in H1. rewrite map_app in H1. cbn [map fst] in H1.
  rewrite !concat_app in H1. cbn [concat] in H1. rewrite concat_app in H1. cbn [concat] in H1.
  assert (match o with OnChar c => on_codes (OnChar c) | OnString s => on_codes (OnString s) | OnOtherwise => [] end = on_codes o) as Eo by (by destruct o).
  assert (match o' with OnChar c => on_codes (OnChar c) | OnString s => on_codes (OnString s) | OnOtherwise => [] end = on_codes o') as Eo' by (by destruct o').
  rewrite Eo, Eo' in H1. set (nodup := fix nodup (l : list Z) := match l with [] => true | c :: l => negb (existsb (Z.eqb c) l) && nodup l end) in H1.
  assert (forall l l' : list Z, nodup (l ++ l') = true -> nodup l' = true /\ (In c l -> ~ In c l')) as Hn.
  { clear. induction l as [|x l IH]; intros l' H; [split; [exact H | intros []]|]. cbn in H. apply andb_true_iff in H as [Hx H]. destruct (IH l' H) as [H1 H2].
    split; [done|]. intros [->|Hc] Hc'; [|by apply H2]. apply negb_true_iff in Hx. assert (existsb (Z.eqb c) (l ++ l') = true); [|congruence].
    apply existsb_exists. exists c. split; [apply in_or_app; by right | apply Z.eqb_refl]. }
  apply Hn in H1 as [H1 _]. apply Hn in H1 as [_ H1]. apply (H1 Hc). apply in_or_app. right. apply in_or_app. by left.
Qed.

Print Assumptions C54_answers.
Print Assumptions C54_located.
Print Assumptions C54_order.
Print Assumptions C54_table.

(** ** The hypotheses are met *)

(** "let x = 1;\n  /* two\n lines */ f(x)" *)
Definition example_text : list Z :=
  [108; 101; 116; 32; 120; 32; 61; 32; 49; 59; 10; 32; 32; 47; 42; 32; 116; 119; 111; 10; 32; 108; 105; 110; 101; 115; 32; 42; 47;
   32; 102; 40; 120; 41]%Z.

Example C54_example_bytes : Forall is_byte example_text.
Proof. unfold example_text, is_byte. repeat constructor; lia. Qed.

Example C54_example : exists ts lx, reads (IntRange (-8) 7) example_text new_lexer ts lx /\
  map (fun p => (tk_start (fst p), tk_end (fst p), tk_start_line (fst p), tk_start_column (fst p))) ts =
    [(0, 3, 1, 0%Z); (4, 5, 1, 4%Z); (6, 7, 1, 6%Z); (8, 9, 1, 8%Z); (9, 10, 1, 9%Z); (30, 31, 3, 10%Z); (31, 32, 3, 11%Z);
     (32, 33, 3, 12%Z); (33, 34, 3, 13%Z); (34, 34, 3, 14%Z)] /\
  map snd ts !! 3 = Some (LInteger 1%Z).
Proof.
  eexists _, _. split.
  - do 10 (eapply reads_cons; [vm_compute; reflexivity|]). apply reads_nil.
  - split; reflexivity.
Qed.
