From stdpp Require Import sets.
From Verif Require Import Base GlobModel GlobSpec GlobProofs GlobProofs2 GlobProofs3.
From Coq Require Import ZArith ZifyBool ZifyNat.
Local Open Scope Z_scope.

Definition returns {A} (o : outcome A) (P : Prop) : Prop := match o with Val _ => P | Signal _ => ~ P | _ => False end.

Lemma returns_iff {A} (o : outcome A) (P Q : Prop) : returns o P -> (P <-> Q) -> returns o Q.
Proof. intros H HPQ. destruct o; cbn in *; tauto. Qed.

Lemma class_inv first s rest ranges rest' ranges' : class_at first s rest ranges -> class_at first s rest' ranges' -> rest' = rest.
Proof.
  intros H1 H2. destruct (parse_class_complete _ _ _ _ H1 (fun _ => false)) as (? & E1 & _). destruct (parse_class_complete _ _ _ _ H2 (fun _ => false)) as (? & E2 & _).
  congruence.
Qed.

Lemma parse_returns : forall fuel st node s, (length s <= fuel)%nat -> returns (parse_loop fuel st node s) (well_formed s).
Proof.
  induction fuel as [|fuel IH]; intros st node s Hf; (destruct s as [|char s]; [constructor|]); cbn in Hf; [lia|].
  cbn [parse_loop]. unfold c_question, c_star, c_open, c_backslash, c_caret.
  assert (Hother : char ∉ [91; 92] -> well_formed s <-> well_formed (char :: s)).
  { intros Hn. split; [by constructor|]. inversion 1; subst; try done; set_solver. }
  destruct (char =? 63) eqn:H1.
  { destruct (append_leaf _ _ _) as [st1 node1]. apply (returns_iff _ (well_formed s)); [apply IH; lia|]. apply Hother. rewrite !not_elem_of_cons. split_and!; try lia. apply not_elem_of_nil. }
  destruct (char =? 42) eqn:H2.
  { destruct (make_leaf _ _) as [st1 leaf]. destruct (make_closure st1 leaf) as [st2 tail]. destruct (make_concatenation st2 node tail) as [st3 node3].
    apply (returns_iff _ (well_formed s)); [apply IH; lia|]. apply Hother. rewrite !not_elem_of_cons. split_and!; try lia. apply not_elem_of_nil. }
  destruct (char =? 91) eqn:H3.
  { assert (char = 91) as -> by lia. clear Hother.
    assert (Hcl : forall (s0 : list Z) (f : (Z -> bool) -> Z -> bool), (length s0 <= fuel)%nat ->
      (forall p ranges, class_at true s0 p ranges -> well_formed p -> well_formed (91 :: s)) ->
      (well_formed (91 :: s) -> exists p ranges, class_at true s0 p ranges /\ well_formed p) ->
      returns (obind (parse_class true (fun _ => false) s0) (fun '(set, s) =>
        let '(st, node) := append_leaf st node (Reads (f set)) in parse_loop fuel st node s)) (well_formed (91 :: s))).
    { intros s0 f Hl Hin Hout. pose proof (parse_class_sound (length s0) true (fun _ => false) s0 ltac:(lia)) as Hso.
      destruct (parse_class true (fun _ => false) s0) as [[set p]|m| |] eqn:Ep; try done; cbn [obind].
      - destruct Hso as (ranges & Hc). destruct (parse_class_complete _ _ _ _ Hc (fun _ => false)) as (set' & _ & _ & Hlen).
        destruct (append_leaf _ _ _) as [st1 node1]. apply (returns_iff _ (well_formed p)); [apply IH; lia|]. split; [by apply (Hin p ranges)|].
        intros (p' & ranges' & Hc' & Hw)%Hout. by rewrite <- (class_inv _ _ _ _ _ _ Hc Hc').
      - cbn. intros (p & ranges & Hc & _)%Hout. destruct (parse_class_complete _ _ _ _ Hc (fun _ => false)) as (? & ? & _). congruence. }
    destruct s as [|c s].
    - apply (Hcl [] (fun set => set)); [cbn; lia| |].
      + intros p ranges Hc. inversion Hc.
      + inversion 1; subst; [eauto|set_solver].
    - destruct (c =? 94) eqn:Hc.
      + assert (c = 94) as -> by lia. apply (Hcl s (fun set x => any_char_set x && negb (set x))); [cbn in Hf; lia| |].
        * intros p ranges ? ?. by apply (wf_not_class s p ranges).
        * inversion 1 as [|s0 p ranges Hs Hc' Hw|s0 p ranges Hc' Hw| |]; subst; [by destruct (Hs s)|eauto|set_solver].
      + assert (forall s', c :: s <> 94 :: s') by (intros s' [= -> _]; lia). apply (Hcl (c :: s) (fun set => set)); [cbn in *; lia| |].
        * intros p ranges ? ?. by apply (wf_class (c :: s) p ranges).
        * inversion 1 as [|s0 p ranges Hs Hc' Hw|s0 p ranges Hc' Hw| |]; subst; [eauto|lia|set_solver]. }
  destruct (char =? 92) eqn:H4.
  { assert (char = 92) as -> by lia. destruct s as [|c s].
    - cbn. inversion 1; subst. set_solver.
    - destruct (append_leaf _ _ _) as [st1 node1]. apply (returns_iff _ (well_formed s)); [apply IH; cbn in Hf; lia|]. split; [by constructor|].
      inversion 1; subst; [done|set_solver]. }
  destruct (append_leaf _ _ _) as [st1 node1]. apply (returns_iff _ (well_formed s)); [apply IH; lia|]. apply Hother. rewrite !not_elem_of_cons.
  split_and!; try lia. apply not_elem_of_nil.
Qed.

Lemma more_returns : forall more st r, returns (parse_more st r more) (Forall well_formed more).
Proof.
  induction more as [|s more IH]; intros st r; [constructor|]. cbn [parse_more]. unfold parse_glob_pattern.
  pose proof (parse_returns (length s) st make_epsilon s ltac:(lia)) as H. destruct (parse_loop _ _ _ _) as [[st1 r1]|m| |]; try done; cbn [obind].
  - apply (returns_iff _ _ _ (IH st1 (make_union r r1))). rewrite Forall_cons. cbn in H. tauto.
  - cbn in *. rewrite Forall_cons. tauto.
Qed.

Lemma glob_returns pattern more w : returns (glob_match pattern more w) (Forall well_formed (pattern :: more)).
Proof.
  unfold glob_match, parse_glob_pattern. pose proof (parse_returns (length pattern) empty_store make_epsilon pattern ltac:(lia)) as H.
  destruct (parse_loop _ _ _ _) as [[st r]|m| |]; try done; cbn [obind]; [|cbn in *; rewrite Forall_cons; tauto].
  pose proof (more_returns more st r) as H'. destruct (parse_more st r more) as [[st1 r1]|m| |]; try done; cbn [obind]; [|cbn in *; rewrite Forall_cons; tauto].
  destruct (append_leaf st1 r1 Accept) as [st2 r2]. destruct (locate_state [] (firsts r2)) as [state states]. cbn in *. by rewrite Forall_cons.
Qed.

(** ** Regular expressions *)

Lemma den_cat e1 e2 w : denotes (Concatenation e1 e2) w <-> cat (denotes e1) (denotes e2) w.
Proof. split; [inversion 1; subst; by eexists _, _|]. intros (u & v & -> & ? & ?). by constructor. Qed.

Lemma den_star e w : denotes (Closure e) w <-> star (denotes e) w.
Proof.
  split.
  - intros H. remember (Closure e) as c eqn:Hc. induction H; try done; injection Hc as ->; constructor; auto.
  - induction 1; by constructor.
Qed.

Lemma build_good : forall e st, let '(st', r) := build st e in
  (next st <= next st')%nat /\ (forall p, (p < next st)%nat -> agree st st' p) /\
  exists own, good st' own r (denotes e) /\ (forall p, own p -> (next st <= p)%nat).
Proof.
  induction e as [|set|e1 IH1 e2 IH2|e1 IH1 e2 IH2|e IH]; intros st; cbn [build].
  - split; [lia|]. split; [done|]. exists (fun _ => False). split; [|done]. apply (good_iff _ _ _ _ _ (epsilon_good st)). intros w.
    split; [by inversion 1|]. intros ->. constructor.
  - pose proof (leaf_good st set) as H. destruct (make_leaf st (Reads set)) as [st' r]. destruct H as (G & Hn & Ha). split; [lia|]. split; [intros p Hp; apply Ha; lia|].
    exists (fun p => p = next st). split; [|by intros p ->]. apply (good_iff _ _ _ _ _ G). intros w. split; [inversion 1; subst; by eexists|]. intros (c & -> & ?). by constructor.
  - specialize (IH1 st). destruct (build st e1) as [st1 r1]. specialize (IH2 st1). destruct (build st1 e2) as [st2 r2].
    destruct IH1 as (N1 & A1 & own1 & G1 & O1). destruct IH2 as (N2 & A2 & own2 & G2 & O2).
    assert (G1' : good st2 own1 r1 (denotes e1)). { apply (good_frame st1); [done|done|]. intros p Hp. apply A2. gd G1. }
    split; [lia|]. split. { intros p Hp. destruct (A1 p Hp) as [? ?]. destruct (A2 p) as [? ?]; [lia|]. split; congruence. }
    exists (fun p => own1 p \/ own2 p). split; [|intros p [Hp|Hp]; [by apply O1|pose proof (O2 p Hp); lia]].
    eapply good_iff; [apply (union_good _ _ _ _ _ _ _ G1' G2)|]. { intros p Hp Hp'. pose proof (O2 p Hp'). pose proof (g_next _ _ _ _ G1 p Hp). lia. }
    intros w. split; [inversion 1; subst; [by left|by right]|]. intros [?|?]; [by apply den_union1|by apply den_union2].
  - specialize (IH1 st). destruct (build st e1) as [st1 r1]. specialize (IH2 st1). destruct (build st1 e2) as [st2 r2].
    destruct IH1 as (N1 & A1 & own1 & G1 & O1). destruct IH2 as (N2 & A2 & own2 & G2 & O2).
    assert (G1' : good st2 own1 r1 (denotes e1)). { apply (good_frame st1); [done|done|]. intros p Hp. apply A2. gd G1. }
    pose proof (concatenation_good st2 _ _ _ _ _ _ G1' G2) as H. destruct (make_concatenation st2 r1 r2) as [st3 r3].
    destruct H as (G3 & N3 & A3). { intros p Hp Hp'. pose proof (O2 p Hp'). pose proof (g_next _ _ _ _ G1 p Hp). lia. }
    split; [lia|]. split.
    { intros p Hp. destruct (A1 p Hp) as [? ?]. destruct (A2 p) as [? ?]; [lia|]. destruct (A3 p) as [? ?]; [intros Ho; pose proof (O1 p Ho); lia|]. split; congruence. }
    exists (fun p => own1 p \/ own2 p). split; [|intros p [Hp|Hp]; [by apply O1|pose proof (O2 p Hp); lia]].
    apply (good_iff _ _ _ _ _ G3). apply den_cat.
  - specialize (IH st). destruct (build st e) as [st1 r1]. destruct IH as (N1 & A1 & own1 & G1 & O1).
    pose proof (closure_good _ _ _ _ G1) as H. destruct (make_closure st1 r1) as [st2 r2]. destruct H as (G2 & N2 & A2). split; [lia|]. split.
    { intros p Hp. destruct (A1 p Hp) as [? ?]. destruct (A2 p) as [? ?]; [intros Ho; pose proof (O1 p Ho); lia|]. split; congruence. }
    exists own1. split; [|done]. apply (good_iff _ _ _ _ _ G2). apply den_star.
Qed.

Lemma accepts_ok e w : accepts e w = true <-> denotes e w.
Proof.
  unfold accepts. pose proof (build_good e empty_store) as H. destruct (build empty_store e) as [st r]. destruct H as (_ & _ & own & G & _).
  pose proof (accept_ok st own r _ G) as H. destruct (append_leaf st r Accept) as [st2 r2]. specialize (H [] w).
  destruct (locate_state [] (firsts r2)) as [state states]. apply H. constructor.
Qed.
