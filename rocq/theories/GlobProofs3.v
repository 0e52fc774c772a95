From Verif Require Import Base GlobModel GlobSpec GlobProofs GlobProofs2.
From Coq Require Import ZArith ZifyBool ZifyNat.
Local Open Scope Z_scope.

(** ** Several patterns *)

Lemma epsilon_good st : good st (fun _ => False) make_epsilon (fun w => w = []).
Proof.
  split; cbn; try done; try (by intros p ?%elem_of_nil); try constructor.
  - intros ->. by left.
  - intros [[_ ->]|(p & []%elem_of_nil & _)]. done.
Qed.

Lemma cat_nil E w : cat (fun w => w = []) E w <-> E w.
Proof. split; [by intros (u & v & -> & -> & Hv)|]. intros H. by exists [], w. Qed.

Lemma parse_glob_pattern_ok st s :
  match parse_glob_pattern st s with
  | Val (st', r) => (next st <= next st')%nat /\ (forall p, (p < next st)%nat -> agree st st' p) /\
      exists own, good st' own r (matches s) /\ (forall p, own p -> (next st <= p)%nat)
  | Signal _ => forall w, ~ matches s w
  | _ => False
  end.
Proof.
  pose proof (parse_loop_ok (length s) st _ _ _ s ltac:(lia) (epsilon_good st)) as H. unfold parse_glob_pattern.
  destruct (parse_loop _ _ _ _) as [[st' r]|m| |]; try done. cbn in H. destruct H as (Hn & Ha & own & G & Ho).
  split; [done|]. split; [intros p Hp; by apply Ha; [intros []|]|]. exists own. split; [|intros p [[]|?]%Ho; done].
  apply (good_iff _ _ _ _ (matches s)) in G; [done|]. intros w. by rewrite cat_nil.
Qed.

Lemma parse_more_ok : forall more st own r D, good st own r D ->
  match parse_more st r more with
  | Val (st', r') => exists own', good st' own' r' (fun w => D w \/ exists s, s ∈ more /\ matches s w)
  | Signal _ => exists s, s ∈ more /\ forall w, ~ matches s w
  | _ => False
  end.
Proof.
  induction more as [|s more IH]; intros st own r D G; cbn [parse_more].
  { exists own. apply (good_iff _ _ _ D); [done|]. intros w. split; [|by left]. intros [?|(s & []%elem_of_nil & _)]. done. }
  pose proof (parse_glob_pattern_ok st s) as H. destruct (parse_glob_pattern st s) as [[st1 r1]|m| |]; try done; cbn [obind].
  2:{ exists s. split; [by left|done]. }
  destruct H as (Hn & Ha & own1 & G1 & Ho).
  assert (G0 : good st1 own r D). { apply (good_frame st); try done. intros p Hp. apply Ha. gd G. }
  assert (G2 : good st1 (fun p => own p \/ own1 p) (make_union r r1) (fun w => D w \/ matches s w)).
  { apply union_good; [done|done|]. intros p Hp Hp'. pose proof (Ho p Hp'). pose proof (g_next _ _ _ _ G p Hp). lia. }
  specialize (IH st1 _ _ _ G2). destruct (parse_more st1 (make_union r r1) more) as [[st2 r2]|m| |]; try done.
  - destruct IH as (own2 & G3). exists own2. apply (good_iff _ _ _ _ _ G3). intros w. split.
    + intros [?|(s' & [->|Hs']%elem_of_cons & Hm)]; [by left; left|by left; right|]. right. by exists s'.
    + intros [[?|?]|(s' & Hs' & Hm)]; [by left| |]; right; [exists s|exists s']; (split; [|done]); [by left|by right].
  - destruct IH as (s' & Hs' & Hm). exists s'. split; [by right|done].
Qed.

(** ** Running the automaton *)

Fixpoint from (st : store) (p : nat) (w : list Z) : Prop :=
  match w with
  | [] => kind_of st p = Accept
  | c :: w => (exists set, kind_of st p = Reads set /\ set c = true) /\ exists q, q ∈ follow st p /\ from st q w
  end.

Definition on (st : store) (c : Z) (p : nat) : Prop := exists set, kind_of st p = Reads set /\ set c = true.

Lemma transition_ok st c : forall label present,
  (forall p, p ∈ label -> base.NoDup (follow st p)) -> (forall l, present = Some l -> base.NoDup l) ->
  match fold_left (fun present position =>
    match kind_of st position with
    | Reads set =>
        if set c then
          match present with
          | Some present => Some (union_positions present (follow st position))
          | None => Some (follow st position)
          end
        else present
    | Accept => present
    end) label present with
  | Some l => base.NoDup l /\ forall q, q ∈ l <-> (exists l0, present = Some l0 /\ q ∈ l0) \/ exists p, p ∈ label /\ on st c p /\ q ∈ follow st p
  | None => present = None /\ forall p, p ∈ label -> ~ on st c p
  end.
Proof.
  induction label as [|p label IH]; intros present Hf Hp; cbn [fold_left].
  { destruct present as [l|]; [|split; [done|by intros p ?%elem_of_nil]]. split; [by apply Hp|]. intros q. split; [intros ?; left; by exists l|].
    intros [(l0 & [= ->] & ?)|(p & []%elem_of_nil & _)]. done. }
  assert (Hf' : forall p, p ∈ label -> base.NoDup (follow st p)) by (intros; apply Hf; by right).
  assert (Hfp : base.NoDup (follow st p)) by (apply Hf; by left).
  destruct (kind_of st p) as [set|] eqn:Hk; [destruct (set c) eqn:Hc|].
  - assert (Hon : on st c p) by (by exists set). set (present' := match present with Some _ => _ | None => _ end).
    specialize (IH present' Hf'). assert (Hd : forall l, present' = Some l -> base.NoDup l).
    { intros l Hl. unfold present' in Hl. destruct present as [l0|]; injection Hl as <-; [|done]. apply NoDup_union; [by apply Hp|done]. }
    specialize (IH Hd). destruct (fold_left _ label present') as [l|].
    + destruct IH as [I1 I2]. split; [done|]. intros q. rewrite I2. unfold present'. split.
      * intros [(l0 & Hl0 & Hq)|(p' & Hp' & ? & ?)]; [|right; exists p'; split; [by right|done]].
        destruct present as [l1|]; injection Hl0 as <-; [apply elem_union in Hq as [Hq|Hq]; [left; by exists l1|]|]; right; exists p; (split; [by left|done]).
      * intros [(l0 & -> & Hq)|(p' & [->|Hp']%elem_of_cons & ? & ?)].
        -- left. eexists. split; [done|]. apply elem_union. by left.
        -- left. destruct present; (eexists; split; [done|]); [apply elem_union; by right|done].
        -- right. by exists p'.
    + destruct IH as [I1 _]. unfold present' in I1. by destruct present.
  - assert (Hno : ~ on st c p) by (intros (s & Hs & ?); congruence). specialize (IH present Hf' Hp). destruct (fold_left _ label present) as [l|].
    + destruct IH as [I1 I2]. split; [done|]. intros q. rewrite I2. split; (intros [?|(p' & Hp' & ? & ?)]; [by left|]).
      * right. exists p'. split; [by right|done].
      * apply elem_of_cons in Hp' as [->|Hp']; [done|]. right. by exists p'.
    + destruct IH as [I1 I2]. split; [done|]. intros p' [->|Hp']%elem_of_cons; [done|by apply I2].
  - assert (Hno : ~ on st c p) by (intros (s & Hs & ?); congruence). specialize (IH present Hf' Hp). destruct (fold_left _ label present) as [l|].
    + destruct IH as [I1 I2]. split; [done|]. intros q. rewrite I2. split; (intros [?|(p' & Hp' & ? & ?)]; [by left|]).
      * right. exists p'. split; [by right|done].
      * apply elem_of_cons in Hp' as [->|Hp']; [done|]. right. by exists p'.
    + destruct IH as [I1 I2]. split; [done|]. intros p' [->|Hp']%elem_of_cons; [done|by apply I2].
Qed.

Lemma locate_ok states label : Forall (fun l : list nat => base.NoDup l) states -> base.NoDup label ->
  let '(state, states') := locate_state states label in
  (forall x, x ∈ state <-> x ∈ label) /\ base.NoDup state /\ Forall (fun l : list nat => base.NoDup l) states'.
Proof.
  intros Hs Hl. unfold locate_state. destruct (List.find _ states) as [l|] eqn:Hf.
  - apply find_some in Hf as [Hin He]. rewrite Forall_forall in Hs. assert (base.NoDup l) by (apply Hs; by apply elem_of_list_In).
    split; [|split; [done|by apply Forall_forall]]. intros x. symmetry. by apply equal_sets_elem.
  - split; [done|]. split; [done|]. by constructor.
Qed.

Lemma run_ok st (own : nat -> Prop) : (forall p q, own p -> q ∈ follow st p -> own q) -> (forall p, own p -> base.NoDup (follow st p)) ->
  forall w states state, Forall (fun l : list nat => base.NoDup l) states -> base.NoDup state -> (forall p, p ∈ state -> own p) ->
  run st states state w = true <-> exists p, p ∈ state /\ from st p w.
Proof.
  intros Hc Hd. induction w as [|c w IH]; intros states state Hs Hn Ho; cbn [run].
  - unfold accepting. rewrite existsb_exists. cbn. setoid_rewrite <- elem_of_list_In. split; intros (p & Hp & H); exists p; (split; [done|]);
      destruct (kind_of st p); done.
  - pose proof (transition_ok st c state None) as Ht. unfold transition. destruct (fold_left _ state None) as [l|].
    + destruct Ht as [T1 T2]; [intros p Hp; by apply Hd, Ho|done|]. pose proof (locate_ok states l Hs T1) as L.
      destruct (locate_state states l) as [state' states']. destruct L as (L1 & L2 & L3). rewrite IH; [|done|done|].
      * split.
        -- intros (q & Hq & Hr). apply L1, T2 in Hq as [(? & ? & _)|(p & Hp & Hon & Hq)]; [done|]. exists p. split; [done|]. cbn. split; [done|]. by exists q.
        -- intros (p & Hp & Hon & q & Hq & Hr). exists q. split; [|done]. apply L1, T2. right. by exists p.
      * intros q Hq. apply L1, T2 in Hq as [(? & ? & _)|(p & Hp & _ & Hq)]; [done|]. apply (Hc p); [by apply Ho|done].
    + destruct Ht as [_ T]; [intros p Hp; by apply Hd, Ho|done|]. split; [done|]. intros (p & Hp & Hon & _). by destruct (T p Hp).
Qed.

(** ** The accepting position *)

Lemma accept_ok st own r D : good st own r D ->
  let '(st', r') := append_leaf st r Accept in
  forall states w, Forall (fun l : list nat => base.NoDup l) states ->
    let '(state, states') := locate_state states (firsts r') in run st' states' state w = true <-> D w.
Proof.
  intros G. unfold append_leaf, make_leaf, make_concatenation. cbn [firsts lasts nullable]. set (a := next st).
  set (st1 := Store _ _ _). set (st2 := fold_left _ _ _). intros states w Hs.
  destruct (fold_follow (fun f => f ++ [a]) (lasts r) st1 (g_dlast _ _ _ _ G)) as (F1 & F2 & F3 & F4). fold st2 in F1, F2, F3, F4.
  assert (Hown : forall p, own p -> p <> a). { intros p Hp ->. pose proof (g_next _ _ _ _ G a Hp). unfold a in *. lia. }
  assert (Hk : forall p, own p -> kind_of st2 p = kind_of st p). { intros p Hp. rewrite F2. cbn. rewrite decide_False by (by apply Hown). done. }
  assert (Hka : kind_of st2 a = Accept). { rewrite F2. cbn. by rewrite decide_True by done. }
  assert (Hfa : follow st2 a = []). { rewrite F4; [cbn; by rewrite decide_True by done|]. intros Hl. apply (Hown a); [gd G|done]. }
  assert (Hf : forall p, own p -> follow st2 p = follow st p ++ (if decide (p ∈ lasts r) then [a] else [])).
  { intros p Hp. destruct (decide (p ∈ lasts r)) as [Hl|Hl]; [rewrite F3 by done|rewrite F4, app_nil_r by done]; cbn; by rewrite decide_False by (by apply Hown). }
  set (own2 := fun p => own p \/ p = a).
  assert (Hc : forall p q, own2 p -> q ∈ follow st2 p -> own2 q).
  { intros p q [Hp| ->] Hq; [|rewrite Hfa in Hq; by apply elem_of_nil in Hq]. rewrite Hf in Hq by done. apply elem_of_app in Hq as [Hq|Hq]; [left; by apply (g_follow _ _ _ _ G p)|].
    destruct (decide (p ∈ lasts r)); [apply elem_of_list_singleton in Hq; by right|by apply elem_of_nil in Hq]. }
  assert (Hd : forall p, own2 p -> base.NoDup (follow st2 p)).
  { intros p [Hp| ->]; [|rewrite Hfa; constructor]. rewrite Hf by done. apply NoDup_app. split_and!; [gd G| |destruct (decide _); [apply NoDup_singleton|constructor]].
    intros x Hx Hx'. destruct (decide (p ∈ lasts r)); [|by apply elem_of_nil in Hx']. apply elem_of_list_singleton in Hx' as ->.
    apply (Hown a); [by apply (g_follow _ _ _ _ G p)|done]. }
  assert (Hfrom : forall w p, own p -> from st2 p w <-> reads st (lasts r) p w).
  { induction w0 as [|c w0 IH]; intros p Hp; cbn.
    { rewrite Hk by done. split; [|done]. intros H. by destruct (g_kind _ _ _ _ G p Hp). }
    rewrite Hk by done. split; intros [Hon H]; (split; [done|]).
    - destruct H as (q & Hq & Hr). rewrite Hf in Hq by done. apply elem_of_app in Hq as [Hq|Hq].
      + right. exists q. split; [done|]. apply IH; [by apply (g_follow _ _ _ _ G p)|done].
      + destruct (decide (p ∈ lasts r)) as [Hl|Hl]; [|by apply elem_of_nil in Hq]. apply elem_of_list_singleton in Hq as ->. left. split; [|done].
        destruct w0; [done|]. cbn in Hr. destruct Hr as [(s & Hs' & _) _]. congruence.
    - destruct H as [[-> Hl]|(q & Hq & Hr)].
      + exists a. split; [rewrite Hf, decide_True by done; apply elem_of_app; right; by left|done].
      + exists q. split; [rewrite Hf by done; apply elem_of_app; by left|]. apply IH; [by apply (g_follow _ _ _ _ G p)|done]. }
  set (fs := if nullable r then firsts r ++ [a] else firsts r).
  assert (Hfs : forall p, p ∈ fs <-> p ∈ firsts r \/ p = a /\ nullable r = true).
  { intros p. unfold fs. destruct (nullable r); [rewrite elem_of_app, elem_of_list_singleton|]; naive_solver. }
  assert (Hdfs : base.NoDup fs).
  { unfold fs. destruct (nullable r); [|gd G]. apply NoDup_app. split_and!; [gd G| |apply NoDup_singleton]. intros x Hx ->%elem_of_list_singleton.
    apply (Hown a); [gd G|done]. }
  pose proof (locate_ok states fs Hs Hdfs) as L. destruct (locate_state states fs) as [state states']. destruct L as (L1 & L2 & L3).
  rewrite (run_ok st2 own2 Hc Hd); [|done|done|].
  - rewrite (g_lang _ _ _ _ G). unfold lang. split.
    + intros (p & Hp & Hr). apply L1, Hfs in Hp as [Hp|[-> Hn]].
      * right. exists p. split; [done|]. apply Hfrom; [gd G|done].
      * left. split; [done|]. destruct w; [done|]. cbn in Hr. destruct Hr as [(s & Hs' & _) _]. congruence.
    + intros [[Hn ->]|(p & Hp & Hr)]; [exists a|exists p]; (split; [apply L1, Hfs|]); [by right|done|by left|]. apply Hfrom; [gd G|done].
  - intros p Hp. apply L1, Hfs in Hp as [Hp|[-> _]]; [left; gd G|by right].
Qed.

Lemma glob_match_ok pattern more w :
  match glob_match pattern more w with
  | Val b => b = true <-> exists s, s ∈ pattern :: more /\ matches s w
  | Signal _ => exists s, s ∈ pattern :: more /\ forall v, ~ matches s v
  | _ => False
  end.
Proof.
  unfold glob_match. pose proof (parse_glob_pattern_ok empty_store pattern) as H. destruct (parse_glob_pattern empty_store pattern) as [[st r]|m| |]; try done; cbn [obind].
  2:{ exists pattern. split; [by left|done]. }
  destruct H as (_ & _ & own & G & _). pose proof (parse_more_ok more st own r _ G) as H. destruct (parse_more st r more) as [[st1 r1]|m| |]; try done; cbn [obind].
  2:{ destruct H as (s & Hs & Hm). exists s. split; [by right|done]. }
  destruct H as (own1 & G1). pose proof (accept_ok st1 own1 r1 _ G1) as H. destruct (append_leaf st1 r1 Accept) as [st2 r2].
  specialize (H [] w). destruct (locate_state [] (firsts r2)) as [state states]. rewrite H by constructor. split.
  - intros [?|(s & Hs & Hm)]; [exists pattern; split; [by left|done]|]. exists s. split; [by right|done].
  - intros (s & [->|Hs]%elem_of_cons & Hm); [by left|]. right. by exists s.
Qed.
