From stdpp Require Import sets.
From Verif Require Import Base GlobSpec GlobModel GlobProofs GlobProofs2 GlobProofs3 GlobProofs4 DfaModel.
From Coq Require Import ZArith ZifyBool ZifyNat.
Local Open Scope nat_scope.

(** ** The subsets of a list *)

Fixpoint subsets (l : list nat) : list (list nat) :=
  match l with [] => [[]] | x :: l => map (cons x) (subsets l) ++ subsets l end.

Lemma subsets_length l : length (subsets l) = 2 ^ length l.
Proof. induction l as [|x l IH]; [done|]. cbn. rewrite app_length, map_length, IH. lia. Qed.

Lemma filter_subset f l : List.filter f l ∈ subsets l.
Proof.
  induction l as [|x l IH]; [by left|]. cbn. apply elem_of_app. destruct (f x); [left|by right]. rewrite elem_of_list_In in *. by apply in_map.
Qed.

Definition canon (n : nat) (l : list nat) : list nat := List.filter (fun x => mem x l) (List.seq 0 n).

Lemma canon_elem n l x : x ∈ canon n l <-> x < n /\ x ∈ l.
Proof. unfold canon. rewrite elem_filter, mem_true, (elem_of_list_In (List.seq 0 n)), in_seq. split; (intros [H1 H2]; split; [lia|done]). Qed.

Lemma canon_count n states : base.NoDup (map (canon n) states) -> length states <= 2 ^ n.
Proof.
  intros H. pose proof (subsets_length (List.seq 0 n)) as Hs. rewrite seq_length in Hs. rewrite <- Hs, <- (map_length (canon n)). apply NoDup_incl_length; [by apply NoDup_ListNoDup|].
  intros l Hl. apply in_map_iff in Hl as (l0 & <- & _). apply elem_of_list_In, filter_subset.
Qed.

Lemma same_equal_sets a b : base.NoDup a -> base.NoDup b -> (forall x, x ∈ a <-> x ∈ b) -> equal_sets a b = true.
Proof.
  intros Ha Hb H. unfold equal_sets. apply andb_true_iff. split.
  - apply Nat.eqb_eq. apply Nat.le_antisymm; (apply NoDup_incl_length; [by apply NoDup_ListNoDup|]); intros x Hx; apply elem_of_list_In, H, elem_of_list_In, Hx.
  - apply forallb_forall. intros x Hx. apply mem_true, H, elem_of_list_In, Hx.
Qed.

(** ** The worklist *)

Section worklist.
Context (st : store) (own : nat -> Prop).
Context (Hc : forall p q, own p -> q ∈ follow st p -> own q) (Hd : forall p, own p -> base.NoDup (follow st p)) (Hb : forall p, own p -> p < next st).

Definition label_ok (l : list nat) : Prop := base.NoDup l /\ forall p, p ∈ l -> own p.

Lemma transition_label l c l' : label_ok l -> transition st l c = Some l' -> label_ok l'.
Proof using Hc Hd.
  intros [Hn Ho] Ht. pose proof (transition_ok st c l None) as H. unfold transition in Ht. rewrite Ht in H.
  destruct H as [H1 H2]; [intros p Hp; by apply Hd, Ho|done|]. split; [done|]. intros q Hq. apply H2 in Hq as [(? & ? & _)|(p & Hp & _ & Hq)]; [done|].
  apply (Hc p); [by apply Ho|done].
Qed.

Definition table_ok (states : list (list nat)) : Prop := Forall label_ok states /\ base.NoDup (map (canon (next st)) states).
Definition found (states : list (list nat)) (l : list nat) : Prop := exists l', l' ∈ states /\ equal_sets l' l = true.

Lemma table_add states l : table_ok states -> label_ok l -> List.find (fun l' => equal_sets l' l) states = None -> table_ok (l :: states).
Proof using Hb.
  intros [H1 H2] Hl Hf. split; [by constructor|]. cbn. apply NoDup_cons. split; [|done]. intros Hin. apply elem_of_list_In, in_map_iff in Hin as (x & Hx & Hin).
  pose proof (find_none _ _ Hf x Hin) as He. cbn in He. rewrite same_equal_sets in He; [done| | |].
  - rewrite Forall_forall in H1. by apply H1, elem_of_list_In.
  - apply Hl.
  - rewrite Forall_forall in H1. destruct (H1 x ltac:(by apply elem_of_list_In)) as [_ Ho]. destruct Hl as [_ Hlo]. intros y.
    pose proof (canon_elem (next st) x y) as C1. pose proof (canon_elem (next st) l y) as C2. rewrite Hx in C1. split; intros Hy.
    + apply C2, C1. split; [by apply Hb, Ho|done].
    + apply C1, C2. split; [by apply Hb, Hlo|done].
Qed.

Lemma visit_fold label : label_ok label -> forall cs states wl, table_ok states ->
  let '(states', wl') := fold_left (visit st label) cs (states, wl) in
  table_ok states' /\ (forall x, x ∈ states -> x ∈ states') /\ (forall x, x ∈ wl -> x ∈ wl') /\ (forall x, x ∈ states' -> x ∈ states \/ x ∈ wl') /\
  (forall x, x ∈ wl' -> x ∈ wl \/ x ∈ states') /\
  length states' + length wl = length states + length wl' /\
  (forall c l, c ∈ cs -> transition st label c = Some l -> found states' l).
Proof using Hb Hc Hd.
  intros Hl. induction cs as [|c cs IH]; intros states wl Ht; cbn [fold_left].
  { split_and!; try done; try (by left); try (by auto). by intros c l []%elem_of_nil. }
  assert (Hcase : (visit st label (states, wl) c = (states, wl) /\ forall l, transition st label c = Some l -> found states l) \/
    exists l, transition st label c = Some l /\ visit st label (states, wl) c = (l :: states, wl ++ [l]) /\ table_ok (l :: states)).
  { unfold visit. destruct (transition st label c) as [l|] eqn:Et; [|by left]. destruct (List.find _ states) as [l'|] eqn:Ef.
    - left. split; [done|]. intros l0 [= <-]. apply find_some in Ef as [? ?]. exists l'. split; [by apply elem_of_list_In|done].
    - right. exists l. split; [done|]. split; [done|]. apply table_add; [done|by apply (transition_label label c)|done]. }
  destruct Hcase as [[-> Hf]|(l & Et & -> & Ht')].
  - specialize (IH states wl Ht). destruct (fold_left _ cs _) as [states' wl']. destruct IH as (I1 & I2 & I3 & I4 & I5 & I6 & I7). split_and!; try done.
    intros c0 l0 [->|Hc0]%elem_of_cons Hl0; [|by apply (I7 c0)]. destruct (Hf l0 Hl0) as (l' & ? & ?). exists l'. auto.
  - specialize (IH (l :: states) (wl ++ [l]) Ht'). destruct (fold_left _ cs _) as [states' wl']. destruct IH as (I1 & I2 & I3 & I4 & I5 & I6 & I7).
    split_and!; try done.
    + intros x Hx. apply I2. by right.
    + intros x Hx. apply I3, elem_of_app. by left.
    + intros x [Hx|Hx]%I4; [|by right]. apply elem_of_cons in Hx as [->|Hx]; [|by left]. right. apply I3, elem_of_app. right. by left.
    + intros x [Hx|Hx]%I5; [|by right]. apply elem_of_app in Hx as [Hx| ->%elem_of_list_singleton]; [by left|]. right. apply I2. by left.
    + rewrite app_length in I6. cbn in I6. lia.
    + intros c0 l0 [->|Hc0]%elem_of_cons Hl0; [|by apply (I7 c0)]. rewrite Et in Hl0. injection Hl0 as <-. exists l. split; [apply I2; by left|].
      destruct Ht' as [Hall _]. apply Forall_cons in Hall as [[Hn _] _]. by apply same_equal_sets.
Qed.

Definition closed (order : list nat -> list Z) (states : list (list nat)) (label : list nat) : Prop :=
  forall c l, c ∈ order label -> transition st label c = Some l -> found states l.

Lemma dfa_loop_ok order : forall fuel states wl, table_ok states -> (forall x, x ∈ wl -> x ∈ states) ->
  (forall x, x ∈ states -> x ∈ wl \/ closed order states x) -> 2 ^ next st + length wl <= fuel + length states ->
  exists states', dfa_loop fuel order st states wl = Val states' /\ table_ok states' /\ (forall x, x ∈ states -> x ∈ states') /\
    forall x, x ∈ states' -> closed order states' x.
Proof using Hb Hc Hd.
  induction fuel as [|fuel IH]; intros states wl Ht Hw Hcl Hm; (destruct wl as [|label wl]; cbn [dfa_loop];
    [exists states; split_and!; try done; intros x Hx; by destruct (Hcl x Hx) as [[]%elem_of_nil|?]|]).
  - pose proof (canon_count _ _ (proj2 Ht)). cbn [length] in Hm. lia.
  - assert (Hl : label_ok label). { destruct Ht as [Ht _]. rewrite Forall_forall in Ht. apply Ht, Hw. by left. }
    pose proof (visit_fold label Hl (order label) states wl Ht) as V. destruct (fold_left _ _ _) as [states1 wl1]. destruct V as (V1 & V2 & V3 & V4 & V5 & V6 & V7).
    destruct (IH states1 wl1 V1) as (states' & E & R1 & R2 & R3).
    + intros x [Hx|Hx]%V5; [|done]. apply V2, Hw. by right.
    + intros x [Hx|Hx]%V4; [|by left]. destruct (Hcl x Hx) as [[->|Hx']%elem_of_cons|Hx'].
      * right. exact V7.
      * left. by apply V3.
      * right. intros c l Hc0 Hl0. destruct (Hx' c l Hc0 Hl0) as (l' & ? & ?). exists l'. auto.
    + cbn [length] in Hm. lia.
    + exists states'. split_and!; auto.
Qed.

Lemma run_table_ok order states : table_ok states -> (forall x, x ∈ states -> closed order states x) ->
  forall w state, state ∈ states -> (forall c label, c ∈ w -> c ∈ order label) -> run_table st states state w = Val (run st states state w).
Proof using.
  intros Ht Hcl. induction w as [|c w IH]; intros state Hs Ho; [done|]. cbn [run_table run]. destruct (transition st state c) as [l|] eqn:Et; [|done].
  destruct (Hcl state Hs c l) as (l' & Hl' & He); [apply Ho; by left|done|]. unfold locate_state. destruct (List.find _ states) as [l0|] eqn:Ef.
  - apply find_some in Ef as [Hin _]. apply IH; [by apply elem_of_list_In|]. intros c0 label Hc0. apply Ho. by right.
  - pose proof (find_none _ _ Ef l' ltac:(by apply elem_of_list_In)) as Hn. cbn in Hn. congruence.
Qed.
End worklist.

(** ** The expression with its accepting position *)

Lemma accept_frame st own r D : good st own r D -> let '(st', r') := append_leaf st r Accept in
  exists own' : nat -> Prop, (forall p q, own' p -> q ∈ follow st' p -> own' q) /\ (forall p, own' p -> base.NoDup (follow st' p)) /\
    (forall p, own' p -> p < next st') /\ base.NoDup (firsts r') /\ (forall p, p ∈ firsts r' -> own' p).
Proof.
  intros G. unfold append_leaf, make_leaf, make_concatenation. cbn [firsts lasts nullable]. set (a := next st).
  set (st1 := Store _ _ _). set (st2 := fold_left _ _ _).
  destruct (fold_follow (fun f => f ++ [a]) (lasts r) st1 (g_dlast _ _ _ _ G)) as (F1 & F2 & F3 & F4). fold st2 in F1, F2, F3, F4.
  assert (Hown : forall p, own p -> p <> a). { intros p Hp ->. pose proof (g_next _ _ _ _ G a Hp). unfold a in *. lia. }
  assert (Hfa : follow st2 a = []). { rewrite F4; [cbn; by rewrite decide_True by done|]. intros Hl. apply (Hown a); [gd G|done]. }
  assert (Hf : forall p, own p -> follow st2 p = follow st p ++ (if decide (p ∈ lasts r) then [a] else [])).
  { intros p Hp. destruct (decide (p ∈ lasts r)) as [Hl|Hl]; [rewrite F3 by done|rewrite F4, app_nil_r by done]; cbn; by rewrite decide_False by (by apply Hown). }
  exists (fun p => own p \/ p = a). split_and!.
  - intros p q [Hp| ->] Hq; [|rewrite Hfa in Hq; by apply elem_of_nil in Hq]. rewrite Hf in Hq by done. apply elem_of_app in Hq as [Hq|Hq]; [left; by apply (g_follow _ _ _ _ G p)|].
    destruct (decide (p ∈ lasts r)); [apply elem_of_list_singleton in Hq; by right|by apply elem_of_nil in Hq].
  - intros p [Hp| ->]; [|rewrite Hfa; constructor]. rewrite Hf by done. apply NoDup_app. split_and!; [gd G| |destruct (decide _); [apply NoDup_singleton|constructor]].
    intros x Hx Hx'. destruct (decide (p ∈ lasts r)); [|by apply elem_of_nil in Hx']. apply elem_of_list_singleton in Hx' as ->.
    apply (Hown a); [by apply (g_follow _ _ _ _ G p)|done].
  - rewrite F1. cbn. intros p [Hp| ->]; [pose proof (g_next _ _ _ _ G p Hp)|]; unfold a; lia.
  - destruct (nullable r); [|gd G]. apply NoDup_app. split_and!; [gd G| |apply NoDup_singleton]. intros x Hx ->%elem_of_list_singleton.
    apply (Hown a); [gd G|done].
  - intros p. destruct (nullable r); [rewrite elem_of_app, elem_of_list_singleton; intros [?|?]; [left; gd G|by right]|]. intros ?. left. gd G.
Qed.

Lemma dfa_ok order e : let '(st, r) := with_accept e in
  exists states, dfa order st r = Val states /\ length states <= 2 ^ next st /\
    forall w, (forall c label, c ∈ w -> c ∈ order label) -> exists b, run_table st states (firsts r) w = Val b /\ (b = true <-> denotes e w).
Proof.
  unfold with_accept. pose proof (build_good e empty_store) as H. destruct (build empty_store e) as [st r]. destruct H as (_ & _ & own & G & _).
  pose proof (accept_ok st own r _ G) as Hrun. pose proof (accept_frame st own r _ G) as Hfr. destruct (append_leaf st r Accept) as [st2 r2].
  destruct Hfr as (own2 & Hc & Hd & Hb & Hn & Ho).
  assert (Ht : table_ok st2 own2 [firsts r2]). { split; [by repeat constructor|]. cbn. apply NoDup_singleton. }
  destruct (dfa_loop_ok st2 own2 Hc Hd Hb order (2 ^ next st2) [firsts r2] [firsts r2] Ht) as (states & E & R1 & R2 & R3); [done|auto|cbn; lia|].
  exists states. split; [exact E|]. split; [apply canon_count, R1|]. intros w Hw.
  assert (Hin : firsts r2 ∈ states) by (apply R2; by left).
  rewrite (run_table_ok st2 own2 order states R1 R3) by done. eexists. split; [done|].
  assert (Hnd : Forall (fun l : list nat => base.NoDup l) states). { destruct R1 as [R1 _]. apply (Forall_impl _ _ _ R1). by intros x [? _]. }
  specialize (Hrun states w Hnd). unfold locate_state in Hrun.
  destruct (List.find _ states) as [l|] eqn:Ef.
  - apply find_some in Ef as [Hl He]. rewrite Forall_forall in Hnd.
    assert (l = firsts r2) as <-; [|done].
    destruct R1 as [_ R1]. apply elem_of_list_In in Hl. assert (Hs : forall x, x ∈ firsts r2 <-> x ∈ l) by (apply equal_sets_elem; [done|by apply Hnd]).
    assert (Hcan : canon (next st2) l = canon (next st2) (firsts r2)).
    { unfold canon. apply filter_ext. intros x. apply eq_true_iff_eq. rewrite !mem_true. symmetry. apply Hs. }
    apply elem_of_list_lookup in Hl as [i Hi]. apply elem_of_list_lookup in Hin as [j Hj].
    assert (i = j). { apply (NoDup_lookup _ i j (canon (next st2) l) R1); rewrite list_lookup_fmap; [by rewrite Hi|rewrite Hj; cbn; by rewrite Hcan]. }
    subst j. congruence.
  - pose proof (find_none _ _ Ef (firsts r2) ltac:(by apply elem_of_list_In)) as H. cbn in H. by rewrite same_equal_sets in H.
Qed.
