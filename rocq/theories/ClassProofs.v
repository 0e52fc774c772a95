From Verif Require Import Base ClassModel ClassSpec.
From stdpp Require Import sorting list_numbers.
From Coq Require Import ZifyBool ZifyNat.
Local Open Scope outcome_scope.

(** *** List facts *)
Section lists.
Context {A : Type} `{EqDecision A}.
Implicit Types l L R : list A.

Lemma sublist_elem l L x : sublist l L -> x ∈ l -> x ∈ L.
Proof. intros H. induction H; rewrite ?elem_of_cons; [done|naive_solver..]. Qed.

Lemma sublist_nodup l L : sublist l L -> NoDup L -> NoDup l.
Proof.
  intros H. induction H as [|x l L H IH|x l L H IH]; intros Hnd; [constructor|..].
  - apply NoDup_cons in Hnd as [Hx Hnd]. constructor; [|auto].
    intros Hin. apply Hx. by eapply sublist_elem.
  - apply NoDup_cons in Hnd as [_ Hnd]. auto.
Qed.

Lemma sublist_filter_neq l L (n : A) :
  sublist l L -> n ∉ l -> sublist l (filter (.≠ n) L).
Proof.
  intros H. induction H as [|x l L H IH|x l L H IH]; intros Hn; [constructor|..].
  - apply not_elem_of_cons in Hn as [Hx Hn]. rewrite filter_cons_True by done.
    apply sublist_skip; auto.
  - rewrite filter_cons. case_decide; [apply sublist_cons|]; auto.
Qed.

Lemma nodup_filter_neq L (n : A) : NoDup L -> NoDup (filter (.≠ n) L).
Proof. intros. by apply NoDup_filter. Qed.

Lemma sublist_cons_split L x l : NoDup L -> sublist (x :: l) L ->
  forall L1 L2, L = L1 ++ x :: L2 -> sublist l L2.
Proof.
  intros Hnd Hs L1. revert L Hnd Hs. induction L1 as [|y L1 IH]; intros L Hnd Hs L2 ->.
  - apply sublist_cons_r in Hs as [Hs|(l' & Heq & Hs)].
    + apply NoDup_cons in Hnd as [Hx _]. destruct Hx. eapply sublist_elem; [done|left].
    + by simplify_eq.
  - cbn in Hnd, Hs. apply NoDup_cons in Hnd as [Hy Hnd].
    apply sublist_cons_r in Hs as [Hs|(l' & Heq & Hs)].
    + by apply (IH _ Hnd Hs).
    + simplify_eq. destruct Hy. rewrite elem_of_app, elem_of_cons. auto.
Qed.
End lists.

(** *** The greedy merge *)

Definition legal (n : cid) (lists : list (list cid)) : Prop :=
  (exists l, l ∈ lists /\ head l = Some n) /\ (forall l, l ∈ lists -> n ∉ tail l).

Fixpoint gmerge (pick : list cid -> list (list cid) -> option cid) (fuel : nat)
    (partial : list cid) (lists : list (list cid)) : outcome (list cid) :=
  match fuel with
  | O => NoFuel
  | S fuel' =>
      if all_empty lists then Val (rev partial)
      else match pick partial lists with
           | Some n => gmerge pick fuel' (n :: partial) (map (remove_next n) lists)
           | None => Signal "inconsistent-precedence-class-error"
           end
  end.

Lemma merge_lists_gmerge fuel partial lists :
  merge_lists fuel partial lists = gmerge (fun _ ls => next_candidate ls ls) fuel partial lists.
Proof.
  revert partial lists. induction fuel as [|fuel IH]; intros; cbn; [done|].
  destruct (all_empty _); [done|]. destruct (next_candidate _ _); [apply IH|done].
Qed.
Lemma merge_lists_old_gmerge so fuel partial lists :
  merge_lists_old so fuel partial lists = gmerge (fun p ls => next_old so ls p) fuel partial lists.
Proof.
  revert partial lists. induction fuel as [|fuel IH]; intros; cbn; [done|].
  destruct (all_empty _); [done|]. destruct (next_old _ _ _); [apply IH|done].
Qed.

Lemma all_empty_true lists : all_empty lists = true <-> forall l, l ∈ lists -> l = [].
Proof.
  unfold all_empty. rewrite forallb_forall. setoid_rewrite <- elem_of_list_In. split.
  - intros H l Hl. specialize (H l Hl). by destruct l.
  - intros H l Hl. by rewrite (H l Hl).
Qed.

Lemma remove_next_elem n l x : n ∉ tail l -> x ∈ remove_next n l <-> x ∈ l /\ x <> n.
Proof.
  destruct l as [|y l]; cbn; intros Hn; [rewrite elem_of_nil; tauto|]. destruct (decide (y = n)) as [->|Hy].
  - rewrite bool_decide_true by done. rewrite elem_of_cons. split.
    + intros Hx. split; [by right|]. by intros ->.
    + intros [[->|?] ?]; done.
  - rewrite bool_decide_false by done. rewrite elem_of_cons. split; [|by intros [? _]].
    intros Hx. split; [done|]. intros ->. destruct Hx; [congruence|done].
Qed.

Lemma remove_next_not_in n l : n ∉ tail l -> n ∉ remove_next n l.
Proof. intros Hn H. apply remove_next_elem in H as [_ ?]; done. Qed.

Lemma remove_next_sublist n l : sublist (remove_next n l) l.
Proof.
  destruct l as [|y l]; cbn; [constructor|]. case_bool_decide; [by apply sublist_cons|done].
Qed.

Lemma remove_next_lift n l R : sublist (remove_next n l) R -> sublist l (n :: R).
Proof.
  destruct l as [|y l]; cbn; [intros; apply sublist_nil_l|]. case_bool_decide.
  - subst. by apply sublist_skip.
  - intros. by apply sublist_cons.
Qed.

Lemma remove_next_length n l : length (remove_next n l) <= length l.
Proof. apply sublist_length, remove_next_sublist. Qed.

Lemma map_remove_length n lists :
  length (concat (map (remove_next n) lists)) <= length (concat lists).
Proof.
  induction lists as [|l ls IH]; cbn; [done|]. rewrite !app_length.
  pose proof (remove_next_length n l). lia.
Qed.

Lemma map_remove_smaller n lists :
  legal n lists -> length (concat (map (remove_next n) lists)) < length (concat lists).
Proof.
  intros [(l & Hl & Hh) _]. induction lists as [|l' ls IH]; [by apply elem_of_nil in Hl|].
  cbn. rewrite !app_length. apply elem_of_cons in Hl as [->|Hl].
  - destruct l' as [|y l']; [done|]. cbn in *. simplify_eq.
    rewrite bool_decide_true by done. pose proof (map_remove_length n ls). cbn. lia.
  - pose proof (remove_next_length n l'). specialize (IH Hl). lia.
Qed.

(** If the lists fit one order, a legal choice exists. *)
Lemma legal_exists lists R :
  NoDup R -> (forall l, l ∈ lists -> sublist l R) -> (exists l x, l ∈ lists /\ x ∈ l) ->
  exists n, legal n lists.
Proof.
  revert lists. induction R as [|n R IH]; intros lists Hnd Hsub (l0 & x0 & Hl0 & Hx0).
  - specialize (Hsub l0 Hl0). apply sublist_nil_r in Hsub. subst. by apply elem_of_nil in Hx0.
  - apply NoDup_cons in Hnd as [Hn Hnd].
    assert (Htail : forall l, l ∈ lists -> n ∉ tail l).
    { intros l Hl Hin. specialize (Hsub l Hl).
      apply sublist_cons_r in Hsub as [Hs|(l' & -> & Hs)].
      - apply Hn. eapply sublist_elem; [done|]. destruct l; [by apply elem_of_nil in Hin|].
        by right.
      - cbn in Hin. apply Hn. by eapply sublist_elem. }
    destruct (decide (Exists (fun l => head l = Some n) lists)) as [He|He].
    + exists n. apply Exists_exists in He as (l & ? & ?). split; [by exists l|done].
    + apply (IH lists Hnd); [|by exists l0, x0].
      intros l Hl. specialize (Hsub l Hl).
      apply sublist_cons_r in Hsub as [?|(l' & -> & ?)]; [done|].
      destruct He. apply Exists_exists. by exists (n :: l').
Qed.

Section gmerge.
Context (pick : list cid -> list (list cid) -> option cid).
Context (Inv : list cid -> list (list cid) -> Prop).
Hypothesis pick_legal : forall p ls n, pick p ls = Some n -> legal n ls.
Hypothesis pick_complete : forall p ls n, Inv p ls -> legal n ls -> pick p ls <> None.
Hypothesis Inv_step : forall p ls n, Inv p ls -> legal n ls ->
  Inv (n :: p) (map (remove_next n) ls).

Lemma gmerge_spec fuel partial lists :
  Inv partial lists -> length (concat lists) < fuel ->
  (exists R, gmerge pick fuel partial lists = Val (rev partial ++ R) /\ NoDup R /\
     (forall x, x ∈ R <-> exists l, l ∈ lists /\ x ∈ l) /\ (forall l, l ∈ lists -> sublist l R)) \/
  (gmerge pick fuel partial lists = Signal "inconsistent-precedence-class-error" /\
     ~ exists R, NoDup R /\ forall l, l ∈ lists -> sublist l R).
Proof using All.
  revert partial lists. induction fuel as [|fuel IH]; intros partial lists HI Hlen; [lia|].
  cbn. destruct (all_empty lists) eqn:Hemp.
  { left. exists []. rewrite app_nil_r. split; [done|]. split; [constructor|].
    rewrite all_empty_true in Hemp. split.
    - intros x. split; [by intros ?%elem_of_nil|]. intros (l & Hl & Hx).
      by rewrite (Hemp l Hl) in Hx.
    - intros l Hl. by rewrite (Hemp l Hl). }
  destruct (pick partial lists) as [n|] eqn:Hp.
  - pose proof (pick_legal _ _ _ Hp) as Hleg.
    pose proof (map_remove_smaller _ _ Hleg).
    destruct (IH (n :: partial) (map (remove_next n) lists)) as [(R & HR & Hnd & Hel & Hsub)|[HE Hno]].
    + by apply Inv_step.
    + lia.
    + left. exists (n :: R). rewrite HR. cbn. rewrite <- app_assoc. split; [done|].
      destruct Hleg as [(l0 & Hl0 & Hh0) Htail]. split; [|split].
      * constructor; [|done]. rewrite Hel. intros (l & Hl & Hx).
        apply elem_of_list_fmap in Hl as (l' & -> & Hl').
        by apply remove_next_not_in in Hx; [|apply Htail].
      * intros x. rewrite elem_of_cons, Hel. split.
        -- intros [->|(l & Hl & Hx)].
           ++ exists l0. split; [done|]. destruct l0; [done|]. cbn in Hh0. simplify_eq. left.
           ++ apply elem_of_list_fmap in Hl as (l' & -> & Hl'). exists l'. split; [done|].
              by apply remove_next_elem in Hx as [? _]; [|apply Htail].
        -- intros (l & Hl & Hx). destruct (decide (x = n)) as [->|Hne]; [by left|right].
           exists (remove_next n l). split; [by apply elem_of_list_fmap; exists l|].
           apply remove_next_elem; [by apply Htail|done].
      * intros l Hl. apply remove_next_lift, Hsub. apply elem_of_list_fmap. by exists l.
    + right. split; [done|]. intros (R & HndR & HsubR). apply Hno.
      exists (filter (.≠ n) R). split; [by apply nodup_filter_neq|].
      intros l Hl. apply elem_of_list_fmap in Hl as (l' & -> & Hl').
      destruct Hleg as [_ Htail]. apply sublist_filter_neq.
      * etrans; [apply remove_next_sublist|by apply HsubR].
      * apply remove_next_not_in. by apply Htail.
  - right. split; [done|]. intros (R & HndR & HsubR).
    destruct (legal_exists lists R HndR HsubR) as [n Hn].
    { destruct (decide (Exists (fun l => l <> []) lists)) as [He|He].
      - apply Exists_exists in He as (l & Hl & Hne). destruct l as [|x l]; [done|].
        exists (x :: l), x. split; [done|left].
      - exfalso. apply not_true_iff_false in Hemp. apply Hemp, all_empty_true.
        intros l Hl. destruct (decide (l = [])) as [|Hne]; [done|]. destruct He.
        apply Exists_exists. by exists l. }
    by destruct (pick_complete _ _ _ HI Hn).
Qed.
End gmerge.

Lemma member_true x l : member x l = true <-> x ∈ l.
Proof. apply bool_decide_eq_true. Qed.
Lemma member_false x l : member x l = false <-> x ∉ l.
Proof. apply bool_decide_eq_false. Qed.

Lemma candidate_true lists s : candidate lists s = true <-> forall l, l ∈ lists -> s ∉ tail l.
Proof.
  unfold candidate. rewrite negb_true_iff, <- not_true_iff_false, existsb_exists.
  setoid_rewrite <- elem_of_list_In. split.
  - intros H l Hl Hin. apply H. exists l. by rewrite member_true.
  - intros H (l & Hl & Hin%member_true). by apply (H l).
Qed.

Lemma next_candidate_some lists ls n : next_candidate lists ls = Some n ->
  (exists l, l ∈ ls /\ head l = Some n) /\ candidate lists n = true.
Proof.
  induction ls as [|[|s l] ls IH]; cbn; [done|..].
  - intros H. destruct (IH H) as [(l & ? & ?) ?]. split; [|done]. exists l. split; [by right|done].
  - destruct (candidate lists s) eqn:Hc.
    + intros [= <-]. split; [|done]. exists (s :: l). split; [left|done].
    + intros H. destruct (IH H) as [(l' & ? & ?) ?]. split; [|done]. exists l'. split; [by right|done].
Qed.

Lemma next_candidate_none lists ls l n : next_candidate lists ls = None -> l ∈ ls ->
  head l = Some n -> candidate lists n = false.
Proof.
  induction ls as [|[|s l'] ls IH]; cbn; intros H Hl Hh.
  - by apply elem_of_nil in Hl.
  - apply elem_of_cons in Hl as [->|Hl]; [done|by apply IH].
  - destruct (candidate lists s) eqn:Hc; [done|]. apply elem_of_cons in Hl as [->|Hl].
    + cbn in Hh. by simplify_eq.
    + by apply IH.
Qed.

Lemma merge_lists_spec fuel partial lists :
  length (concat lists) < fuel ->
  (exists R, merge_lists fuel partial lists = Val (rev partial ++ R) /\ NoDup R /\
     (forall x, x ∈ R <-> exists l, l ∈ lists /\ x ∈ l) /\ (forall l, l ∈ lists -> sublist l R)) \/
  (merge_lists fuel partial lists = Signal "inconsistent-precedence-class-error" /\
     ~ exists R, NoDup R /\ forall l, l ∈ lists -> sublist l R).
Proof.
  intros Hlen. rewrite merge_lists_gmerge.
  apply (gmerge_spec _ (fun _ _ => True)); try done.
  - intros _ ls n Hn. apply next_candidate_some in Hn as [? Hc]. split; [done|].
    by apply candidate_true.
  - intros _ ls n _ [(l & Hl & Hh) Ht] HN.
    apply (candidate_true ls n) in Ht. rewrite (next_candidate_none _ _ _ _ HN Hl Hh) in Ht. done.
Qed.

(** *** The older algorithm chooses among the same classes *)

Lemma head_is_true l s : head_is l s = true <-> head l = Some s.
Proof.
  destruct l; cbn; [done|]. rewrite bool_decide_eq_true. split; [by intros ->|by intros [= ->]].
Qed.

(** Of a legal class [head_is] and the tails; a list with the class both at its head
    and in its tail is let through. *)
Lemma unconstrained_legal lists n : (forall l, l ∈ lists -> NoDup l) ->
  unconstrained_class lists n = true <-> legal n lists.
Proof.
  intros Hnd. unfold unconstrained_class. rewrite andb_true_iff, existsb_exists, forallb_forall.
  setoid_rewrite <- elem_of_list_In. setoid_rewrite head_is_true.
  setoid_rewrite orb_true_iff. setoid_rewrite head_is_true.
  setoid_rewrite negb_true_iff. setoid_rewrite member_false. unfold legal. split.
  - intros [H1 H2]. split; [done|]. intros l Hl. destruct (H2 l Hl) as [Hh|]; [|done].
    specialize (Hnd l Hl). destruct l as [|x l]; [done|]. cbn in *. simplify_eq.
    by apply NoDup_cons in Hnd as [? _].
  - intros [H1 H2]. split; [done|]. intros l Hl. right. by apply H2.
Qed.

Section old.
Context (so : cid -> list cid) (c : cid).

(** Every class of the list is a direct superclass of [c] or of an earlier class. *)
Definition grounded (o : list cid) : Prop :=
  forall pre n rest, o = pre ++ n :: rest -> n ∈ so c \/ exists p, p ∈ pre /\ n ∈ so p.

Definition old_inv (partial : list cid) (lists : list (list cid)) : Prop :=
  c ∈ partial /\ (forall l, l ∈ lists -> NoDup l) /\
  forall l, l ∈ lists -> exists pre, grounded (pre ++ l) /\ forall p, p ∈ pre -> p ∈ partial.

Lemma next_old_some partial ls n : (forall l, l ∈ ls -> NoDup l) ->
  next_old so ls partial = Some n -> legal n ls.
Proof.
  intros Hnd H. unfold next_old in H. apply find_some in H as [_ H].
  by apply unconstrained_legal in H.
Qed.

Lemma next_old_complete partial ls n : old_inv partial ls -> legal n ls ->
  next_old so ls partial <> None.
Proof.
  intros (Hc & Hnd & Hg) Hleg HN. unfold next_old in HN.
  assert (Hin : n ∈ concat (map so partial)).
  { destruct Hleg as [(l & Hl & Hh) _]. destruct (Hg l Hl) as (pre & Hgr & Hpre).
    destruct l as [|x l]; [done|]. cbn in Hh. simplify_eq.
    rewrite elem_of_list_In, in_concat. setoid_rewrite <- elem_of_list_In.
    destruct (Hgr pre n l eq_refl) as [Hs|(p & Hp & Hs)].
    - exists (so c). split; [|done]. apply elem_of_list_fmap. by exists c.
    - exists (so p). split; [|done]. apply elem_of_list_fmap. exists p. auto. }
  apply elem_of_list_In in Hin. pose proof (find_none _ _ HN n Hin) as HF.
  apply unconstrained_legal in Hleg; [|done]. congruence.
Qed.

Lemma old_inv_step partial ls n : old_inv partial ls -> legal n ls ->
  old_inv (n :: partial) (map (remove_next n) ls).
Proof.
  intros (Hc & Hnd & Hg) Hleg. split; [by right|]. split.
  - intros l Hl. apply elem_of_list_fmap in Hl as (l' & -> & Hl').
    eapply sublist_nodup; [apply remove_next_sublist|apply Hnd, Hl'].
  - intros l Hl. apply elem_of_list_fmap in Hl as (l' & -> & Hl').
    destruct (Hg l' Hl') as (pre & Hgr & Hpre). destruct l' as [|x l'].
    + exists pre. split; [done|]. intros p Hp. right. auto.
    + cbn. destruct (decide (x = n)) as [->|Hx].
      * rewrite bool_decide_true by done. exists (pre ++ [n]). rewrite <- app_assoc. split; [done|].
        intros p. rewrite elem_of_app, elem_of_list_singleton, elem_of_cons. naive_solver.
      * rewrite bool_decide_false by done. exists pre. split; [done|]. intros p Hp. right. auto.
Qed.
End old.

Lemma merge_old_succeeds so c fuel partial lists R :
  old_inv so c partial lists -> length (concat lists) < fuel ->
  NoDup R -> (forall l, l ∈ lists -> sublist l R) ->
  exists R', merge_lists_old so fuel partial lists = Val R'.
Proof.
  intros HI Hlen HndR HsubR. rewrite merge_lists_old_gmerge.
  destruct (gmerge_spec (fun p ls => if forallb (fun l => bool_decide (NoDup l)) ls
                                     then next_old so ls p else None)
              (old_inv so c)) with (fuel := fuel) (partial := partial) (lists := lists)
    as [(R' & HR' & _)|[_ Hno]]; try done.
  - intros p ls n. destruct (forallb _ ls) eqn:Hf; [|done].
    apply next_old_some. rewrite forallb_forall in Hf. setoid_rewrite <- elem_of_list_In in Hf.
    intros l Hl. specialize (Hf l Hl). by apply bool_decide_eq_true in Hf.
  - intros p ls n Hinv Hleg. rewrite (proj2 (forallb_forall _ _)).
    + by eapply next_old_complete.
    + intros l Hl%elem_of_list_In. apply bool_decide_eq_true. by apply Hinv.
  - intros p ls n. apply old_inv_step.
  - exists (rev partial ++ R'). rewrite <- HR'. clear HR' Hlen HndR HsubR.
    revert partial lists HI. induction fuel as [|fuel IH]; intros; cbn; [done|].
    destruct (all_empty lists); [done|].
    rewrite (proj2 (forallb_forall _ _)).
    + destruct (next_old so lists partial) as [n|] eqn:Hn; [|done]. apply IH.
      apply old_inv_step; [done|]. apply next_old_some in Hn; [done|]. apply HI.
    + intros l Hl%elem_of_list_In. apply bool_decide_eq_true. by apply HI.
  - destruct Hno. by exists R.
Qed.

(** *** The table of direct superclasses and precedence lists *)

Definition core (ic : iclass) : list cid * list cid := (direct_supers ic, all_supers ic).
Definition cores (st : cstate) : list (list cid * list cid) := core <$> st.

Definition tcpl (tb : list (list cid * list cid)) (c : cid) : list cid :=
  match tb !! c with Some p => p.2 | None => [] end.

Record wf_entry (tb : list (list cid * list cid)) (c : cid) (supers L : list cid) : Prop := {
  wf_below : forall s, s ∈ supers -> s < c;
  wf_lin : Linearization tb.*1 (tcpl tb) c supers L }.
Definition wf_tab (tb : list (list cid * list cid)) : Prop :=
  forall c supers L, tb !! c = Some (supers, L) -> wf_entry tb c supers L.

Lemma supers_table_cores st : supers_table st = (cores st).*1.
Proof. unfold supers_table, cores. rewrite <- list_fmap_compose. done. Qed.
Lemma cpl_of_cores st c : cpl_of st c = tcpl (cores st) c.
Proof.
  unfold cpl_of, tcpl, cores. rewrite list_lookup_fmap. by destruct (st !! c).
Qed.

Lemma Inherits_lt T c d : Inherits T c d -> c < length T.
Proof. intros H. destruct H; [done|]. by eapply lookup_lt_Some. Qed.
Lemma Inherits_lt_r T c d : Inherits T c d -> d < length T.
Proof. induction 1; done. Qed.
Lemma Inherits_trans T a b c : Inherits T a b -> Inherits T b c -> Inherits T a c.
Proof. induction 1; intros; [done|]. eapply inherits_step; eauto. Qed.
Lemma Inherits_snoc T a b supers s : Inherits T a b -> T !! b = Some supers -> s ∈ supers ->
  s < length T -> Inherits T a s.
Proof.
  intros H Hb Hs Hlt. eapply Inherits_trans; [done|]. eapply inherits_step; [done..|].
  by apply inherits_refl.
Qed.

Definition acyclic (T : list (list cid)) : Prop :=
  forall c supers s, T !! c = Some supers -> s ∈ supers -> s < c.

Lemma Inherits_le T c d : acyclic T -> Inherits T c d -> d <= c.
Proof.
  intros Hac H. induction H as [|c supers s d Hc Hs _ IH]; [done|].
  specialize (Hac _ _ _ Hc Hs). lia.
Qed.

Lemma Inherits_last T c n : Inherits T c n -> c <> n ->
  exists p supers, Inherits T c p /\ T !! p = Some supers /\ n ∈ supers.
Proof.
  intros H. induction H as [|c supers s d Hc Hs Hsd IH]; [done|]. intros Hne.
  destruct (decide (s = d)) as [->|Hsd'].
  - exists c, supers. split; [|done]. apply inherits_refl. by eapply lookup_lt_Some.
  - destruct (IH Hsd') as (p & sp & Hp & Hl & Hn). exists p, sp. split; [|done].
    by eapply inherits_step.
Qed.

Lemma Inherits_app T T' c d : acyclic T -> c < length T ->
  Inherits (T ++ T') c d <-> Inherits T c d.
Proof.
  intros Hac Hlt. split.
  - intros H. induction H as [c ?|c supers s d Hc Hs Hsd IH]; [by apply inherits_refl|].
    rewrite lookup_app_l in Hc by done. pose proof (Hac _ _ _ Hc Hs).
    eapply inherits_step; [done..|]. apply IH. lia.
  - intros H. induction H as [c ?|c supers s d Hc Hs Hsd IH].
    + apply inherits_refl. rewrite app_length. lia.
    + eapply inherits_step; [by rewrite lookup_app_l|done|]. apply IH. by apply Inherits_lt in Hsd.
Qed.

Section wf.
Context (tb : list (list cid * list cid)) (Hwf : wf_tab tb).

Lemma wf_acyclic : acyclic tb.*1.
Proof using Hwf.
  intros c supers s Hc Hs. rewrite list_lookup_fmap in Hc.
  destruct (tb !! c) as [[sp L]|] eqn:Hl; [|done]. cbn in Hc. simplify_eq.
  by apply (Hwf _ _ _ Hl).
Qed.

Lemma wf_entry_of c : c < length tb -> exists supers L, tb !! c = Some (supers, L) /\ wf_entry tb c supers L.
Proof using Hwf.
  intros Hc. destruct (lookup_lt_is_Some_2 _ _ Hc) as [[sp L] Hl]. exists sp, L. split; [done|].
  by apply Hwf.
Qed.

Lemma tcpl_lookup c supers L : tb !! c = Some (supers, L) -> tcpl tb c = L.
Proof. unfold tcpl. by intros ->. Qed.

Lemma tcpl_members c x : c < length tb -> x ∈ tcpl tb c <-> Inherits tb.*1 c x.
Proof using Hwf.
  intros Hc. destruct (wf_entry_of c Hc) as (sp & L & Hl & [Hb HL]).
  rewrite (tcpl_lookup _ _ _ Hl), (lin_members _ _ _ _ _ HL). split.
  - intros [->|(s & Hs & Hi)].
    + apply inherits_refl. by rewrite fmap_length.
    + eapply inherits_step; [|done..]. by rewrite list_lookup_fmap, Hl.
  - intros H. destruct H as [|c supers s d Hc' Hs Hi]; [by left|right]. exists s.
    rewrite list_lookup_fmap, Hl in Hc'. cbn in Hc'. by simplify_eq.
Qed.

Lemma tcpl_nodup c : NoDup (tcpl tb c).
Proof using Hwf.
  unfold tcpl. destruct (tb !! c) as [[sp L]|] eqn:Hl; [|constructor].
  apply (lin_once _ _ _ _ _ (wf_lin _ _ _ _ (Hwf _ _ _ Hl))).
Qed.

Lemma tcpl_head c : c < length tb -> exists t, tcpl tb c = c :: t.
Proof using Hwf.
  intros Hc. destruct (wf_entry_of c Hc) as (sp & L & Hl & [Hb HL]).
  rewrite (tcpl_lookup _ _ _ Hl). pose proof (lin_head _ _ _ _ _ HL) as Hh.
  destruct L as [|x L]; [done|]. cbn in Hh. simplify_eq. by exists L.
Qed.

(** Monotone for all ancestors. *)
Lemma tcpl_monotone c d : c < length tb -> d ∈ tcpl tb c -> sublist (tcpl tb d) (tcpl tb c).
Proof using Hwf.
  revert d. induction (lt_wf c) as [c _ IH]. intros d Hc Hd.
  rewrite tcpl_members in Hd by done. destruct Hd as [c ?|c supers s d Hs Hin Hi]; [done|].
  pose proof (wf_acyclic _ _ _ Hs Hin) as Hlt.
  assert (Hsl : s < length tb) by lia.
  etrans; [apply (IH s Hlt d Hsl); by apply tcpl_members|].
  destruct (wf_entry_of c Hc) as (sp & L & Hl & [Hb HL]).
  rewrite (tcpl_lookup _ _ _ Hl). apply (lin_monotone _ _ _ _ _ HL).
  rewrite list_lookup_fmap, Hl in Hs. cbn in Hs. by simplify_eq.
Qed.

(** A class comes after a class it is a direct superclass of. *)
Lemma tcpl_grounded c pre n rest : c < length tb -> tcpl tb c = pre ++ n :: rest -> n <> c ->
  exists p supers, p ∈ pre /\ tb.*1 !! p = Some supers /\ n ∈ supers.
Proof using Hwf.
  intros Hc Heq Hne.
  assert (Hi : Inherits tb.*1 c n).
  { apply tcpl_members; [done|]. rewrite Heq, elem_of_app, elem_of_cons. auto. }
  destruct (Inherits_last _ _ _ Hi) as (p & supers & Hcp & Hp & Hn); [congruence|].
  exists p, supers. split; [|done].
  pose proof (wf_acyclic _ _ _ Hp Hn) as Hlt.
  assert (Hpl : p < length tb) by (apply Inherits_lt_r in Hcp; by rewrite fmap_length in Hcp).
  assert (Hpin : p ∈ tcpl tb c) by (by apply tcpl_members).
  rewrite Heq, elem_of_app, elem_of_cons in Hpin. destruct Hpin as [?|[->|Hr]]; [done|lia|].
  exfalso. pose proof (tcpl_monotone c p Hc) as Hm.
  feed specialize Hm. { rewrite Heq, elem_of_app, elem_of_cons; auto. }
  destruct (tcpl_head p Hpl) as [t Ht].
  apply elem_of_list_split in Hr as (r1 & r2 & ->).
  pose proof (tcpl_nodup c) as Hnd. rewrite Ht in Hm.
  assert (Hs : sublist t r2).
  { eapply sublist_cons_split; [apply Hnd|exact Hm|]. rewrite Heq.
    rewrite <- (assoc_L (++) pre (n :: r1)). done. }
  assert (Hnt : n ∈ t).
  { assert (n ∈ tcpl tb p) as Hin.
    { apply tcpl_members; [done|]. eapply inherits_step; [done..|]. apply inherits_refl.
      rewrite fmap_length. lia. }
    rewrite Ht, elem_of_cons in Hin. destruct Hin; [lia|done]. }
  rewrite Heq in Hnd. apply NoDup_app in Hnd as (_ & _ & Hnd).
  apply NoDup_cons in Hnd as [Hnr _]. apply Hnr.
  rewrite elem_of_app, elem_of_cons. right; right. by eapply sublist_elem.
Qed.
End wf.

Lemma super_lists_ok st supers : (forall s, s ∈ supers -> s < length st) ->
  super_lists st supers = Val (map (cpl_of st) supers).
Proof.
  induction supers as [|s supers IH]; intros H; [done|]. cbn.
  destruct (lookup_lt_is_Some_2 st s) as [ic Hic]; [apply H; left|].
  unfold iclass_of. rewrite (vread_val _ _ _ Hic). cbn. rewrite IH; [|intros; apply H; by right].
  cbn. unfold cpl_of. by rewrite Hic.
Qed.

Lemma super_lists_inv st supers ls : super_lists st supers = Val ls ->
  forall s, s ∈ supers -> s < length st.
Proof.
  revert ls. induction supers as [|s supers IH]; intros ls H x Hx; [by apply elem_of_nil in Hx|].
  cbn in H. unfold iclass_of in H. destruct (vread st s) as [ic| | |] eqn:Hv; try done.
  cbn in H. destruct (super_lists st supers) as [ls'| | |] eqn:Hls; try done.
  apply elem_of_cons in Hx as [->|Hx]; [|by eapply IH].
  apply vread_Val_inv in Hv. by eapply lookup_lt_Some.
Qed.

(** The precedence list of a new class: found if there is one, and otherwise the error. *)
Lemma compute_cpl_spec st supers :
  wf_tab (cores st) -> (forall s, s ∈ supers -> s < length st) ->
  (exists L, compute_cpl st (length st) supers = Val L /\
     Linearization (supers_table st) (cpl_of st) (length st) supers L) \/
  (compute_cpl st (length st) supers = Signal "inconsistent-precedence-class-error" /\
     ~ exists L, consistent_order (cpl_of st) supers L).
Proof.
  intros Hwf Hlt. unfold compute_cpl. rewrite super_lists_ok by done. cbn -[merge_fuel].
  assert (Hcl : length (cores st) = length st) by (unfold cores; by rewrite fmap_length).
  assert (Hext : forall c, cpl_of st c = tcpl (cores st) c) by apply cpl_of_cores.
  destruct (merge_lists_spec (merge_fuel (map (cpl_of st) supers ++ [supers])) [length st]
              (map (cpl_of st) supers ++ [supers])) as [(R & HR & Hnd & Hel & Hsub)|[HE Hno]].
  { unfold merge_fuel. lia. }
  - left. exists (length st :: R). rewrite HR. cbn -[merge_fuel].
    assert (Hmem : forall x, x ∈ R <-> exists s, s ∈ supers /\ Inherits (supers_table st) s x).
    { intros x. rewrite Hel. rewrite supers_table_cores. split.
      - intros (l & Hl & Hx). rewrite elem_of_app, elem_of_list_singleton in Hl.
        destruct Hl as [Hl| ->].
        + apply elem_of_list_fmap in Hl as (s & -> & Hs). exists s. split; [done|].
          rewrite Hext in Hx. apply tcpl_members in Hx; [done..|]. rewrite Hcl. auto.
        + exists x. split; [done|]. apply inherits_refl. rewrite fmap_length, Hcl. auto.
      - intros (s & Hs & Hi). exists (cpl_of st s). split.
        + apply elem_of_app. left. apply elem_of_list_fmap. by exists s.
        + rewrite Hext. apply tcpl_members; [done| |done]. rewrite Hcl. auto. }
    assert (Hsl : forall s, s ∈ supers -> sublist (cpl_of st s) R).
    { intros s Hs. apply Hsub. apply elem_of_app. left. apply elem_of_list_fmap. by exists s. }
    assert (Hss : sublist supers R).
    { apply Hsub. apply elem_of_app. right. by left. }
    assert (Hnew : length st ∉ R).
    { rewrite Hmem. intros (s & Hs & Hi). apply Inherits_lt_r in Hi.
      unfold supers_table in Hi. rewrite fmap_length in Hi. lia. }
    split.
    + unfold compute_cpl_old. rewrite super_lists_ok by done. cbn -[merge_fuel].
      destruct (merge_old_succeeds (direct_of st (length st) supers) (length st)
        (merge_fuel (supers :: map (cpl_of st) supers)) [length st]
        (supers :: map (cpl_of st) supers) R) as [R' HR']; [| |done| |by rewrite HR'].
      * split; [left|]. split.
        -- intros l. rewrite elem_of_cons. intros [->|Hl]; [by eapply sublist_nodup|].
           apply elem_of_list_fmap in Hl as (s & -> & Hs). eapply sublist_nodup; [by apply Hsl|done].
        -- intros l. rewrite elem_of_cons. intros Hl. exists []. cbn.
           split; [|by intros ? ?%elem_of_nil]. intros pre n rest Heq.
           assert (Hdc : direct_of st (length st) supers (length st) = supers).
           { unfold direct_of. by rewrite bool_decide_true. }
           rewrite Hdc. destruct Hl as [->|Hl].
           { left. rewrite Heq, elem_of_app, elem_of_cons. auto. }
           apply elem_of_list_fmap in Hl as (s & -> & Hs).
           destruct (decide (n = s)) as [->|Hns]; [by left|right].
           rewrite Hext in Heq.
           destruct (tcpl_grounded _ Hwf s pre n rest) as (p & sp & Hp & Hl & Hn); [by rewrite Hcl; auto|done..|].
           exists p. split; [done|]. unfold direct_of.
           rewrite bool_decide_false.
           ++ unfold cores in Hl. rewrite <- list_fmap_compose, list_lookup_fmap in Hl.
              destruct (st !! p); [|done]. cbn in Hl. by simplify_eq.
           ++ intros ->. apply lookup_lt_Some in Hl. rewrite fmap_length, Hcl in Hl. lia.
      * unfold merge_fuel. lia.
      * intros l. rewrite elem_of_cons. intros [->|Hl]; [done|].
        apply elem_of_list_fmap in Hl as (s & -> & Hs). by apply Hsl.
    + constructor.
      * done.
      * by constructor.
      * intros x. rewrite elem_of_cons, Hmem. done.
      * by apply sublist_cons.
      * intros s Hs. apply sublist_cons. by apply Hsl.
  - right. rewrite HE. split; [done|]. intros (L & HndL & Hs & Hm). apply Hno. exists L.
    split; [done|]. intros l. rewrite elem_of_app, elem_of_list_singleton. intros [Hl| ->]; [|done].
    apply elem_of_list_fmap in Hl as (s & -> & ?). by apply Hm.
Qed.

(** *** Adding a class *)

Lemma wf_tab_snoc tb supers L :
  wf_tab tb -> (forall s, s ∈ supers -> s < length tb) ->
  Linearization tb.*1 (tcpl tb) (length tb) supers L -> wf_tab (tb ++ [(supers, L)]).
Proof.
  intros Hwf Hlt HL c sp L' Hc.
  assert (Hac : acyclic tb.*1) by (by apply wf_acyclic).
  assert (Hmove : forall c0 sp0 L0, (forall s, s ∈ sp0 -> s < length tb) ->
    Linearization tb.*1 (tcpl tb) c0 sp0 L0 ->
    Linearization (tb ++ [(supers, L)]).*1 (tcpl (tb ++ [(supers, L)])) c0 sp0 L0).
  { intros c0 sp0 L0 Hb [H1 H2 H3 H4 H5]. constructor; try done.
    - intros x. rewrite H3, fmap_app. split.
      + intros [->|(s & Hs & Hi)]; [by left|right]. exists s. split; [done|].
        apply Inherits_app; [done| |done]. rewrite fmap_length. auto.
      + intros [->|(s & Hs & Hi)]; [by left|right]. exists s. split; [done|].
        apply Inherits_app in Hi; [done..|]. rewrite fmap_length. auto.
    - intros s Hs. unfold tcpl. rewrite lookup_app_l by auto. by apply H5. }
  destruct (decide (c < length tb)) as [Hclt|Hge].
  - rewrite lookup_app_l in Hc by done. destruct (Hwf _ _ _ Hc) as [Hb Hlin]. split; [done|].
    apply Hmove; [|done]. intros s Hs. specialize (Hb s Hs). lia.
  - assert (c = length tb) as ->.
    { apply lookup_lt_Some in Hc. rewrite app_length in Hc. cbn in Hc. lia. }
    rewrite lookup_app_r, Nat.sub_diag in Hc by done. cbn in Hc. simplify_eq.
    split; [done|]. by apply Hmove.
Qed.

(** What augmenting the positions does to an entry. *)
Record refines (ic ic' : iclass) : Prop := {
  ref_core : core ic' = core ic;
  ref_vec : rcpl_vector ic' = rcpl_vector ic;
  ref_pos : rcpl_position ic' = rcpl_position ic;
  ref_prim : primary ic' = primary ic;
  ref_joint : known_joint ic' = known_joint ic;
  ref_others : forall p, p ∈ rcpl_others ic -> p ∈ rcpl_others ic';
  ref_sorted : StronglySorted Z.lt (rcpl_position ic :: rcpl_others ic) ->
               StronglySorted Z.lt (rcpl_position ic' :: rcpl_others ic') }.

Lemma refines_refl ic : refines ic ic.
Proof. by constructor. Qed.
Lemma refines_trans a b c : refines a b -> refines b c -> refines a c.
Proof. intros [] []. constructor; try congruence; auto. Qed.

Lemma insert_position_elem pos others x :
  x ∈ insert_position pos others <-> x = pos \/ x ∈ others.
Proof.
  induction others as [|e others IH]; cbn.
  - rewrite elem_of_list_singleton, elem_of_nil. tauto.
  - case_bool_decide; rewrite !elem_of_cons, ?IH; tauto.
Qed.

Lemma insert_position_sorted pos others :
  pos ∉ others -> StronglySorted Z.lt others -> StronglySorted Z.lt (insert_position pos others).
Proof.
  induction others as [|e others IH]; intros Hn Hs; cbn.
  - repeat constructor.
  - apply not_elem_of_cons in Hn as [Hne Hn]. apply StronglySorted_inv in Hs as [Hs Hf].
    case_bool_decide as Hlt.
    + constructor; [by apply IH|]. rewrite Forall_forall in *. intros x Hx.
      apply insert_position_elem in Hx as [->|Hx]; [lia|by apply Hf].
    + constructor; [by constructor|]. constructor; [lia|]. rewrite Forall_forall in *.
      intros x Hx. specialize (Hf x Hx). lia.
Qed.

Lemma position_known_true pos ic :
  position_known pos ic = true <-> pos = rcpl_position ic \/ pos ∈ rcpl_others ic.
Proof. unfold position_known. by rewrite orb_true_iff, !bool_decide_eq_true. Qed.

Lemma augment_position_ok ic pos : (0 <= rcpl_position ic <= pos)%Z ->
  exists ic', augment_position ic pos = Val ic' /\ refines ic ic' /\
    (pos = rcpl_position ic' \/ pos ∈ rcpl_others ic').
Proof.
  intros Hp. unfold augment_position. destruct (position_known pos ic) eqn:Hk.
  - exists ic. split; [done|]. split; [apply refines_refl|]. by apply position_known_true.
  - rewrite (bool_decide_false (rcpl_position ic = -1)%Z), bool_decide_true by lia.
    eexists; split; [done|]. apply not_true_iff_false in Hk. rewrite position_known_true in Hk.
    split.
    + constructor; cbn; try done.
      * intros p Hin. apply insert_position_elem. by right.
      * intros Hs. apply StronglySorted_inv in Hs as [Hs Hf]. constructor.
        -- apply insert_position_sorted; tauto.
        -- rewrite Forall_forall in *. intros x Hx.
           apply insert_position_elem in Hx as [->|Hx]; [|by apply Hf].
           assert (pos <> rcpl_position ic) by tauto. lia.
    + cbn. right. apply insert_position_elem. by left.
Qed.

Definition table_refines (st st' : cstate) : Prop := Forall2 refines st st'.

Lemma table_refines_refl st : table_refines st st.
Proof. apply Forall2_same_length_lookup_2; [done|]. intros i x y H1 H2. simplify_eq. apply refines_refl. Qed.
Lemma table_refines_trans a b c : table_refines a b -> table_refines b c -> table_refines a c.
Proof. unfold table_refines. intros. eapply Forall2_transitive; [|done..]. intros; by eapply refines_trans. Qed.

Lemma augment_superiors_ok st c cpl :
  NoDup cpl ->
  (forall d, d ∈ cpl -> d <> c -> exists ic, st !! d = Some ic) ->
  (forall L1 d L2 ic, cpl = L1 ++ d :: L2 -> d <> c -> st !! d = Some ic ->
     (0 <= rcpl_position ic <= Z.of_nat (length L2))%Z) ->
  exists st', augment_superiors st c cpl (Z.of_nat (length cpl) - 1) = Val st' /\
    table_refines st st' /\
    (forall L1 d L2, cpl = L1 ++ d :: L2 -> L2 <> [] -> d <> c -> d <> object_class ->
       exists ic', st' !! d = Some ic' /\
         (Z.of_nat (length L2) = rcpl_position ic' \/ Z.of_nat (length L2) ∈ rcpl_others ic')).
Proof.
  revert st. induction cpl as [|d cpl IH]; intros st Hnd Hex Hpos.
  { exists st. split; [done|]. split; [apply table_refines_refl|].
    intros L1 d L2 H. by destruct L1. }
  apply NoDup_cons in Hnd as [Hd Hnd]. cbn [length augment_superiors].
  replace (Z.of_nat (S (length cpl)) - 1)%Z with (Z.of_nat (length cpl)) by lia.
  case_bool_decide as H1.
  2:{ exists st. split; [done|]. split; [apply table_refines_refl|].
      intros L1 d' L2 H HL2. assert (cpl = []) as -> by (destruct cpl; [done|cbn in H1; lia]).
      destruct L1 as [|? [|]]; cbn in H; simplify_eq. }
  destruct (bool_decide (d = c) || bool_decide (d = object_class)) eqn:Hskip.
  - destruct (IH st Hnd) as (st' & HE & Href & Hkn).
    + intros x Hx. apply Hex. by right.
    + intros L1 x L2 ic -> Hxc Hic. by apply (Hpos (d :: L1) x L2 ic).
    + exists st'. split; [done|]. split; [done|].
      intros [|y L1] x L2 Heq HL2 Hxc Hx0; cbn in Heq; simplify_eq.
      * apply orb_true_iff in Hskip. rewrite !bool_decide_eq_true in Hskip. tauto.
      * by apply (Hkn L1).
  - apply orb_false_iff in Hskip. rewrite !bool_decide_eq_false in Hskip. destruct Hskip as [Hdc Hd0].
    destruct (Hex d) as [ic Hic]; [left|done|].
    unfold iclass_of. rewrite (vread_val _ _ _ Hic). cbn [obind].
    destruct (augment_position_ok ic (Z.of_nat (length cpl))) as (ic' & Ha & Hr & Hk).
    { by apply (Hpos [] d cpl ic). }
    rewrite Ha. cbn [obind].
    assert (Href1 : table_refines st (<[d:=ic']> st)).
    { apply Forall2_same_length_lookup_2; [by rewrite insert_length|].
      intros i x y Hx Hy. destruct (decide (i = d)) as [->|Hne].
      - rewrite list_lookup_insert in Hy by (by eapply lookup_lt_Some). by simplify_eq.
      - rewrite list_lookup_insert_ne in Hy by done. simplify_eq. apply refines_refl. }
    destruct (IH (<[d:=ic']> st) Hnd) as (st' & HE & Href & Hkn).
    + intros x Hx Hxc. rewrite list_lookup_insert_ne by (intros ->; done). apply Hex; [by right|done].
    + intros L1 x L2 icx Heq Hxc Hl. rewrite list_lookup_insert_ne in Hl.
      * apply (Hpos (d :: L1) x L2 icx); [by subst|done..].
      * intros ->. apply Hd. rewrite Heq, elem_of_app, elem_of_cons. auto.
    + exists st'. split; [done|]. split; [by eapply table_refines_trans|].
      intros [|y L1] x L2 Heq HL2 Hxc Hx0; cbn in Heq; simplify_eq.
      * eapply Forall2_lookup_l in Href as (ic2 & Hic2 & Hr2);
          [|by rewrite list_lookup_insert by (by eapply lookup_lt_Some)].
        exists ic2. split; [done|]. rewrite (ref_pos _ _ Hr2).
        destruct Hk as [?|Hk]; [by left|right]. by apply (ref_others _ _ Hr2).
      * by apply (Hkn L1).
Qed.

(** *** The invariant of the class table *)

Record wf_st (st : cstate) : Prop := {
  ws_tab : wf_tab (cores st);
  ws_zero : exists i0, st !! 0 = Some i0 /\ core i0 = ([], [0]) /\ primary i0 = false;
  ws_vec : forall c ic, st !! c = Some ic ->
    rcpl_vector ic = make_rcpl (all_supers ic) /\
    rcpl_position ic = (Z.of_nat (length (all_supers ic)) - 1)%Z;
  ws_sorted : forall c ic, st !! c = Some ic ->
    StronglySorted Z.lt (rcpl_position ic :: rcpl_others ic);
  ws_known : forall e ie d id L1 L2, st !! e = Some ie -> all_supers ie = L1 ++ d :: L2 ->
    st !! d = Some id -> d <> 0 ->
    Z.of_nat (length L2) = rcpl_position id \/ Z.of_nat (length L2) ∈ rcpl_others id;
  ws_prim : forall e ie p ip q iq, st !! e = Some ie -> p ∈ all_supers ie -> q ∈ all_supers ie ->
    st !! p = Some ip -> primary ip = true -> st !! q = Some iq -> primary iq = true ->
    Inherits (supers_table st) p q \/ Inherits (supers_table st) q p }.

Lemma cpl_of_lookup st c ic : st !! c = Some ic -> cpl_of st c = all_supers ic.
Proof. intros H. unfold cpl_of. by rewrite H. Qed.

Lemma cores_length st : length (cores st) = length st.
Proof. unfold cores. by rewrite fmap_length. Qed.

Lemma cpl_members st c x : wf_tab (cores st) -> c < length st ->
  x ∈ cpl_of st c <-> Inherits (supers_table st) c x.
Proof.
  intros Hwf Hc. rewrite cpl_of_cores, supers_table_cores. apply tcpl_members; [done|].
  by rewrite cores_length.
Qed.

Lemma make_rcpl_lookup_Some L i x :
  make_rcpl L !! i = Some (Some x) <->
  exists L1 L2, L = L1 ++ x :: L2 /\ length L2 = i.
Proof.
  unfold make_rcpl. split.
  - intros H. apply lookup_app_Some in H as [H|[_ H]].
    + change (map Some (rev L)) with (Some <$> rev L) in H.
      rewrite list_lookup_fmap in H. apply fmap_Some in H as (y & H & [= ->]).
      apply elem_of_list_split_length in H as (l1 & l2 & H & ->).
      exists (rev l2), (rev l1). rewrite rev_length. split; [|done].
      rewrite <- (rev_involutive L), H, rev_app_distr. cbn. by rewrite <- app_assoc.
    + apply lookup_replicate in H as [H _]. done.
  - intros (L1 & L2 & -> & <-). rewrite rev_app_distr. cbn. rewrite <- app_assoc. cbn.
    rewrite map_app, <- app_assoc. rewrite lookup_app_r by (by rewrite map_length, rev_length).
    rewrite map_length, rev_length, Nat.sub_diag. done.
Qed.

Lemma make_rcpl_length L : length L <= length (make_rcpl L).
Proof. unfold make_rcpl. rewrite app_length, map_length, rev_length. lia. Qed.

Lemma make_rcpl_length_min L : (min_rcpl_size <= Z.of_nat (length (make_rcpl L)))%Z.
Proof.
  unfold make_rcpl, min_rcpl_size. rewrite app_length, map_length, rev_length, replicate_length. lia.
Qed.

Lemma rcpl_loop_ok rcpl sup positions :
  StronglySorted Z.lt positions -> (forall p, p ∈ positions -> 0 <= p)%Z ->
  exists b, rcpl_loop rcpl sup positions = Val b /\
    (b = true <-> exists p, p ∈ positions /\ rcpl !! (Z.to_nat p) = Some (Some sup)).
Proof.
  induction positions as [|p ps IH]; intros Hs Hnn; cbn [rcpl_loop].
  { exists false. split; [done|]. split; [done|]. intros (p & Hp & _). by apply elem_of_nil in Hp. }
  apply StronglySorted_inv in Hs as [Hs Hf]. assert (Hp0 : (0 <= p)%Z) by (apply Hnn; left).
  case_bool_decide as Hlt.
  - destruct (lookup_lt_is_Some_2 rcpl (Z.to_nat p)) as [x Hx]; [lia|].
    rewrite (zread_val _ _ _ Hp0 Hx). cbn [obind]. case_bool_decide as Hxs.
    + subst x. exists true. split; [done|]. split; [|done]. intros _. exists p. split; [left|done].
    + destruct IH as (b & Hb & Hiff); [done| |].
      { intros q Hq. apply Hnn. by right. }
      exists b. split; [done|]. rewrite Hiff. split.
      * intros (q & Hq & Hl). exists q. split; [by right|done].
      * intros (q & Hq & Hl). apply elem_of_cons in Hq as [->|Hq]; [|by exists q].
        rewrite Hx in Hl. by simplify_eq.
  - exists false. split; [done|]. split; [done|]. intros (q & Hq & Hl).
    apply lookup_lt_Some in Hl. rewrite Forall_forall in Hf.
    apply elem_of_cons in Hq as [->|Hq]; [lia|]. specialize (Hf q Hq). lia.
Qed.

Section subclass_ok.
Context (st : cstate) (Hwf : wf_st st).

Lemma cpl_nonempty c ic : st !! c = Some ic -> exists t, all_supers ic = c :: t.
Proof.
  intros Hc. destruct (tcpl_head _ (ws_tab _ Hwf) c) as [t Ht].
  { rewrite cores_length. by eapply lookup_lt_Some. }
  rewrite <- cpl_of_cores, (cpl_of_lookup _ _ _ Hc) in Ht. by exists t.
Qed.

Lemma position_nonneg c ic : st !! c = Some ic -> (0 <= rcpl_position ic)%Z.
Proof.
  intros Hc. destruct (cpl_nonempty _ _ Hc) as [t Ht].
  destruct (ws_vec _ Hwf _ _ Hc) as [_ ->]. rewrite Ht. cbn. lia.
Qed.

Lemma others_above c ic p : st !! c = Some ic -> p ∈ rcpl_others ic -> (rcpl_position ic < p)%Z.
Proof.
  intros Hc Hp. pose proof (ws_sorted _ Hwf _ _ Hc) as Hs.
  apply StronglySorted_inv in Hs as [_ Hf]. rewrite Forall_forall in Hf. by apply Hf.
Qed.

(** <object> reached from [x]: its precedence list ends with it. *)
Definition rooted_at (x : cid) : Prop := last (cpl_of st x) = Some 0.

Lemma known_position x ix y iy L1 L2 :
  st !! x = Some ix -> st !! y = Some iy -> (y <> 0 \/ rooted_at x) ->
  all_supers ix = L1 ++ y :: L2 ->
  Z.of_nat (length L2) = rcpl_position iy \/ Z.of_nat (length L2) ∈ rcpl_others iy.
Proof.
  intros Hx Hy Hr Heq. destruct (decide (y = 0)) as [->|Hy0].
  2:{ by eapply (ws_known _ Hwf x ix). }
  destruct Hr as [?|Hr]; [done|]. left.
  destruct (ws_zero _ Hwf) as (i0 & H0 & Hcore & _). rewrite H0 in Hy. simplify_eq.
  destruct (ws_vec _ Hwf _ _ H0) as [_ ->]. injection Hcore as _ ->. cbn.
  unfold rooted_at in Hr. rewrite (cpl_of_lookup _ _ _ Hx), Heq in Hr.
  pose proof (tcpl_nodup _ (ws_tab _ Hwf) x) as Hnd.
  rewrite <- cpl_of_cores, (cpl_of_lookup _ _ _ Hx), Heq in Hnd.
  destruct L2 as [|z L2]; [done|exfalso].
  rewrite last_app in Hr.
  apply NoDup_app in Hnd as (_ & _ & Hnd). apply NoDup_cons in Hnd as [Hn _]. apply Hn.
  change (0 :: z :: L2) with ([0] ++ (z :: L2)) in Hr. rewrite last_app in Hr.
  destruct (last (z :: L2)) as [w|] eqn:Hl.
  - simplify_eq. apply last_Some in Hl as [l' ->]. rewrite elem_of_app, elem_of_list_singleton. by right.
  - by apply last_None in Hl.
Qed.

Lemma isubclass_ok x ix y iy :
  st !! x = Some ix -> st !! y = Some iy -> (y <> 0 \/ rooted_at x) ->
  exists b, rcpl_isubclass ix x iy y = Val b /\ (b = true <-> Inherits (supers_table st) x y).
Proof.
  intros Hx Hy Hr.
  assert (Hxl : x < length st) by (by eapply lookup_lt_Some).
  setoid_rewrite <- (cpl_members _ _ _ (ws_tab _ Hwf) Hxl). rewrite (cpl_of_lookup _ _ _ Hx).
  destruct (ws_vec _ Hwf _ _ Hx) as [Hv _].
  pose proof (position_nonneg _ _ Hy) as Hp0.
  unfold rcpl_isubclass. case_bool_decide as Hxy.
  { subst y. exists true. split; [done|]. split; [|done]. intros _.
    destruct (cpl_nonempty _ _ Hx) as [t ->]. left. }
  assert (Hknown : y ∈ all_supers ix ->
    rcpl_vector ix !! Z.to_nat (rcpl_position iy) = Some (Some y) \/
    exists p, p ∈ rcpl_others iy /\ rcpl_vector ix !! Z.to_nat p = Some (Some y)).
  { intros Hin. apply elem_of_list_split in Hin as (L1 & L2 & Heq).
    assert (Hl : make_rcpl (all_supers ix) !! length L2 = Some (Some y)).
    { apply make_rcpl_lookup_Some. by exists L1, L2. }
    rewrite Hv.
    destruct (known_position _ _ _ _ _ _ Hx Hy Hr Heq) as [Hk|Hk].
    - left. by rewrite <- Hk, Nat2Z.id.
    - right. eexists. split; [done|]. by rewrite Nat2Z.id. }
  assert (Hback : forall i, rcpl_vector ix !! i = Some (Some y) -> y ∈ all_supers ix).
  { intros i. rewrite Hv, make_rcpl_lookup_Some. intros (L1 & L2 & -> & _).
    rewrite elem_of_app, elem_of_cons. auto. }
  case_bool_decide as Hle.
  { exists false. split; [done|]. split; [done|]. intros Hin. exfalso.
    destruct (Hknown Hin) as [H|(p & Hp & H)]; apply lookup_lt_Some in H; [lia|].
    pose proof (others_above _ _ _ Hy Hp). lia. }
  destruct (lookup_lt_is_Some_2 (rcpl_vector ix) (Z.to_nat (rcpl_position iy))) as [v Hvl]; [lia|].
  rewrite (zread_val _ _ _ Hp0 Hvl). cbn [obind].
  case_bool_decide as Hvy.
  { subst v. exists true. split; [done|]. split; [|done]. intros _. by eapply Hback. }
  destruct (rcpl_loop_ok (rcpl_vector ix) y (rcpl_others iy)) as (b & Hb & Hiff).
  - pose proof (ws_sorted _ Hwf _ _ Hy) as Hs. by apply StronglySorted_inv in Hs as [? _].
  - intros p Hp. pose proof (others_above _ _ _ Hy Hp). lia.
  - exists b. split; [done|]. rewrite Hiff. split.
    + intros (p & _ & Hl). by eapply Hback.
    + intros Hin. destruct (Hknown Hin) as [H|H]; [|done]. rewrite Hvl in H. by simplify_eq.
Qed.

Lemma subclass_ok x y :
  x < length st -> y < length st -> (y <> 0 \/ rooted_at x) ->
  exists b, subclass st x y = Val b /\ (b = true <-> Inherits (supers_table st) x y).
Proof.
  intros Hx Hy Hr. destruct (lookup_lt_is_Some_2 _ _ Hx) as [ix Hix].
  destruct (lookup_lt_is_Some_2 _ _ Hy) as [iy Hiy].
  unfold subclass, iclass_of. rewrite (vread_val _ _ _ Hix), (vread_val _ _ _ Hiy). cbn [obind].
  by apply isubclass_ok.
Qed.

Lemma class_instance_ok x y :
  x < length st -> y < length st -> (y <> 0 \/ rooted_at x) ->
  exists b, class_instance st x y = Val b /\ (b = true <-> Inherits (supers_table st) x y).
Proof.
  intros Hx Hy Hr. destruct (lookup_lt_is_Some_2 _ _ Hx) as [ix Hix].
  destruct (lookup_lt_is_Some_2 _ _ Hy) as [iy Hiy].
  destruct (isubclass_ok _ _ _ _ Hix Hiy Hr) as (b & Hb & Hiff).
  unfold class_instance, iclass_of. rewrite (vread_val _ _ _ Hix), (vread_val _ _ _ Hiy). cbn [obind].
  exists b. split; [|done]. clear Hiff.
  pose proof (position_nonneg _ _ Hiy) as Hp0.
  case_bool_decide as Hlen; [done|].
  assert (Hnil : rcpl_others iy = []) by (destruct (rcpl_others iy); [done|cbn in Hlen; lia]).
  rewrite (bool_decide_false (rcpl_position iy < 0)%Z) by lia.
  unfold rcpl_isubclass in Hb. rewrite Hnil in Hb. cbn [rcpl_loop] in Hb.
  destruct (decide (rcpl_position iy < min_rcpl_size)%Z) as [Hmin|Hmin];
    [rewrite (bool_decide_true (rcpl_position iy < _)%Z) by done|
     rewrite (bool_decide_false (rcpl_position iy < min_rcpl_size)%Z) by done].
  - destruct (ws_vec _ Hwf _ _ Hix) as [Hv _]. pose proof (make_rcpl_length_min (all_supers ix)) as Hml.
    rewrite <- Hv in Hml. revert Hb. destruct (bool_decide (x = y)); [done|].
    rewrite bool_decide_false by lia. intros Hb.
    destruct (zread (rcpl_vector ix) (rcpl_position iy)) as [v| | |]; cbn in *; try done.
    revert Hb. by destruct (bool_decide (v = Some y)).
  - revert Hb. destruct (bool_decide (x = y)); [done|]. intros Hb.
    destruct (decide (Z.of_nat (length (rcpl_vector ix)) <= rcpl_position iy)%Z) as [Hd|Hd].
    + rewrite bool_decide_true in Hb by done. by rewrite bool_decide_false by lia.
    + rewrite bool_decide_false in Hb by done. rewrite bool_decide_true by lia.
      destruct (zread (rcpl_vector ix) (rcpl_position iy)) as [v| | |]; cbn in *; try done.
      revert Hb. by destruct (bool_decide (v = Some y)).
Qed.
End subclass_ok.

(** *** The check of the primary classes *)


Lemma check_primaries_ok st l fp :
  wf_st st -> (forall x, x ∈ l -> x < length st) -> (forall p, fp = Some p -> is_primary st p) ->
  (check_primaries st l fp = Val tt /\
     match fp with
     | Some p => forall q, q ∈ l -> is_primary st q -> Inherits (supers_table st) p q
     | None => (forall q, q ∈ l -> ~ is_primary st q) \/
         exists p, p ∈ l /\ forall q, q ∈ l -> is_primary st q -> Inherits (supers_table st) p q
     end) \/
  (check_primaries st l fp = Signal "combines unrelated primary classes" /\
     exists p q L1 L2 L3,
       match fp with Some p0 => p0 :: l | None => l end = L1 ++ p :: L2 ++ q :: L3 /\
       is_primary st p /\ is_primary st q /\ ~ Inherits (supers_table st) p q).
Proof.
  intros Hwf. revert fp. induction l as [|s l IH]; intros fp Hl Hfp; cbn [check_primaries].
  { left. split; [done|]. destruct fp.
    - intros q Hq. by apply elem_of_nil in Hq.
    - left. intros q Hq. by apply elem_of_nil in Hq. }
  assert (Hs : s < length st) by (apply Hl; left).
  assert (Hl' : forall x, x ∈ l -> x < length st) by (intros; apply Hl; by right).
  destruct (lookup_lt_is_Some_2 _ _ Hs) as [is His].
  unfold iclass_of. rewrite (vread_val _ _ _ His). cbn [obind].
  destruct (primary is) eqn:Hprim.
  - assert (Hps : is_primary st s) by (by exists is).
    destruct fp as [p|].
    + destruct (Hfp p eq_refl) as (ip & Hip & Hpp).
      assert (Hs0 : s <> 0).
      { intros ->. destruct (ws_zero _ Hwf) as (i0 & H0 & _ & Hf). congruence. }
      destruct (subclass_ok _ Hwf p s) as (b & Hb & Hiff);
        [by eapply lookup_lt_Some|done|by left|].
      rewrite Hb. cbn [obind]. destruct b.
      * destruct (IH (Some p) Hl' Hfp) as [[H1 H2]|(H1 & p' & q' & L1 & L2 & L3 & Heq & Hr)].
        -- left. split; [done|]. intros q Hq Hpq. apply elem_of_cons in Hq as [->|Hq]; [|auto].
           by apply Hiff.
        -- right. split; [done|]. destruct L1 as [|y L1]; cbn in Heq; simplify_eq.
           ++ exists p', q', [], (s :: L2), L3. by split.
           ++ exists p', q', (y :: s :: L1), L2, L3. by split.
      * right. split; [done|]. exists p, s, [], [], l. split; [done|]. split; [by exists ip|].
        split; [done|]. intros H. by apply Hiff in H.
    + destruct (IH (Some s) Hl') as [[H1 H2]|H].
      * by intros p [= <-].
      * left. split; [done|]. right. exists s. split; [left|]. intros q Hq Hpq.
        apply elem_of_cons in Hq as [->|Hq]; [|auto].
        apply inherits_refl. unfold supers_table. by rewrite fmap_length.
      * by right.
  - assert (Hns : ~ is_primary st s) by (intros (i & Hi & Hp); congruence).
    destruct (IH fp Hl' Hfp) as [[H1 H2]|(H1 & p' & q' & L1 & L2 & L3 & Heq & Hr)].
    + left. split; [done|]. destruct fp as [p|].
      * intros q Hq Hpq. apply elem_of_cons in Hq as [->|Hq]; [done|auto].
      * destruct H2 as [H2|(p & Hp & H2)].
        -- left. intros q Hq. apply elem_of_cons in Hq as [->|Hq]; [done|auto].
        -- right. exists p. split; [by right|]. intros q Hq Hpq.
           apply elem_of_cons in Hq as [->|Hq]; [done|auto].
    + right. split; [done|]. destruct fp as [p|].
      * destruct L1 as [|y L1]; cbn in Heq; simplify_eq.
        -- exists p', q', [], (s :: L2), L3. by split.
        -- exists p', q', (y :: s :: L1), L2, L3. by split.
      * exists p', q', (s :: L1), L2, L3. split; [cbn; by rewrite Heq|done].
Qed.

(** *** Making a class keeps the invariant *)

Lemma table_refines_cores st st' : table_refines st st' -> cores st' = cores st.
Proof.
  intros H. apply list_eq. intros i. unfold cores. rewrite !list_lookup_fmap.
  destruct (st !! i) as [ic|] eqn:Hi.
  - eapply Forall2_lookup_l in H as (ic' & Hi' & Hr); [|done]. rewrite Hi'. cbn.
    f_equal. apply Hr.
  - destruct (st' !! i) as [ic'|] eqn:Hi'; [|done].
    eapply Forall2_lookup_r in H as (ic & Hi2 & Hr); [|done]. congruence.
Qed.

Record class_added (st st' : cstate) (supers : list cid) (prim : bool) (L : list cid) : Prop := {
  ca_cores : cores st' = cores st ++ [(supers, L)];
  ca_prims : primary <$> st' = (primary <$> st) ++ [prim];
  ca_joint : known_joint <$> st' = (known_joint <$> st) ++ [[]] }.

Lemma is_primary_app st st' prims c : primary <$> st' = (primary <$> st) ++ prims ->
  c < length st -> is_primary st' c <-> is_primary st c.
Proof.
  intros H Hc. assert (Hl : primary <$> st' !! c = primary <$> st !! c).
  { rewrite <- !list_lookup_fmap, H. apply lookup_app_l. by rewrite fmap_length. }
  unfold is_primary. destruct (st' !! c) as [a|], (st !! c) as [b|]; cbn in Hl; simplify_eq.
  - split; intros (x & ? & ?); simplify_eq; [exists b|exists a]; split; congruence.
  - done.
Qed.

Lemma inherits_sublist_before st L p q L1 L2 L3 :
  wf_tab (cores st) -> NoDup L -> L = L1 ++ p :: L2 ++ q :: L3 -> q < length st ->
  keeps_order L (cpl_of st q) -> ~ Inherits (supers_table st) q p.
Proof.
  intros Hwf Hnd -> Hq Hk Hi. apply cpl_members in Hi; [|done..].
  destruct (tcpl_head _ Hwf q) as [t Ht]; [by rewrite cores_length|].
  rewrite <- cpl_of_cores in Ht. rewrite Ht in Hi, Hk.
  assert (p <> q).
  { intros ->. apply NoDup_app in Hnd as (_ & _ & Hnd). apply NoDup_cons in Hnd as [Hn _].
    apply Hn. rewrite elem_of_app, elem_of_cons. auto. }
  apply elem_of_cons in Hi as [?|Hi]; [done|].
  unfold keeps_order in Hk. apply sublist_cons_l in Hk as (k1 & k2 & Heq & Hsub).
  assert (Hp2 : p ∈ k2) by (by eapply sublist_elem).
  (* q occurs once, so k1 contains everything before it *)
  rewrite app_comm_cons, app_assoc in Heq.
  assert (Hk1 : L1 ++ p :: L2 = k1 /\ L3 = k2).
  { rewrite app_comm_cons, app_assoc in Hnd. revert Hnd Heq. generalize (L1 ++ p :: L2).
    clear. intros a. revert k1. induction a as [|x a IH]; intros [|y k1] Hnd Heq; cbn in *;
      apply (f_equal (fun l => (head l, tail l))) in Heq; cbn in Heq;
      injection Heq; clear Heq; intros Heq; intros; subst.
    - done.
    - exfalso. apply NoDup_cons in Hnd as [Hn _]. apply Hn. rewrite elem_of_app, elem_of_cons. auto.
    - exfalso. apply NoDup_cons in Hnd as [Hn _]. apply Hn. rewrite elem_of_app, elem_of_cons. auto.
    - apply NoDup_cons in Hnd as [_ Hnd]. destruct (IH _ Hnd Heq) as [-> ->]. done. }
  destruct Hk1 as [Hk1 ->].
  apply NoDup_app in Hnd as (_ & _ & Hnd). apply NoDup_cons in Hnd as [Hn _]. apply Hn.
  rewrite elem_of_app, elem_of_cons. auto.
Qed.

Lemma make_class_spec st supers prim :
  wf_st st -> (forall s, s ∈ supers -> s < length st) ->
  (exists st' L, make_class st supers prim = Val st' /\ wf_st st' /\
     Linearization (supers_table st) (cpl_of st) (length st) supers L /\
     class_added st st' supers prim L) \/
  (make_class st supers prim = Signal "inconsistent-precedence-class-error" /\
     ~ exists L, consistent_order (cpl_of st) supers L) \/
  (make_class st supers prim = Signal "combines unrelated primary classes" /\
     exists p q s t, s ∈ supers /\ t ∈ supers /\
       Inherits (supers_table st) s p /\ Inherits (supers_table st) t q /\
       is_primary st p /\ is_primary st q /\
       ~ Inherits (supers_table st) p q /\ ~ Inherits (supers_table st) q p).
Proof.
  intros Hwf Hs. pose proof (ws_tab _ Hwf) as Htab.
  unfold make_class.
  destruct (compute_cpl_spec st supers Htab Hs) as [(L & HE & HL)|[HE Hno]]; rewrite HE; cbn [obind].
  2:{ right. left. by split. }
  assert (HLh : exists t, L = length st :: t).
  { pose proof (lin_head _ _ _ _ _ HL) as Hh. destruct L; cbn in Hh; simplify_eq. eauto. }
  destruct HLh as [tl HLh].
  assert (Htl : forall x, x ∈ tl <-> exists s, s ∈ supers /\ Inherits (supers_table st) s x).
  { intros x. pose proof (lin_members _ _ _ _ _ HL x) as Hm. rewrite HLh, elem_of_cons in Hm.
    pose proof (lin_once _ _ _ _ _ HL) as Hnd. rewrite HLh in Hnd. apply NoDup_cons in Hnd as [Hn _].
    split.
    - intros Hx. destruct Hm as [Hm _]. destruct Hm as [->|?]; [by right|done|done].
    - intros (s & Hin & Hi). destruct Hm as [_ Hm]. destruct Hm as [->|?]; [right; by exists s| |done].
      apply Inherits_lt_r in Hi. unfold supers_table in Hi. rewrite fmap_length in Hi. lia. }
  assert (Htlt : forall x, x ∈ tl -> x < length st).
  { intros x Hx. apply Htl in Hx as (s & _ & Hi). apply Inherits_lt_r in Hi.
    unfold supers_table in Hi. by rewrite fmap_length in Hi. }
  assert (Hkeep : forall x, x ∈ tl -> keeps_order L (cpl_of st x)).
  { intros x Hx. apply Htl in Hx as (s & Hin & Hi). pose proof (lin_monotone _ _ _ _ _ HL s Hin) as Hm.
    unfold keeps_order in *. etrans; [|exact Hm]. rewrite !cpl_of_cores. apply tcpl_monotone; [done| |].
    - rewrite cores_length. by apply Hs.
    - apply tcpl_members; [done| |by rewrite <- supers_table_cores].
      rewrite cores_length. by apply Hs. }
  assert (HndL : NoDup L) by (apply HL).
  assert (Hnd2 := HndL). rewrite HLh in Hnd2. apply NoDup_cons in Hnd2 as [Hnotin Hndtl].
  rewrite HLh. cbn [tail]. rewrite <- HLh.
  destruct (check_primaries_ok st tl None Hwf Htlt) as [[Hc Hprim]|(Hc & p & q & L1 & L2 & L3 & Heq & Hp & Hq & Hn)].
  { done. }
  2:{ rewrite Hc. cbn [obind]. right. right. split; [done|].
      assert (Hpin : p ∈ tl) by (rewrite Heq, elem_of_app, elem_of_cons; auto).
      assert (Hqin : q ∈ tl) by (rewrite Heq, elem_of_app, elem_of_cons, elem_of_app, elem_of_cons; auto).
      pose proof Hpin as (s & Hsin & Hsp)%Htl. pose proof Hqin as (t & Htin & Htq)%Htl.
      exists p, q, s, t. repeat split; try done.
      eapply (inherits_sublist_before st L p q (length st :: L1) L2 L3); [done|done| |by apply Htlt|by apply Hkeep].
      by rewrite HLh, Heq. }
  rewrite Hc. cbn [obind].
  destruct (augment_superiors_ok st (length st) L) as (st1 & HA & Href & Hkn).
  { done. }
  { intros d Hd Hdc. apply lookup_lt_is_Some_2. rewrite HLh, elem_of_cons in Hd.
    destruct Hd as [?|Hd]; [done|]. by apply Htlt. }
  { intros L1 d L2 ic Heq Hdc Hic. split; [by eapply position_nonneg|].
    destruct (ws_vec _ Hwf _ _ Hic) as [_ ->].
    assert (Hdt : d ∈ tl).
    { assert (d ∈ L) as Hd by (rewrite Heq, elem_of_app, elem_of_cons; auto).
      rewrite HLh, elem_of_cons in Hd. by destruct Hd. }
    pose proof (Hkeep d Hdt) as Hk. unfold keeps_order in Hk.
    rewrite (cpl_of_lookup _ _ _ Hic) in Hk.
    destruct (cpl_nonempty _ Hwf _ _ Hic) as [t Ht]. rewrite Ht in Hk |- *.
    pose proof (sublist_cons_split _ _ _ HndL Hk _ _ Heq) as Hk2.
    apply sublist_length in Hk2. cbn. lia. }
  rewrite HA. cbn [obind]. left.
  set (new := IClass supers L (make_rcpl L) (Z.of_nat (length L) - 1) [] prim []).
  exists (st1 ++ [new]), L. split; [done|].
  assert (Hlen1 : length st1 = length st) by (symmetry; by eapply Forall2_length).
  assert (Hca : class_added st (st1 ++ [new]) supers prim L).
  { constructor.
    - unfold cores. rewrite fmap_app. cbn. f_equal. by apply table_refines_cores.
    - rewrite fmap_app. cbn. f_equal. apply list_eq. intros i. rewrite !list_lookup_fmap.
      destruct (st !! i) as [ic|] eqn:Hi.
      + eapply Forall2_lookup_l in Href as (ic' & Hi' & Hr); [|done]. rewrite Hi'. cbn. f_equal. apply Hr.
      + apply lookup_ge_None in Hi. rewrite lookup_ge_None_2 by lia. done.
    - rewrite fmap_app. cbn. f_equal. apply list_eq. intros i. rewrite !list_lookup_fmap.
      destruct (st !! i) as [ic|] eqn:Hi.
      + eapply Forall2_lookup_l in Href as (ic' & Hi' & Hr); [|done]. rewrite Hi'. cbn. f_equal. apply Hr.
      + apply lookup_ge_None in Hi. rewrite lookup_ge_None_2 by lia. done. }
  split; [|done].
  assert (Htab' : wf_tab (cores (st1 ++ [new]))).
  { rewrite (ca_cores _ _ _ _ _ Hca). apply wf_tab_snoc; [done| |].
    - intros s Hin. rewrite cores_length. by apply Hs.
    - rewrite cores_length, <- supers_table_cores.
      destruct HL as [H1 H2 H3 H4 H5]. constructor; try done.
      intros s Hin. rewrite <- cpl_of_cores. by apply H5. }
  assert (HT : supers_table (st1 ++ [new]) = supers_table st ++ [supers]).
  { rewrite !supers_table_cores, (ca_cores _ _ _ _ _ Hca), fmap_app. done. }
  assert (Hac : acyclic (supers_table st)) by (rewrite supers_table_cores; by apply wf_acyclic).
  assert (Hold : forall c ic', st1 !! c = Some ic' ->
    exists ic, st !! c = Some ic /\ refines ic ic').
  { intros c ic' Hc'. eapply Forall2_lookup_r in Href as (ic & ? & ?); [|done]. eauto. }
  assert (Hcase : forall c ic', (st1 ++ [new]) !! c = Some ic' ->
    (st1 !! c = Some ic' /\ c < length st) \/ (c = length st /\ ic' = new)).
  { intros c ic' Hc'. apply lookup_app_Some in Hc' as [Hc'|[Hge Hc']].
    - left. split; [done|]. rewrite <- Hlen1. by eapply lookup_lt_Some.
    - right. apply list_lookup_singleton_Some in Hc' as [H1 H2]. split; [lia|done]. }
  constructor.
  - done.
  - destruct (ws_zero _ Hwf) as (i0 & H0 & Hc0 & Hp0).
    eapply Forall2_lookup_l in Href as (i0' & H0' & Hr); [|done].
    exists i0'. split; [by apply lookup_app_l_Some|]. split.
    + by rewrite (ref_core _ _ Hr).
    + by rewrite (ref_prim _ _ Hr).
  - intros c ic' [[Hc' _]|[_ ->]]%Hcase; [|done].
    destruct (Hold _ _ Hc') as (ic & Hic & Hr). destruct (ws_vec _ Hwf _ _ Hic) as [Hv Hp].
    pose proof (ref_core _ _ Hr) as Hcore. injection Hcore as _ Hall.
    rewrite (ref_vec _ _ Hr), (ref_pos _ _ Hr), Hall. done.
  - intros c ic' [[Hc' _]|[_ ->]]%Hcase.
    + destruct (Hold _ _ Hc') as (ic & Hic & Hr). apply (ref_sorted _ _ Hr). by eapply ws_sorted.
    + cbn. repeat constructor.
  - intros e ie d id K1 K2 He Heq Hd Hd0.
    apply Hcase in He as [[He Hel]|[-> ->]].
    + destruct (Hold _ _ He) as (ie0 & Hie0 & Hre).
      pose proof (ref_core _ _ Hre) as Hcore. injection Hcore as _ Hall. rewrite Hall in Heq.
      assert (Hdl : d < length st).
      { assert (Hdin : d ∈ cpl_of st e).
        { rewrite (cpl_of_lookup _ _ _ Hie0), Heq, elem_of_app, elem_of_cons. auto. }
        apply cpl_members in Hdin; [|done..]. apply Inherits_lt_r in Hdin.
        unfold supers_table in Hdin. by rewrite fmap_length in Hdin. }
      apply Hcase in Hd as [[Hd _]|[-> _]]; [|lia].
      destruct (Hold _ _ Hd) as (id0 & Hid0 & Hrd). rewrite (ref_pos _ _ Hrd).
      destruct (ws_known _ Hwf _ _ _ _ _ _ Hie0 Heq Hid0 Hd0) as [?|Ho]; [by left|right].
      by apply (ref_others _ _ Hrd).
    + cbn in Heq. apply Hcase in Hd as [[Hd Hdl]|[-> ->]].
      * destruct K2 as [|k K2].
        -- (* the last one: its own precedence list is just itself *)
           left. destruct (Hold _ _ Hd) as (id0 & Hid0 & Hrd). rewrite (ref_pos _ _ Hrd).
           destruct (ws_vec _ Hwf _ _ Hid0) as [_ ->].
           assert (Hdt : d ∈ tl).
           { assert (d ∈ L) as Hd' by (rewrite Heq, elem_of_app, elem_of_cons; auto).
             rewrite HLh, elem_of_cons in Hd'. destruct Hd' as [?|?]; [lia|done]. }
           pose proof (Hkeep d Hdt) as Hk. unfold keeps_order in Hk.
           rewrite (cpl_of_lookup _ _ _ Hid0) in Hk.
           destruct (cpl_nonempty _ Hwf _ _ Hid0) as [t Ht]. rewrite Ht in Hk |- *.
           pose proof (sublist_cons_split _ _ _ HndL Hk _ _ Heq) as Hk2.
           apply sublist_length in Hk2. cbn in *. lia.
        -- destruct (Hkn K1 d (k :: K2)) as (ic' & Hic' & Hor); [done|done|lia|done|].
           by simplify_eq.
      * left. cbn. rewrite HLh in Heq. destruct K1 as [|y K1]; cbn in Heq; simplify_eq.
        -- cbn. lia.
        -- exfalso. apply Hnotin. rewrite elem_of_app, elem_of_cons. auto.
  - intros e ie p ip q iq He Hp Hq Hip Hpp Hiq Hpq.
    assert (Hpr : is_primary (st1 ++ [new]) p) by (by exists ip).
    assert (Hqr : is_primary (st1 ++ [new]) q) by (by exists iq).
    rewrite HT.
    apply Hcase in He as [[He Hel]|[-> ->]].
    + destruct (Hold _ _ He) as (ie0 & Hie0 & Hre).
      pose proof (ref_core _ _ Hre) as Hcore. injection Hcore as _ Hall. rewrite Hall in Hp, Hq.
      assert (Hlt : forall x, x ∈ all_supers ie0 -> x < length st).
      { intros x Hx. rewrite <- (cpl_of_lookup _ _ _ Hie0) in Hx. apply cpl_members in Hx; [|done..].
        apply Inherits_lt_r in Hx. unfold supers_table in Hx. by rewrite fmap_length in Hx. }
      apply (is_primary_app st _ _ _ (ca_prims _ _ _ _ _ Hca)) in Hpr as (ip0 & Hip0 & Hpp0); [|by apply Hlt].
      apply (is_primary_app st _ _ _ (ca_prims _ _ _ _ _ Hca)) in Hqr as (iq0 & Hiq0 & Hpq0); [|by apply Hlt].
      rewrite !Inherits_app; [by eapply (ws_prim _ Hwf e ie0)|done| |done|];
        unfold supers_table; rewrite fmap_length; by apply Hlt.
    + cbn in Hp, Hq. rewrite HLh, elem_of_cons in Hp, Hq.
      assert (Hnew : forall x, x ∈ tl -> Inherits (supers_table st ++ [supers]) (length st) x).
      { intros x Hx. apply Htl in Hx as (s & Hin & Hi). eapply inherits_step; [|exact Hin|].
        - rewrite lookup_app_r; unfold supers_table; rewrite fmap_length; [|done]. by rewrite Nat.sub_diag.
        - apply Inherits_app; [done| |done]. unfold supers_table. rewrite fmap_length. by apply Hs. }
      assert (Hself : Inherits (supers_table st ++ [supers]) (length st) (length st)).
      { apply inherits_refl. rewrite app_length. unfold supers_table. rewrite fmap_length. cbn. lia. }
      destruct Hp as [->|Hp]; [left; destruct Hq as [->|Hq]; [done|by apply Hnew]|].
      destruct Hq as [->|Hq]; [right; by apply Hnew|].
      apply (is_primary_app st _ _ _ (ca_prims _ _ _ _ _ Hca)) in Hpr; [|by apply Htlt].
      apply (is_primary_app st _ _ _ (ca_prims _ _ _ _ _ Hca)) in Hqr; [|by apply Htlt].
      rewrite !Inherits_app by (done || (unfold supers_table; rewrite fmap_length; by apply Htlt)).
      destruct Hprim as [Hnone|(f & Hf & Hall)]; [by destruct (Hnone p Hp)|].
      destruct (lookup_lt_is_Some_2 st f) as [jf Hjf]; [by apply Htlt|].
      destruct Hpr as (ip0 & Hip0 & Hpp0), Hqr as (iq0 & Hiq0 & Hpq0).
      eapply (ws_prim _ Hwf f jf p ip0 q iq0); try done;
        rewrite <- (cpl_of_lookup _ _ _ Hjf); (apply cpl_members; [done|by apply Htlt|]); apply Hall;
        try done; by eexists.
Qed.

(** *** Loading a library *)

(** Each definition only names classes that exist when it is reached. *)
Fixpoint defs_ok (n : nat) (defs : list (list cid * bool)) : Prop :=
  match defs with
  | [] => True
  | (supers, _) :: defs' => (forall s, s ∈ supers -> s < n) /\ defs_ok (S n) defs'
  end.

Lemma class_added_length st st' supers prim L : class_added st st' supers prim L -> length st' = S (length st).
Proof.
  intros H. pose proof (f_equal length (ca_cores _ _ _ _ _ H)) as Hl.
  rewrite app_length, !cores_length in Hl. cbn in Hl. lia.
Qed.

Record classes_added (st st' : cstate) : Prop := {
  cas_cores : exists tb, cores st' = cores st ++ tb;
  cas_prims : exists ps, primary <$> st' = (primary <$> st) ++ ps;
  cas_joint : exists n, known_joint <$> st' = (known_joint <$> st) ++ replicate n [] }.

Lemma make_classes_spec st defs :
  wf_st st -> defs_ok (length st) defs ->
  (exists st', make_classes st defs = Val st' /\ wf_st st' /\ classes_added st st') \/
  make_classes st defs = Signal "inconsistent-precedence-class-error" \/
  make_classes st defs = Signal "combines unrelated primary classes".
Proof.
  revert st. induction defs as [|[supers prim] defs IH]; intros st Hwf Hok; cbn [make_classes].
  { left. exists st. split; [done|]. split; [done|]. constructor.
    - exists []. by rewrite app_nil_r.
    - exists []. by rewrite app_nil_r.
    - exists 0. by rewrite app_nil_r. }
  destruct Hok as [Hs Hok].
  destruct (make_class_spec st supers prim Hwf Hs) as [(st1 & L & HE & Hwf1 & _ & Hca)|[[HE _]|[HE _]]];
    rewrite HE; cbn [obind]; [|tauto..].
  destruct (IH st1 Hwf1) as [(st' & HE' & Hwf' & [[tb Ht] [ps Hp] [n Hn]])|[H|H]].
  - by rewrite (class_added_length _ _ _ _ _ Hca).
  - left. exists st'. split; [done|]. split; [done|]. destruct Hca as [H1 H2 H3]. constructor.
    + eexists. rewrite Ht, H1, <- app_assoc. done.
    + eexists. rewrite Hp, H2, <- app_assoc. done.
    + exists (S n). rewrite Hn, H3, <- app_assoc. done.
  - tauto.
  - tauto.
Qed.

(** Only the joint sets change, and only grow. *)
Definition jeq (a b : iclass) : Prop := b = set_known a (known_joint b).
Definition same_classes (st st' : cstate) : Prop := Forall2 jeq st st'.

Lemma jeq_core a b : jeq a b -> core b = core a.
Proof. unfold jeq. intros ->. done. Qed.
Lemma same_classes_refl st : same_classes st st.
Proof.
  apply Forall2_same_length_lookup_2; [done|]. intros i x y H1 H2. rewrite H1 in H2.
  injection H2 as <-. unfold jeq. by destruct x.
Qed.
Lemma same_classes_trans a b c : same_classes a b -> same_classes b c -> same_classes a c.
Proof.
  unfold same_classes. intros. eapply Forall2_transitive; [|done..].
  unfold jeq. intros x y z Hy Hz. rewrite Hz at 1. rewrite Hy. done.
Qed.
Lemma same_classes_cores st st' : same_classes st st' -> cores st' = cores st.
Proof.
  intros H. symmetry. unfold cores. induction H as [|a b l l' Hab _ IH]; [done|].
  rewrite !fmap_cons, IH. f_equal. by rewrite (jeq_core _ _ Hab).
Qed.
Lemma same_classes_insert st c ic l : st !! c = Some ic -> same_classes st (<[c:=set_known ic l]> st).
Proof.
  intros Hc. apply Forall2_same_length_lookup_2; [by rewrite insert_length|].
  intros i x y Hx Hy. destruct (decide (i = c)) as [->|Hne].
  - rewrite list_lookup_insert in Hy by (by eapply lookup_lt_Some). by simplify_eq.
  - rewrite list_lookup_insert_ne, Hx in Hy by done. injection Hy as <-. unfold jeq. by destruct x.
Qed.

Lemma same_classes_wf st st' : same_classes st st' -> wf_st st -> wf_st st'.
Proof.
  intros Hsame Hwf. pose proof (same_classes_cores _ _ Hsame) as Hc.
  assert (HT : supers_table st' = supers_table st) by (by rewrite !supers_table_cores, Hc).
  assert (Hold : forall c ic', st' !! c = Some ic' -> exists ic l, st !! c = Some ic /\ ic' = set_known ic l).
  { intros c ic' Hc'. eapply Forall2_lookup_r in Hsame as (ic & ? & ?); [|done]. exists ic, (known_joint ic'). by split. }
  constructor.
  - rewrite Hc. apply Hwf.
  - destruct (ws_zero _ Hwf) as (i0 & H0 & H1 & H2).
    eapply Forall2_lookup_l in Hsame as (i0' & H0' & Hj); [|done].
    exists i0'. split; [done|]. rewrite Hj. by split.
  - intros c ic' (ic & l & Hic & ->)%Hold. by apply (ws_vec _ Hwf c ic).
  - intros c ic' (ic & l & Hic & ->)%Hold. by apply (ws_sorted _ Hwf c ic).
  - intros e ie d id L1 L2 (ie0 & le & He & ->)%Hold Heq (id0 & ld & Hd & ->)%Hold.
    by eapply (ws_known _ Hwf e ie0 d id0 L1 L2).
  - intros e ie p ip q iq (ie0 & le & He & ->)%Hold Hp Hq (ip0 & lp & Hip & ->)%Hold Hpp (iq0 & lq & Hiq & ->)%Hold Hpq.
    rewrite HT. by eapply (ws_prim _ Hwf e ie0 p ip0 q iq0).
Qed.

(** *** The joint sets *)

Definition jgrows (J J' : list (list cid)) : Prop := Forall2 (fun l l' => forall x : cid, x ∈ l -> x ∈ l') J J'.
Lemma jgrows_refl J : jgrows J J.
Proof. apply Forall2_same_length_lookup_2; [done|]. intros i x y H1 H2. by simplify_eq. Qed.
Lemma jgrows_trans a b c : jgrows a b -> jgrows b c -> jgrows a c.
Proof. unfold jgrows. intros. eapply Forall2_transitive; [|done..]. intros x y z H1 H2 w Hw. auto. Qed.
Lemma jgrows_insert J c j x : J !! c = Some j -> jgrows J (<[c := x :: j]> J).
Proof.
  intros Hc. apply Forall2_same_length_lookup_2; [by rewrite insert_length|].
  intros i l l' Hl Hl'. destruct (decide (i = c)) as [->|Hne].
  - rewrite list_lookup_insert in Hl' by (by eapply lookup_lt_Some). simplify_eq. intros y Hy. by right.
  - rewrite list_lookup_insert_ne in Hl' by done. by simplify_eq.
Qed.

Definition recorded (J : list (list cid)) (a b : cid) : Prop :=
  (exists ja, J !! a = Some ja /\ b ∈ ja) \/ (exists jb, J !! b = Some jb /\ a ∈ jb).
Lemma recorded_grows J J' a b : jgrows J J' -> recorded J a b -> recorded J' a b.
Proof.
  intros HJ [(j & Hj & Hin)|(j & Hj & Hin)]; eapply Forall2_lookup_l in HJ as (j' & Hj' & Hsub); try done.
  - left. exists j'. auto.
  - right. exists j'. auto.
Qed.
Lemma recorded_sym J a b : recorded J a b -> recorded J b a.
Proof. unfold recorded. tauto. Qed.

Definition jb (J : list (list cid)) : Prop := forall d j x, J !! d = Some j -> x ∈ j -> x < length J.
Lemma jb_insert J c j x : jb J -> J !! c = Some j -> x < length J -> jb (<[c := x :: j]> J).
Proof.
  intros HJ Hc Hx d j' y Hd Hy. rewrite insert_length. destruct (decide (d = c)) as [->|Hne].
  - rewrite list_lookup_insert in Hd by (by eapply lookup_lt_Some). simplify_eq.
    apply elem_of_cons in Hy as [->|Hy]; [done|by eapply HJ].
  - rewrite list_lookup_insert_ne in Hd by done. by eapply HJ.
Qed.

Lemma joint_inner_ok st local c1 c1sups l J :
  c1 < length J -> (forall x, x ∈ l -> x < length J) -> jb J ->
  exists J', joint_inner st local c1 c1sups l J = Val J' /\ jgrows J J' /\ jb J' /\
    forall c2, c2 ∈ l -> c2 ∉ c1sups -> recorded J' c1 c2.
Proof.
  revert J. induction l as [|c2 l IH]; intros J Hc1 Hl HB; cbn [joint_inner].
  { exists J. split; [done|]. split; [apply jgrows_refl|]. split; [done|]. intros c2 H. by apply elem_of_nil in H. }
  assert (Hl' : forall x, x ∈ l -> x < length J) by (intros; apply Hl; by right).
  assert (Hsimple : (c2 ∈ c1sups \/ recorded J c1 c2) ->
    exists J', joint_inner st local c1 c1sups l J = Val J' /\ jgrows J J' /\ jb J' /\
      forall x, x ∈ c2 :: l -> x ∉ c1sups -> recorded J' c1 x).
  { intros Hor. destruct (IH J Hc1 Hl' HB) as (J' & HE & Hg & HB' & Hr). exists J'. split; [done|].
    split; [done|]. split; [done|]. intros x Hx Hn. apply elem_of_cons in Hx as [->|Hx]; [|auto].
    destruct Hor as [?|Hor]; [done|]. by eapply recorded_grows. }
  destruct (member c2 c1sups) eqn:Hm.
  { apply Hsimple. left. by apply member_true. }
  destruct (lookup_lt_is_Some_2 J c1 Hc1) as [j1 Hj1].
  destruct (lookup_lt_is_Some_2 J c2) as [j2 Hj2]; [apply Hl; left|].
  rewrite (vread_val _ _ _ Hj1). cbn [obind].
  destruct (member c2 j1) eqn:Hm1.
  { apply Hsimple. right. left. exists j1. split; [done|]. by apply member_true. }
  rewrite (vread_val _ _ _ Hj2). cbn [obind].
  destruct (member c1 j2) eqn:Hm2.
  { apply Hsimple. right. right. exists j2. split; [done|]. by apply member_true. }
  assert (Hstep : exists J1, (if local c1 || negb (local c2)
                   then vwrite J c1 (c2 :: j1) else vwrite J c2 (c1 :: j2)) = Val J1 /\
                   jgrows J J1 /\ jb J1 /\ recorded J1 c1 c2).
  { destruct (local c1 || negb (local c2)).
    - rewrite vwrite_val by done. eexists. split; [done|]. split; [by apply jgrows_insert|].
      split; [apply jb_insert; [done..|apply Hl; left]|].
      left. exists (c2 :: j1). rewrite list_lookup_insert by done. split; [done|left].
    - rewrite vwrite_val by (by eapply lookup_lt_Some). eexists. split; [done|]. split; [by apply jgrows_insert|].
      split; [by apply jb_insert|].
      right. exists (c1 :: j2). rewrite list_lookup_insert by (by eapply lookup_lt_Some). split; [done|left]. }
  destruct Hstep as (J1 & HE1 & Hg1 & HB1 & Hr1). rewrite HE1. cbn [obind].
  assert (Hlen : length J1 = length J) by (symmetry; by eapply Forall2_length).
  destruct (IH J1) as (J' & HE & Hg & HB' & Hr); [by rewrite Hlen| |done|].
  { intros x Hx. rewrite Hlen. auto. }
  exists J'. split; [done|]. split; [by eapply jgrows_trans|]. split; [done|].
  intros x Hx Hn. apply elem_of_cons in Hx as [->|Hx]; [|auto]. by eapply recorded_grows.
Qed.

Lemma joint_outer_ok st local l J :
  length J = length st -> (forall x, x ∈ l -> x < length st) -> jb J ->
  exists J', joint_outer st local l J = Val J' /\ jgrows J J' /\ jb J' /\
    forall L1 a L2 b L3, l = L1 ++ a :: L2 ++ b :: L3 -> b ∉ tail (cpl_of st a) -> recorded J' a b.
Proof.
  revert J. induction l as [|c1 l IH]; intros J HJ Hl HB; cbn [joint_outer].
  { exists J. split; [done|]. split; [apply jgrows_refl|]. split; [done|]. intros [|? L1] a L2 b L3 H; done. }
  assert (Hc1 : c1 < length st) by (apply Hl; left).
  assert (Hl' : forall x, x ∈ l -> x < length st) by (intros; apply Hl; by right).
  destruct (lookup_lt_is_Some_2 _ _ Hc1) as [i1 Hi1].
  unfold iclass_of. rewrite (vread_val _ _ _ Hi1). cbn [obind].
  destruct (joint_inner_ok st local c1 (tail (all_supers i1)) l J) as (J1 & HE1 & Hg1 & HB1 & Hr1).
  { by rewrite HJ. }
  { intros x Hx. rewrite HJ. auto. }
  { done. }
  rewrite HE1. cbn [obind].
  assert (HJ1 : length J1 = length st) by (rewrite <- HJ; symmetry; by eapply Forall2_length).
  destruct (IH J1 HJ1 Hl' HB1) as (J' & HE & Hg & HB' & Hr).
  exists J'. split; [done|]. split; [by eapply jgrows_trans|]. split; [done|].
  intros [|y L1] a L2 b L3 Heq Hn; cbn in Heq; injection Heq as Hx Heq.
  - subst c1. eapply recorded_grows; [done|]. apply Hr1.
    + rewrite Heq, elem_of_app, elem_of_cons. auto.
    + by rewrite <- (cpl_of_lookup _ _ _ Hi1).
  - by eapply Hr.
Qed.

Lemma joint_table_ok st local cs J :
  wf_tab (cores st) -> length J = length st -> (forall x, x ∈ cs -> x < length st) -> jb J ->
  exists J', joint_table st local cs J = Val J' /\ jgrows J J' /\ jb J' /\
    forall c L1 a L2 b L3, c ∈ cs -> tail (cpl_of st c) = L1 ++ a :: L2 ++ b :: L3 ->
      b ∉ tail (cpl_of st a) -> recorded J' a b.
Proof.
  intros Hwf. revert J. induction cs as [|c cs IH]; intros J HJ Hl HB; cbn [joint_table].
  { exists J. split; [done|]. split; [apply jgrows_refl|]. split; [done|]. intros c L1 a L2 b L3 H. by apply elem_of_nil in H. }
  assert (Hc : c < length st) by (apply Hl; left).
  destruct (lookup_lt_is_Some_2 _ _ Hc) as [ic Hic].
  unfold iclass_of. rewrite (vread_val _ _ _ Hic). cbn [obind].
  destruct (joint_outer_ok st local (tail (all_supers ic)) J HJ) as (J1 & HE1 & Hg1 & HB1 & Hr1).
  { intros x Hx. rewrite <- (cpl_of_lookup _ _ _ Hic) in Hx.
    assert (Hx' : x ∈ cpl_of st c) by (destruct (cpl_of st c); [done|by right]).
    apply cpl_members in Hx'; [|done..]. apply Inherits_lt_r in Hx'.
    unfold supers_table in Hx'. by rewrite fmap_length in Hx'. }
  { done. }
  rewrite HE1. cbn [obind].
  assert (HJ1 : length J1 = length st) by (rewrite <- HJ; symmetry; by eapply Forall2_length).
  destruct (IH J1 HJ1) as (J' & HE & Hg & HB' & Hr).
  { intros x Hx. apply Hl. by right. }
  { done. }
  exists J'. split; [done|]. split; [by eapply jgrows_trans|]. split; [done|].
  intros c0 L1 a L2 b L3 Hc0 Heq Hn. apply elem_of_cons in Hc0 as [->|Hc0]; [|by eapply Hr].
  eapply recorded_grows; [done|]. rewrite (cpl_of_lookup _ _ _ Hic) in Heq. by eapply Hr1.
Qed.

Definition known_of (st : cstate) (c : cid) : list cid :=
  match st !! c with Some ic => known_joint ic | None => [] end.

Lemma known_of_insert st c ic l d : st !! c = Some ic ->
  known_of (<[c:=set_known ic l]> st) d = if decide (d = c) then l else known_of st d.
Proof.
  intros Hc. unfold known_of. destruct (decide (d = c)) as [->|Hne].
  - by rewrite list_lookup_insert by (by eapply lookup_lt_Some).
  - by rewrite list_lookup_insert_ne.
Qed.

Lemma store_joint_ok st cs J :
  length J = length st -> (forall x, x ∈ cs -> x < length st) ->
  exists st', store_joint st cs J = Val st' /\ same_classes st st' /\
    (forall d, d ∉ cs -> known_of st' d = known_of st d) /\
    (forall d j, d ∈ cs -> J !! d = Some j -> known_of st' d = j).
Proof.
  revert st. induction cs as [|c cs IH]; intros st HJ Hl; cbn [store_joint].
  { exists st. split; [done|]. split; [apply same_classes_refl|]. split; [done|].
    intros d j H. by apply elem_of_nil in H. }
  assert (Hc : c < length st) by (apply Hl; left).
  destruct (lookup_lt_is_Some_2 _ _ Hc) as [ic Hic].
  destruct (lookup_lt_is_Some_2 J c) as [j Hj]; [by rewrite HJ|].
  unfold iclass_of. rewrite (vread_val _ _ _ Hic), (vread_val _ _ _ Hj). cbn [obind].
  rewrite vwrite_val by done. cbn [obind].
  destruct (IH (<[c:=set_known ic j]> st)) as (st' & HE & Hs & Hsame & Hset).
  { by rewrite insert_length. }
  { intros x Hx. rewrite insert_length. apply Hl. by right. }
  exists st'. split; [done|]. split.
  { eapply same_classes_trans; [|done]. by apply same_classes_insert. }
  split.
  - intros d Hd. apply not_elem_of_cons in Hd as [Hdc Hd]. rewrite Hsame by done.
    rewrite (known_of_insert _ _ _ _ _ Hic). by rewrite decide_False.
  - intros d j' Hd Hj'. destruct (decide (d ∈ cs)) as [Hin|Hin]; [by eapply Hset|].
    apply elem_of_cons in Hd as [->|Hd]; [|done]. simplify_eq. rewrite Hsame by done.
    rewrite (known_of_insert _ _ _ _ _ Hic). by rewrite decide_True.
Qed.

Lemma augment_joint_loop_ok st c1 known vec new :
  (forall x, x ∈ vec -> x < length st) ->
  exists new', augment_joint_loop st c1 known vec new = Val new' /\
    forall x, x ∈ new' <-> x ∈ new \/ (x ∈ vec /\ c1 ∉ known_of st x /\ x ∉ known).
Proof.
  revert new. induction vec as [|c2 vec IH]; intros new Hl; cbn [augment_joint_loop].
  { exists new. split; [done|]. intros x. rewrite elem_of_nil. tauto. }
  destruct (lookup_lt_is_Some_2 st c2) as [i2 Hi2]; [apply Hl; left|].
  unfold iclass_of. rewrite (vread_val _ _ _ Hi2). cbn [obind].
  destruct (IH (if negb (member c1 (known_joint i2)) && negb (member c2 known) then c2 :: new else new))
    as (new' & HE & Hn).
  { intros x Hx. apply Hl. by right. }
  exists new'. split; [done|]. intros x. rewrite Hn, elem_of_cons.
  assert (Hk2 : known_of st c2 = known_joint i2) by (unfold known_of; by rewrite Hi2).
  destruct (member c1 (known_joint i2)) eqn:H1, (member c2 known) eqn:H2; cbn;
    rewrite ?member_true in *; rewrite ?member_false in *; rewrite ?elem_of_cons;
    (destruct (decide (x = c2)) as [->|]; [rewrite ?Hk2|]); tauto.
Qed.

Lemma augment_joint_ok st c1 vec :
  c1 < length st -> (forall x, x ∈ vec -> x < length st) ->
  exists st', augment_joint st c1 vec = Val st' /\ same_classes st st' /\
    (forall d x, x ∈ known_of st d -> x ∈ known_of st' d) /\
    (forall x, x ∈ vec -> x ∈ known_of st' c1 \/ c1 ∈ known_of st' x).
Proof.
  intros Hc1 Hv. destruct (lookup_lt_is_Some_2 _ _ Hc1) as [i1 Hi1].
  unfold augment_joint, iclass_of. rewrite (vread_val _ _ _ Hi1). cbn [obind].
  destruct (augment_joint_loop_ok st c1 (known_joint i1) vec [] Hv) as (new & HE & Hn).
  rewrite HE. cbn [obind].
  assert (Hk1 : known_of st c1 = known_joint i1) by (unfold known_of; by rewrite Hi1).
  assert (Hcase : forall x, x ∈ vec -> x ∈ new \/ c1 ∈ known_of st x \/ x ∈ known_of st c1).
  { intros x Hx. specialize (Hn x). rewrite elem_of_nil in Hn. rewrite Hk1.
    destruct (decide (c1 ∈ known_of st x)); [tauto|]. destruct (decide (x ∈ known_joint i1)); tauto. }
  assert (Hgo : exists st', (match new with [] => Val st
      | _ => vwrite st c1 (set_known i1 (known_joint i1 ++ new)) end) = Val st' /\ same_classes st st' /\
      (forall d x, x ∈ known_of st d -> x ∈ known_of st' d) /\
      (forall x, x ∈ new -> x ∈ known_of st' c1)).
  { destruct new as [|n0 new].
    - exists st. split; [done|]. split; [apply same_classes_refl|]. split; [done|].
      intros x Hx. by apply elem_of_nil in Hx.
    - rewrite vwrite_val by done. eexists. split; [done|]. split; [by apply same_classes_insert|].
      split.
      + intros d x Hx. rewrite (known_of_insert _ _ _ _ _ Hi1). case_decide as Hd; [|done].
        subst d. rewrite Hk1 in Hx. rewrite elem_of_app. by left.
      + intros x Hx. rewrite (known_of_insert _ _ _ _ _ Hi1), decide_True by done.
        rewrite elem_of_app. by right. }
  destruct Hgo as (st' & HE' & Hs & Hg & Hnew). exists st'. split; [done|]. split; [done|]. split; [done|].
  intros x Hx. destruct (Hcase x Hx) as [H|[H|H]].
  - left. by apply Hnew.
  - right. by apply Hg.
  - left. by apply Hg.
Qed.

Lemma augment_joints_ok st cs J :
  length J = length st -> (forall x, x ∈ cs -> x < length st) ->
  (forall d j x, J !! d = Some j -> x ∈ j -> x < length st) ->
  exists st', augment_joints st cs J = Val st' /\ same_classes st st' /\
    (forall d x, x ∈ known_of st d -> x ∈ known_of st' d) /\
    (forall d j x, d ∈ cs -> J !! d = Some j -> x ∈ j -> x ∈ known_of st' d \/ d ∈ known_of st' x).
Proof.
  revert st. induction cs as [|c cs IH]; intros st HJ Hl HJl; cbn [augment_joints].
  { exists st. split; [done|]. split; [apply same_classes_refl|]. split; [done|].
    intros d j x H. by apply elem_of_nil in H. }
  assert (Hc : c < length st) by (apply Hl; left).
  destruct (lookup_lt_is_Some_2 J c) as [j Hj]; [by rewrite HJ|].
  rewrite (vread_val _ _ _ Hj). cbn [obind].
  destruct (augment_joint_ok st c j Hc) as (st1 & HE1 & Hs1 & Hg1 & Hn1).
  { intros x Hx. by eapply HJl. }
  rewrite HE1. cbn [obind].
  assert (Hlen : length st1 = length st) by (symmetry; by eapply Forall2_length).
  destruct (IH st1) as (st' & HE & Hs & Hg & Hn).
  { by rewrite Hlen. }
  { intros x Hx. rewrite Hlen. apply Hl. by right. }
  { intros d j' x H1 H2. rewrite Hlen. by eapply HJl. }
  exists st'. split; [done|]. split; [by eapply same_classes_trans|]. split; [auto|].
  intros d j' x Hd Hj' Hx. apply elem_of_cons in Hd as [->|Hd]; [|by eapply Hn].
  simplify_eq. destruct (Hn1 x Hx) as [H|H]; [left|right]; by apply Hg.
Qed.

Definition joint_inv (st : cstate) : Prop :=
  forall a b e, Inherits (supers_table st) e a -> Inherits (supers_table st) e b ->
    ~ Inherits (supers_table st) a b -> ~ Inherits (supers_table st) b a ->
    b ∈ known_of st a \/ a ∈ known_of st b.

Lemma supers_table_length st : length (supers_table st) = length st.
Proof. unfold supers_table. by rewrite fmap_length. Qed.

Lemma known_of_fmap st c : known_of st c = default [] ((known_joint <$> st) !! c).
Proof. unfold known_of. rewrite list_lookup_fmap. by destruct (st !! c). Qed.

Lemma two_in_list (l : list cid) a b : a ∈ l -> b ∈ l -> a <> b ->
  (exists L1 L2 L3, l = L1 ++ a :: L2 ++ b :: L3) \/ (exists L1 L2 L3, l = L1 ++ b :: L2 ++ a :: L3).
Proof.
  intros Ha Hb Hab. apply elem_of_list_split in Ha as (k1 & k2 & ->).
  rewrite elem_of_app, elem_of_cons in Hb. destruct Hb as [Hb|[?|Hb]]; [|done|].
  - right. apply elem_of_list_split in Hb as (m1 & m2 & ->). exists m1, m2, k2. by rewrite <- app_assoc.
  - left. apply elem_of_list_split in Hb as (m1 & m2 & ->). by exists k1, m1, m2.
Qed.

Lemma load_library_spec st defs :
  wf_st st -> defs_ok (length st) defs ->
  (exists st' tb, load_library st defs = Val st' /\ wf_st st' /\ cores st' = cores st ++ tb /\
     (exists st1, make_classes st defs = Val st1 /\ same_classes st1 st') /\
     (joint_inv st -> joint_inv st')) \/
  load_library st defs = Signal "inconsistent-precedence-class-error" \/
  load_library st defs = Signal "combines unrelated primary classes".
Proof.
  intros Hwf Hok. unfold load_library.
  destruct (make_classes_spec st defs Hwf Hok) as [(st1 & HE & Hwf1 & [[tb Ht] _ [n Hn]])|[HE|HE]];
    rewrite HE; cbn [obind]; [|tauto..]. left.
  assert (Hlen : length st1 = length st + length tb).
  { rewrite <- (cores_length st1), Ht, app_length, cores_length. done. }
  set (first := length st) in *.
  set (cs := seq first (length st1 - first)).
  assert (Hcs : forall x, x ∈ cs <-> first <= x < length st1).
  { intros x. unfold cs. rewrite elem_of_seq. lia. }
  destruct (joint_table_ok st1 (fun c => bool_decide (first <= c)) cs (replicate (length st1) []))
    as (J & HJ & Hgr & Hb & Hrec).
  { apply Hwf1. }
  { by rewrite replicate_length. }
  { intros x Hx. apply Hcs in Hx. lia. }
  { intros d j x Hd Hx. apply lookup_replicate in Hd as [-> _]. by apply elem_of_nil in Hx. }
  assert (HJl : length J = length st1).
  { rewrite <- (Forall2_length _ _ _ Hgr). by rewrite replicate_length. }
  rewrite HJ. cbn [obind].
  destruct (store_joint_ok st1 cs J HJl) as (st2 & HS & Hs2 & Hkeep & Hset).
  { intros x Hx. apply Hcs in Hx. lia. }
  rewrite HS. cbn [obind].
  assert (Hl2 : length st2 = length st1) by (symmetry; by eapply Forall2_length).
  destruct (augment_joints_ok st2 (seq 0 first) J) as (st3 & HA & Hs3 & Hgrow & Haug).
  { by rewrite Hl2. }
  { intros x Hx. rewrite elem_of_seq in Hx. lia. }
  { intros d j x Hd Hx. rewrite Hl2, <- HJl. by eapply Hb. }
  exists st3, tb. split; [done|].
  assert (Hs13 : same_classes st1 st3) by (by eapply same_classes_trans).
  split; [by eapply same_classes_wf|].
  assert (Hc3 : cores st3 = cores st1) by (by apply same_classes_cores).
  split; [by rewrite Hc3|]. split; [by exists st1|].
  intros Hinv a b e Hea Heb Hab Hba.
  assert (HT3 : supers_table st3 = supers_table st1) by (by rewrite !supers_table_cores, Hc3).
  rewrite HT3 in *.
  assert (HT1 : supers_table st1 = supers_table st ++ tb.*1).
  { by rewrite !supers_table_cores, Ht, fmap_app. }
  assert (Hac : acyclic (supers_table st)) by (rewrite supers_table_cores; apply wf_acyclic, Hwf).
  assert (Hac1 : acyclic (supers_table st1)) by (rewrite supers_table_cores; apply wf_acyclic, Hwf1).
  assert (Hae : a <= e) by (by eapply Inherits_le). assert (Hbe : b <= e) by (by eapply Inherits_le).
  assert (Hel : e < length st1) by (rewrite <- supers_table_length; by eapply Inherits_lt).
  destruct (decide (e < first)) as [Hold|Hnew].
  - (* both are older than the library *)
    rewrite HT1 in *. rewrite Inherits_app in Hea, Heb, Hab, Hba
      by (done || (rewrite supers_table_length; unfold first in *; lia)).
    assert (Hk : forall c, c < first -> forall x, x ∈ known_of st c -> x ∈ known_of st3 c).
    { intros c Hc x Hx. apply Hgrow. rewrite Hkeep by (rewrite Hcs; lia).
      rewrite known_of_fmap, Hn, lookup_app_l by (by rewrite fmap_length). by rewrite <- known_of_fmap. }
    destruct (Hinv a b e Hea Heb Hab Hba) as [H|H]; [left|right]; (apply Hk; [lia|done]).
  - assert (Hpair : recorded J a b).
    { assert (Hin : forall x, Inherits (supers_table st1) e x -> x <> e -> x ∈ tail (cpl_of st1 e)).
      { intros x Hx Hxe. apply cpl_members in Hx; [|apply Hwf1|done].
        destruct (cpl_of st1 e) as [|y l] eqn:Hy; [by apply elem_of_nil in Hx|].
        destruct (tcpl_head _ (ws_tab _ Hwf1) e) as [t Htl]; [by rewrite cores_length|].
        rewrite <- cpl_of_cores, Hy in Htl. simplify_eq. cbn. apply elem_of_cons in Hx as [?|?]; done. }
      assert (Hne : a <> e) by (intros ->; done).
      assert (Hne' : b <> e) by (intros ->; done).
      assert (Hab' : a <> b).
      { intros ->. apply Hab. apply inherits_refl. by eapply Inherits_lt_r. }
      assert (Hnot : forall x y, ~ Inherits (supers_table st1) x y -> x < length st1 -> y ∉ tail (cpl_of st1 x)).
      { intros x y Hxy Hxl Hy. apply Hxy. apply cpl_members; [apply Hwf1|done|].
        destruct (cpl_of st1 x); [done|by right]. }
      destruct (two_in_list (tail (cpl_of st1 e)) a b) as [(L1 & L2 & L3 & Heq)|(L1 & L2 & L3 & Heq)];
        [by apply Hin..|done| |].
      - apply (Hrec e L1 a L2 b L3); [apply Hcs; lia|done|]. apply Hnot; [done|lia].
      - apply recorded_sym. apply (Hrec e L1 b L2 a L3); [apply Hcs; lia|done|]. apply Hnot; [done|lia]. }
    assert (Hfin : forall x y j, J !! x = Some j -> y ∈ j -> y ∈ known_of st3 x \/ x ∈ known_of st3 y).
    { intros x y j Hj Hy. destruct (decide (x < first)) as [Hx|Hx].
      - eapply Haug; [|done..]. rewrite elem_of_seq. lia.
      - left. apply Hgrow. erewrite Hset; [done| |done]. apply Hcs.
        split; [lia|]. rewrite <- HJl. by eapply lookup_lt_Some. }
    destruct Hpair as [(j & Hj & Hin)|(j & Hj & Hin)].
    + by eapply Hfin.
    + destruct (Hfin b a j Hj Hin); tauto.
Qed.

(** *** Histories *)

Lemma compute_cpl_inv st c supers L : compute_cpl st c supers = Val L -> forall s, s ∈ supers -> s < length st.
Proof.
  unfold compute_cpl. intros H. destruct (super_lists st supers) as [ls| | |] eqn:Hs; try done.
  by eapply super_lists_inv.
Qed.

Lemma make_class_inv st supers prim st' : make_class st supers prim = Val st' ->
  forall s, s ∈ supers -> s < length st.
Proof.
  unfold make_class. intros H. destruct (compute_cpl st (length st) supers) as [L| | |] eqn:Hc; try done.
  by eapply compute_cpl_inv.
Qed.

Lemma make_classes_inv st defs st' : wf_st st -> make_classes st defs = Val st' -> defs_ok (length st) defs.
Proof.
  revert st. induction defs as [|[supers prim] defs IH]; intros st Hwf H; [done|]. cbn [make_classes] in H.
  destruct (make_class st supers prim) as [st1| | |] eqn:H1; try done. cbn [obind] in H.
  pose proof (make_class_inv _ _ _ _ H1) as Hs.
  destruct (make_class_spec st supers prim Hwf Hs) as [(st1' & L & HE & Hwf1 & _ & Hca)|[[HE _]|[HE _]]];
    rewrite HE in H1; simplify_eq.
  split; [done|]. rewrite <- (class_added_length _ _ _ _ _ Hca). by apply IH.
Qed.

Lemma load_library_inv st defs st' : wf_st st -> load_library st defs = Val st' -> defs_ok (length st) defs.
Proof.
  intros Hwf. unfold load_library. intros H.
  destruct (make_classes st defs) as [st1| | |] eqn:H1; try done. by eapply make_classes_inv.
Qed.

Lemma wf_initial : wf_st initial_classes.
Proof.
  constructor.
  - intros c supers L Hc. destruct c as [|c]; [|by destruct c]. cbn in Hc. injection Hc as <- <-.
    split; [intros s Hs; by apply elem_of_nil in Hs|]. constructor.
    + done.
    + apply NoDup_singleton.
    + intros x. rewrite elem_of_list_singleton. split; [by left|]. intros [->|(s & Hs & _)]; [done|].
      by apply elem_of_nil in Hs.
    + apply sublist_nil_l.
    + intros s Hs. by apply elem_of_nil in Hs.
  - eexists. split; [done|]. by split.
  - intros [|[|c]] ic H; cbn in H; simplify_eq. done.
  - intros [|[|c]] ic H; cbn in H; simplify_eq. cbn. repeat constructor.
  - intros [|[|e]] ie d id L1 L2 H; cbn in H; simplify_eq. cbn. intros Heq Hd Hd0.
    destruct L1 as [|? [|]]; cbn in Heq; simplify_eq.
  - intros [|[|e]] ie p ip q iq H; cbn in H; simplify_eq. cbn. intros Hp Hq Hip Hpp.
    apply elem_of_list_singleton in Hp as ->. cbn in Hip. by simplify_eq.
Qed.

(** One step: nothing, one class more, or a library more. *)
Lemma class_step_cases st op : wf_st st ->
  class_step st op = st \/
  (exists supers prim L, op = MakeClass supers prim /\ make_class st supers prim = Val (class_step st op) /\
     Linearization (supers_table st) (cpl_of st) (length st) supers L /\
     class_added st (class_step st op) supers prim L /\ wf_st (class_step st op)) \/
  (exists defs tb, op = LoadLibrary defs /\ load_library st defs = Val (class_step st op) /\
     wf_st (class_step st op) /\ cores (class_step st op) = cores st ++ tb /\
     (exists st1, make_classes st defs = Val st1 /\ same_classes st1 (class_step st op)) /\
     (joint_inv st -> joint_inv (class_step st op))).
Proof.
  intros Hwf. unfold class_step. destruct op as [defs|supers prim].
  - destruct (load_library st defs) as [st'| | |] eqn:HE; [|by left..].
    pose proof (load_library_inv _ _ _ Hwf HE) as Hok.
    destruct (load_library_spec st defs Hwf Hok) as [(st2 & tb & HE2 & ? & ? & ? & ?)|[HE2|HE2]];
      rewrite HE2 in HE; simplify_eq. right. right. by exists defs, tb.
  - destruct (make_class st supers prim) as [st'| | |] eqn:HE; [|by left..].
    pose proof (make_class_inv _ _ _ _ HE) as Hok.
    destruct (make_class_spec st supers prim Hwf Hok) as [(st2 & L & HE2 & ? & ? & ?)|[[HE2 _]|[HE2 _]]];
      rewrite HE2 in HE; simplify_eq. right. left. by exists supers, prim, L.
Qed.

Lemma run_classes_snoc ops op : run_classes (ops ++ [op]) = class_step (run_classes ops) op.
Proof. unfold run_classes. by rewrite fold_left_app. Qed.

Lemma run_classes_wf ops : wf_st (run_classes ops).
Proof.
  induction ops as [|op ops IH] using rev_ind; [apply wf_initial|].
  rewrite run_classes_snoc.
  destruct (class_step_cases _ op IH) as [->|[(? & ? & ? & ? & ? & ? & ? & ?)|(? & ? & ? & ? & ? & ?)]]; done.
Qed.

(** Histories that only load libraries keep the joint sets complete. *)

Lemma run_classes_joint ops : Forall is_load ops -> joint_inv (run_classes ops).
Proof.
  induction ops as [|op ops IH] using rev_ind; intros Hl.
  - intros a b e Ha Hb Hab. exfalso. apply Hab.
    assert (Hac : acyclic (supers_table (run_classes []))) by (rewrite supers_table_cores; apply wf_acyclic, wf_initial).
    pose proof (Inherits_lt _ _ _ Ha) as He. cbn in He.
    apply Inherits_le in Ha; [|done]. pose proof (Inherits_lt_r _ _ _ Hb) as Hbl.
    apply Inherits_le in Hb; [|done].
    assert (a = 0) as -> by lia. assert (b = 0) as -> by lia. by apply inherits_refl.
  - apply Forall_app in Hl as [Hl Hop]. apply Forall_inv in Hop. rewrite run_classes_snoc.
    destruct (class_step_cases _ op (run_classes_wf ops)) as [->|[(? & ? & ? & -> & _)|(? & ? & ? & ? & ? & ? & ? & Hj)]].
    + by apply IH.
    + done.
    + by apply Hj, IH.
Qed.

(** Histories in which every class has a direct superclass keep <object> at the root. *)
Definition rooted (st : cstate) : Prop := forall c, c < length st -> rooted_at st c.

Lemma rooted_cores st st' : cores st' = cores st -> rooted st -> rooted st'.
Proof.
  intros Hc Hr c Hl. unfold rooted_at. rewrite cpl_of_cores, Hc, <- cpl_of_cores. apply Hr.
  rewrite <- cores_length, <- Hc. by rewrite cores_length.
Qed.

Lemma rooted_add st st' supers prim L :
  wf_st st -> rooted st -> supers <> [] -> (forall s, s ∈ supers -> s < length st) ->
  Linearization (supers_table st) (cpl_of st) (length st) supers L ->
  class_added st st' supers prim L -> rooted st'.
Proof.
  intros Hwf Hr Hne Hlt HL Hca c Hc. rewrite (class_added_length _ _ _ _ _ Hca) in Hc.
  unfold rooted_at. rewrite cpl_of_cores, (ca_cores _ _ _ _ _ Hca). unfold tcpl.
  destruct (decide (c < length st)) as [Hlo|Hhi].
  { rewrite lookup_app_l by (by rewrite cores_length). change (last (tcpl (cores st) c) = Some 0).
    rewrite <- cpl_of_cores. by apply Hr. }
  assert (c = length st) as -> by lia.
  rewrite lookup_app_r, cores_length, Nat.sub_diag by (by rewrite cores_length). cbn.
  destruct supers as [|s supers]; [done|].
  assert (HsL : s ∈ L).
  { apply (lin_members _ _ _ _ _ HL). right. exists s. split; [left|]. apply inherits_refl.
    rewrite supers_table_length. apply Hlt. left. }
  destruct (last L) as [z|] eqn:Hz; [|apply last_None in Hz; subst L; by apply elem_of_nil in HsL].
  apply last_Some in Hz as [L' HeqL].
  assert (HzL : z ∈ L) by (rewrite HeqL, elem_of_app, elem_of_list_singleton; by right).
  apply (lin_members _ _ _ _ _ HL) in HzL as [->|(t & Ht & Hi)].
  { pose proof (lin_head _ _ _ _ _ HL) as Hh. pose proof (lin_once _ _ _ _ _ HL) as Hnd.
    rewrite HeqL in Hh, Hnd, HsL. destruct L' as [|y L'].
    - apply elem_of_list_singleton in HsL. assert (s < length st) by (apply Hlt; left). lia.
    - cbn in Hh. injection Hh as ->. cbn in Hnd. apply NoDup_cons in Hnd as [Hn _].
      destruct Hn. rewrite elem_of_app, elem_of_list_singleton. by right. }
  assert (Hzl : z < length st) by (rewrite <- supers_table_length; by eapply Inherits_lt_r).
  assert (Hk : sublist (cpl_of st z) L).
  { etrans; [|apply (lin_monotone _ _ _ _ _ HL t Ht)]. rewrite !cpl_of_cores.
    apply tcpl_monotone; [apply Hwf|rewrite cores_length; by apply Hlt|].
    apply tcpl_members; [apply Hwf|rewrite cores_length; by apply Hlt|]. by rewrite <- supers_table_cores. }
  destruct (tcpl_head _ (ws_tab _ Hwf) z) as [tz Htz]; [by rewrite cores_length|].
  rewrite <- cpl_of_cores in Htz. rewrite Htz in Hk.
  pose proof (sublist_cons_split _ _ _ (lin_once _ _ _ _ _ HL) Hk _ _ HeqL) as Hk2.
  apply sublist_nil_r in Hk2 as ->.
  specialize (Hr z Hzl). unfold rooted_at in Hr. by rewrite Htz in Hr.
Qed.

Lemma rooted_make_classes st defs st' : wf_st st -> rooted st ->
  Forall (fun d => fst d <> []) defs -> make_classes st defs = Val st' -> rooted st'.
Proof.
  revert st. induction defs as [|[supers prim] defs IH]; intros st Hwf Hr Hf H.
  { cbn in H. by simplify_eq. }
  cbn [make_classes] in H. apply Forall_cons in Hf as [Hne Hf].
  destruct (make_class st supers prim) as [st1| | |] eqn:H1; try done. cbn [obind] in H.
  pose proof (make_class_inv _ _ _ _ H1) as Hs.
  destruct (make_class_spec st supers prim Hwf Hs) as [(st1' & L & HE & Hwf1 & HL & Hca)|[[HE _]|[HE _]]];
    rewrite HE in H1; simplify_eq.
  cbn in Hne; eapply (IH st1); [done| |done|done]. eapply (rooted_add st _ supers prim L); done.
Qed.

Lemma run_classes_rooted ops : Forall rooted_op ops -> rooted (run_classes ops).
Proof.
  induction ops as [|op ops IH] using rev_ind; intros Hl.
  { intros c Hc. cbn in Hc. by assert (c = 0) as -> by lia. }
  apply Forall_app in Hl as [Hl Hop]. apply Forall_inv in Hop. rewrite run_classes_snoc.
  specialize (IH Hl). pose proof (run_classes_wf ops) as Hwf.
  destruct (class_step_cases _ op Hwf)
    as [->|[(supers & prim & L & -> & HE & HL & Hca & _)|(defs & tb & -> & HE & _ & _ & (st1 & H1 & Hsame) & _)]].
  - done.
  - eapply rooted_add; try done. by eapply make_class_inv.
  - eapply rooted_cores; [by apply same_classes_cores|]. by eapply rooted_make_classes.
Qed.

(** *** Adding several positions at once *)

Lemma filter_not_cons (o : Z) (os l : list Z) : o ∉ l ->
  filter (fun p => p ∉ o :: os) l = filter (fun p => p ∉ os) l.
Proof.
  induction l as [|x l IH]; intros H; [done|]. apply not_elem_of_cons in H as [Hx H].
  destruct (decide (x ∈ os)) as [Hin|Hin].
  - rewrite !filter_cons_False; [by apply IH|tauto|]. rewrite elem_of_cons. tauto.
  - rewrite !filter_cons_True; [f_equal; by apply IH|tauto|]. rewrite elem_of_cons.
    intros [?|?]; congruence.
Qed.

Lemma merge_positions_ok fuel base ps os room :
  StronglySorted Z.lt ps -> StronglySorted Z.lt os -> base ∉ ps ->
  room = length os + length (filter (fun p => p ∉ os) ps) ->
  length ps + length os < fuel ->
  exists r, merge_positions fuel base room ps os = Val r /\ StronglySorted Z.lt r /\
    forall x, x ∈ r <-> x ∈ ps \/ x ∈ os.
Proof.
  revert ps os room. induction fuel as [|fuel IH]; intros ps os room Hps Hos Hb Hroom Hf; [lia|].
  cbn [merge_positions].
  destruct os as [|o os].
  - destruct ps as [|p ps].
    + cbn in Hroom. subst room. exists []. split; [done|]. split; [constructor|].
      intros x. rewrite elem_of_nil. tauto.
    + apply StronglySorted_inv in Hps as [Hps Hfa]. apply not_elem_of_cons in Hb as [Hpb Hb].
      rewrite filter_cons_True in Hroom by (by intros ?%elem_of_nil).
      cbn in Hroom. subst room.
      destruct (IH ps [] (length (filter (fun p => p ∉ []) ps)) Hps Hos Hb) as (r & HE & Hs & Hm).
      { done. }
      { cbn in *. lia. }
      rewrite HE. cbn. exists (p :: r). split; [done|]. split.
      * constructor; [done|]. rewrite Forall_forall in *. intros x Hx.
        apply Hm in Hx as [Hx|Hx]; [by apply Hfa|by apply elem_of_nil in Hx].
      * intros x. rewrite !elem_of_cons, Hm. tauto.
  - apply StronglySorted_inv in Hos as Hos2. destruct Hos2 as [Hos' Hfo].
    rewrite Forall_forall in Hfo.
    destruct ps as [|p ps].
    + cbn in Hroom. subst room. rewrite Nat.add_0_r.
      destruct (IH [] os (length os)) as (r & HE & Hs & Hm); [constructor|done| | | |].
      { by apply not_elem_of_nil. }
      { cbn. lia. }
      { cbn in *. lia. }
      rewrite HE. cbn. exists (o :: r). split; [done|]. split.
      * constructor; [done|]. rewrite Forall_forall in *. intros x Hx.
        apply Hm in Hx as [Hx|Hx]; [by apply elem_of_nil in Hx|by apply Hfo].
      * intros x. rewrite !elem_of_cons, Hm. tauto.
    + apply StronglySorted_inv in Hps as Hps2. destruct Hps2 as [Hps' Hfp].
      rewrite Forall_forall in Hfp. apply not_elem_of_cons in Hb as Hb2. destruct Hb2 as [Hpb Hb'].
      case_bool_decide as Hlt.
      * rewrite bool_decide_false by done.
        assert (Hp : p ∉ o :: os).
        { intros Hin. apply elem_of_cons in Hin as [?|Hin]; [lia|]. specialize (Hfo p Hin). lia. }
        rewrite filter_cons_True in Hroom by done. cbn [length] in Hroom.
        destruct room as [|room]; [lia|].
        destruct (IH ps (o :: os) room Hps' Hos Hb') as (r & HE & Hs & Hm).
        { cbn [length] in *. lia. }
        { cbn in *. lia. }
        rewrite HE. cbn. exists (p :: r). split; [done|]. split.
        -- constructor; [done|]. rewrite Forall_forall. intros x Hx.
           apply Hm in Hx as [Hx|Hx]; [by apply Hfp|].
           apply elem_of_cons in Hx as [->|Hx]; [done|]. specialize (Hfo x Hx). lia.
        -- intros x. rewrite (elem_of_cons r), (elem_of_cons ps), Hm. tauto.
      * cbn [length] in Hroom. destruct room as [|room]; [lia|].
        set (ps' := if bool_decide (o = p) then ps else p :: ps).
        assert (Hps2 : StronglySorted Z.lt ps' /\ base ∉ ps' /\ length ps' <= S (length ps) /\
          length (filter (fun p => p ∉ o :: os) (p :: ps)) = length (filter (fun p => p ∉ os) ps') /\
          (forall x, x ∈ ps' -> (o < x)%Z) /\ (forall x, x ∈ p :: ps <-> x ∈ ps' \/ (x = o /\ o = p))).
        { unfold ps'. case_bool_decide as Heq.
          - subst p. split; [done|]. split; [done|]. split; [lia|]. split.
            + rewrite filter_cons_False by (intros H; apply H; left).
              rewrite filter_not_cons; [done|]. intros Hin. specialize (Hfp o Hin). lia.
            + split; [done|]. intros x. rewrite elem_of_cons. tauto.
          - split; [done|]. split; [done|]. split; [cbn; lia|]. split.
            + rewrite filter_not_cons; [done|]. intros Hin.
              apply elem_of_cons in Hin as [?|Hin]; [done|]. specialize (Hfp o Hin). lia.
            + split; [|tauto]. intros x Hx. apply elem_of_cons in Hx as [->|Hx]; [lia|].
              specialize (Hfp x Hx). lia. }
        clearbody ps'. destruct Hps2 as (Hs' & Hb2 & Hl2 & Hfl & Hgt & Hmem).
        destruct (IH ps' os room Hs' Hos' Hb2) as (r & HE & Hs & Hm).
        { lia. }
        { cbn in *. lia. }
        rewrite HE. cbn. exists (o :: r). split; [done|]. split.
        -- constructor; [done|]. rewrite Forall_forall. intros x Hx.
           apply Hm in Hx as [Hx|Hx]; [by apply Hgt|by apply Hfo].
        -- intros x. rewrite Hmem, !elem_of_cons, Hm. destruct (decide (x = o)); tauto.
Qed.

Lemma augment_positions_multiple_ok ic ps :
  StronglySorted Z.lt (rcpl_position ic :: rcpl_others ic) -> StronglySorted Z.lt ps ->
  (forall p, p ∈ ps -> rcpl_position ic < p)%Z ->
  exists ic', augment_positions_multiple ic ps = Val ic' /\
    core ic' = core ic /\ rcpl_vector ic' = rcpl_vector ic /\ rcpl_position ic' = rcpl_position ic /\
    StronglySorted Z.lt (rcpl_position ic' :: rcpl_others ic') /\
    forall p, p ∈ rcpl_others ic' <-> p ∈ rcpl_others ic \/ p ∈ ps.
Proof.
  intros Hs Hps Habove. apply StronglySorted_inv in Hs as Hs2. destruct Hs2 as [Hos Hfo].
  assert (Hb : rcpl_position ic ∉ ps) by (intros Hin; specialize (Habove _ Hin); lia).
  unfold augment_positions_multiple.
  assert (Hn : length (filter (fun p => negb (position_known p ic)) ps)
             = length (filter (fun p => p ∉ rcpl_others ic) ps)).
  { clear Hps Habove. induction ps as [|p ps IH]; [done|].
    apply not_elem_of_cons in Hb as [Hpb Hb]. specialize (IH Hb).
    destruct (decide (p ∈ rcpl_others ic)) as [Hin|Hin].
    - assert (Hk : position_known p ic = true) by (apply position_known_true; by right).
      rewrite (filter_cons_False (fun p => p ∉ rcpl_others ic)) by tauto.
      rewrite filter_cons_False; [done|]. rewrite Hk; cbn; tauto.
    - assert (Hk : position_known p ic = false).
      { apply not_true_iff_false. rewrite position_known_true. intros [?|?]; congruence. }
      rewrite (filter_cons_True (fun p => p ∉ rcpl_others ic)) by done.
      rewrite filter_cons_True by (by rewrite Hk). cbn [length]. by rewrite IH. }
  rewrite Hn. case_bool_decide as Hpos.
  - destruct (merge_positions_ok (S (length ps + length (rcpl_others ic))) (rcpl_position ic) ps
      (rcpl_others ic) _ Hps Hos Hb eq_refl) as (r & HE & Hr & Hm); [lia|].
    rewrite HE. cbn. eexists. split; [done|]. cbn. split; [done|]. split; [done|]. split; [done|].
    split.
    + constructor; [done|]. rewrite Forall_forall in *. intros x Hx. apply Hm in Hx as [Hx|Hx]; auto.
    + intros p. rewrite Hm. tauto.
  - exists ic. repeat (split; [done|]). intros p. split; [tauto|]. intros [?|Hp]; [done|].
    destruct (decide (p ∈ rcpl_others ic)) as [?|Hnin]; [done|exfalso].
    apply Hpos. apply elem_of_list_split in Hp as (l1 & l2 & ->).
    rewrite filter_app, filter_cons_True, app_length by done. cbn. lia.
Qed.
