(** Proofs about series of binary operators. *)
From Verif Require Import Base BinopModel BinopSpec.
From Coq Require Import ZArith Lia ZifyBool ZifyNat.
Local Open Scope outcome_scope.
Local Open Scope nat_scope.

(** ** The table *)

Lemma prec_level_lt o o' : (operator_precedence o < operator_precedence o') <-> level o < level o'.
Proof. destruct o, o'; cbn; lia. Qed.
Lemma prec_level_eq o o' : (operator_precedence o = operator_precedence o') <-> level o = level o'.
Proof. destruct o, o'; cbn; lia. Qed.
Lemma right_assoc_spec o : right_associative o = true <-> right_to_left o.
Proof. unfold right_to_left. destruct o; cbn; split; intros H; try tauto; try discriminate; destruct H; discriminate. Qed.
Lemma level_right o o' : level o = level o' -> right_to_left o <-> right_to_left o'.
Proof. rewrite <- !right_assoc_spec. destruct o, o'; cbn; intros H; try discriminate; tauto. Qed.
Lemma macro_spec o : macro_operator o = true <-> is_macro o.
Proof. unfold is_macro. destruct o; cbn; split; intros H; try tauto; try discriminate; destruct H as [H|[H|H]]; discriminate. Qed.

Lemma right_dec o : right_to_left o \/ ~ right_to_left o.
Proof. rewrite <- right_assoc_spec. destruct (right_associative o); [left|right]; congruence. Qed.

(** ** Trees *)

Lemma grouped_pos f : is_operand f \/ True -> grouped f -> frag_pos f = (first_pos f, last_pos f).
Proof. intros _. destruct f as [n p|o l r p|o l r p]; cbn; [by destruct p| |]; intros (_ & (_ & _ & ->) & _); reflexivity. Qed.

Lemma fold_words l o r : words (fold_frag l o r) = words l ++ WOp o :: words r.
Proof. unfold fold_frag. by destruct (macro_operator o). Qed.
Lemma fold_top l o r : top (fold_frag l o r) = Some o.
Proof. unfold fold_frag. by destruct (macro_operator o). Qed.
Lemma fold_first l o r : first_pos (fold_frag l o r) = first_pos l.
Proof. unfold fold_frag. by destruct (macro_operator o). Qed.
Lemma fold_last l o r : last_pos (fold_frag l o r) = last_pos r.
Proof. unfold fold_frag. by destruct (macro_operator o). Qed.

Lemma fold_grouped l o r :
  grouped l -> grouped r -> (forall o', top l = Some o' -> left_ok o' o) -> (forall o', top r = Some o' -> right_ok o' o) ->
  (first_pos l <= last_pos r)%Z -> grouped (fold_frag l o r).
Proof.
  intros Hl Hr Htl Htr Hp.
  assert (position_between l r = (first_pos l, last_pos r)) as Hpos.
  { unfold position_between. rewrite (grouped_pos l), (grouped_pos r) by auto. cbn.
    destruct (last_pos r <? first_pos l)%Z eqn:E; [lia | reflexivity]. }
  unfold fold_frag. rewrite Hpos. pose proof (macro_spec o) as Hm.
  destruct (macro_operator o); cbn; unfold node_ok; split_and!; auto; [by apply Hm|].
  intros Hi. apply Hm in Hi. discriminate.
Qed.

(** ** The stack *)

Definition left_fits (f : frag) (o : op) := forall o', top f = Some o' -> left_ok o' o.
Definition right_fits (f : frag) (o : op) := forall o', top f = Some o' -> right_ok o' o.

Fixpoint seq_words (s : bseq) : list word :=
  match s with
  | BOne f o a => words f ++ WOp o :: words a
  | BMore p o a => seq_words p ++ WOp o :: words a
  end.
Definition item_words (i : item) := match i with IFrag f => words f | ISeq s => seq_words s end.

(** Positions: every fragment on the stack starts before it ends, and before the next one. *)
Definition spans (from : Z) (f : frag) := (from <= first_pos f <= last_pos f)%Z.

Fixpoint ok_seq (from : Z) (s : bseq) : Prop :=
  match s with
  | BOne f o a => grouped f /\ left_fits f o /\ grouped a /\ right_fits a o /\ spans from f /\ spans (last_pos f) a
  | BMore p o a =>
      ok_seq from p /\ left_fits (barg p) o /\ right_ok o (bop p) /\ grouped a /\ right_fits a o /\ spans (last_pos (barg p)) a
  end.
Definition ok_item (from : Z) (i : item) : Prop :=
  match i with IFrag f => grouped f /\ spans from f | ISeq s => ok_seq from s end.

Fixpoint depth (s : bseq) : nat := match s with BOne _ _ _ => 1 | BMore p _ _ => S (depth p) end.
Definition item_depth (i : item) : nat := match i with IFrag _ => 0 | ISeq s => depth s end.
(** The fragment on top of the stack. *)
Definition lead (i : item) : frag := match i with IFrag f => f | ISeq s => barg s end.

Lemma ok_barg from s : ok_seq from s -> grouped (barg s) /\ right_fits (barg s) (bop s) /\ (first_pos (barg s) <= last_pos (barg s))%Z.
Proof. destruct s; cbn; unfold spans; intros; split_and!; try tauto; lia. Qed.
Lemma bop_set s f : bop (set_barg s f) = bop s.
Proof. by destruct s. Qed.
Lemma barg_set s f : barg (set_barg s f) = f.
Proof. by destruct s. Qed.
Lemma depth_set s f : depth (set_barg s f) = depth s.
Proof. by destruct s. Qed.
Lemma seq_words_set s f rest : words f = words (barg s) ++ rest -> seq_words (set_barg s f) = seq_words s ++ rest.
Proof. intros H. destruct s; cbn in *; rewrite H, <- app_assoc; reflexivity. Qed.

Lemma set_ok from s f :
  ok_seq from s -> grouped f -> right_fits f (bop s) -> first_pos f = first_pos (barg s) -> (first_pos f <= last_pos f)%Z ->
  ok_seq from (set_barg s f).
Proof. destruct s; cbn; unfold spans; intros Hs Hg Hr Hf Hl; split_and!; try tauto; lia. Qed.

Lemma fold_one_ok from s :
  ok_seq from s ->
  ok_item from (fold_one s) /\ item_words (fold_one s) = seq_words s /\ S (item_depth (fold_one s)) = depth s /\
  top (lead (fold_one s)) = Some (bop s) /\ last_pos (lead (fold_one s)) = last_pos (barg s).
Proof.
  destruct s as [f o a|p o a]; cbn [fold_one ok_seq ok_item item_words seq_words lead bop barg depth item_depth].
  - intros (Hf & Hlf & Ha & Hra & Hs1 & Hs2). unfold spans in *. split_and!.
    + apply fold_grouped; auto; lia.
    + rewrite fold_first; lia.
    + rewrite fold_first, fold_last; lia.
    + by rewrite fold_words.
    + done.
    + by rewrite fold_top.
    + by rewrite fold_last.
  - intros (Hp & Hlf & Hro & Ha & Hra & Hs2). destruct (ok_barg _ _ Hp) as (Hg & Hr & Hle). unfold spans in *. split_and!.
    + apply set_ok; auto.
      * apply fold_grouped; auto; lia.
      * intros o'. rewrite fold_top. intros [= <-]. done.
      * by rewrite fold_first.
      * rewrite fold_first, fold_last. lia.
    + apply seq_words_set, fold_words.
    + by rewrite depth_set.
    + by rewrite barg_set, fold_top.
    + by rewrite barg_set, fold_last.
Qed.

Lemma fold_test s new_op :
  ((operator_precedence new_op <? operator_precedence (bop s)) ||
   ((operator_precedence (bop s) =? operator_precedence new_op) && left_associative new_op)) = true <-> left_ok (bop s) new_op.
Proof.
  unfold left_ok, left_associative. rewrite <- prec_level_lt, <- prec_level_eq, <- right_assoc_spec.
  rewrite orb_true_iff, andb_true_iff, Nat.ltb_lt, Nat.eqb_eq.
  destruct (right_associative new_op); cbn; intuition congruence.
Qed.
Lemma shift_test s new_op :
  ((operator_precedence (bop s) <? operator_precedence new_op) ||
   ((operator_precedence (bop s) =? operator_precedence new_op) && negb (left_associative new_op))) = true <-> right_ok new_op (bop s).
Proof.
  unfold right_ok, left_associative. rewrite <- prec_level_lt, <- prec_level_eq.
  destruct (decide (operator_precedence (bop s) = operator_precedence new_op)) as [E|E].
  - pose proof (proj1 (prec_level_eq _ _) E) as E'. rewrite (level_right _ _ E'), <- right_assoc_spec.
    rewrite orb_true_iff, andb_true_iff, Nat.ltb_lt, Nat.eqb_eq.
    destruct (right_associative new_op); cbn; intuition congruence.
  - rewrite orb_true_iff, andb_true_iff, Nat.ltb_lt, Nat.eqb_eq. tauto.
Qed.
Lemma left_or_right o o' : left_ok o o' \/ right_ok o' o.
Proof.
  unfold left_ok, right_ok. destruct (decide (level o = level o')) as [E|E]; [|lia].
  destruct (right_dec o') as [H|H]; [right|left]; right; split; auto. by apply (level_right _ _ E).
Qed.
Lemma not_both o o' : left_ok o o' -> right_ok o' o -> False.
Proof.
  unfold left_ok, right_ok. intros [H|[E H]] [H'|[E' H']]; try lia. apply H. by apply (level_right _ _ E').
Qed.

Lemma fold_tighter_ok fuel : forall from i new_op,
  ok_item from i -> left_fits (lead i) new_op -> item_depth i < fuel ->
  exists i', fold_tighter fuel i (operator_precedence new_op) (left_associative new_op) = Val i' /\
    ok_item from i' /\ item_words i' = item_words i /\ left_fits (lead i') new_op /\ item_depth i' <= item_depth i /\
    last_pos (lead i') = last_pos (lead i) /\
    match i' with IFrag _ => True | ISeq s => right_ok new_op (bop s) end.
Proof.
  induction fuel as [|fuel IH]; intros from i new_op Hok Hfit Hd; [lia|]. cbn [fold_tighter]. destruct i as [f|s].
  - exists (IFrag f). split_and!; auto.
  - destruct (_ || _) eqn:E.
    + apply fold_test in E. destruct (fold_one_ok from s Hok) as (H1 & H2 & H3 & H4 & H5).
      destruct (IH from (fold_one s) new_op) as (i' & -> & ?).
      * done.
      * intros o'. rewrite H4. intros [= <-]. done.
      * cbn in Hd. lia.
      * exists i'. cbn [item_words lead]. rewrite H2 in *. rewrite H5 in *. cbn in *. intuition; lia.
    + exists (ISeq s). split_and!; auto. cbn. destruct (left_or_right (bop s) new_op) as [H|H]; [|done].
      apply fold_test in H. congruence.
Qed.

Lemma append_ok fuel from i new_op new_arg :
  ok_item from i -> is_operand (lead i) -> is_operand new_arg -> spans (last_pos (lead i)) new_arg -> item_depth i + 1 < fuel ->
  exists s, append_binop fuel i new_op new_arg = Val s /\ ok_seq from s /\
    seq_words s = item_words i ++ WOp new_op :: words new_arg /\ barg s = new_arg /\ depth s <= S (item_depth i).
Proof.
  intros Hok Hlead Harg Hsp Hd. destruct fuel as [|fuel]; [lia|]. cbn [append_binop].
  assert (right_fits new_arg new_op) as Hra by (by destruct new_arg).
  assert (grouped new_arg) as Hga by (by destruct new_arg).
  destruct i as [f|s].
  { eexists. split; [reflexivity|]. cbn in Hok, Hlead, Hsp. cbn. split_and!; try tauto; auto. by destruct f. }
  destruct (_ || _) eqn:E.
  { apply shift_test in E. eexists. split; [reflexivity|]. cbn in *. split_and!; auto. by destruct (barg s). }
  assert (left_ok (bop s) new_op) as Hlo.
  { destruct (left_or_right (bop s) new_op) as [H|H]; [done|]. apply shift_test in H. congruence. }
  destruct (fold_one_ok from s Hok) as (H1 & H2 & H3 & H4 & H5). cbn [item_depth lead item_words] in *.
  destruct (fold_tighter_ok fuel from (fold_one s) new_op H1) as (i' & Hi' & Ho & Hw & Hf & Hdd & Hl & Hr).
  { intros o'. rewrite H4. by intros [= <-]. }
  { lia. }
  rewrite Hi'. cbn [obind]. destruct fuel as [|fuel]; [lia|]. cbn [append_binop]. rewrite <- H2, <- Hw. rewrite <- H5, <- Hl in Hsp.
  destruct i' as [f'|s'].
  - eexists. split; [reflexivity|]. cbn in *. split_and!; try tauto; auto. lia.
  - apply shift_test in Hr as Hr'. rewrite Hr'. eexists. split; [reflexivity|]. cbn in *. split_and!; auto. lia.
Qed.

Fixpoint rest_words (rest : list (op * frag)) : list word :=
  match rest with [] => [] | (o, a) :: rest => WOp o :: words a ++ rest_words rest end.

Lemma guts_ok fuel from : forall rest i,
  ok_item from i -> is_operand (lead i) -> Forall (fun p => is_operand p.2) rest ->
  in_text_order (last_pos (lead i)) (map snd rest) -> item_depth i + length rest < fuel ->
  exists i', expression_guts fuel i rest = Val i' /\ ok_item from i' /\ item_words i' = item_words i ++ rest_words rest /\
    item_depth i' <= item_depth i + length rest.
Proof.
  induction rest as [|[o a] rest IH]; intros i Hok Hlead Hops Hord Hf; cbn [expression_guts rest_words].
  { exists i. rewrite app_nil_r. cbn. split_and!; auto. lia. }
  apply Forall_cons in Hops as [Ha Hops]. cbn in Ha. cbn [map snd in_text_order] in Hord. destruct Hord as [Hp Hord]. cbn [length] in Hf.
  assert (frag_pos a = (first_pos a, last_pos a)) as Hpa by (destruct a as [n [x y]| |]; cbn in *; tauto).
  rewrite Hpa in Hp, Hord. cbn in Hp, Hord.
  destruct (append_ok fuel from i o a Hok Hlead Ha) as (s & -> & Hs & Hw & Hb & Hds); [done | lia |]. cbn [obind].
  destruct (IH (ISeq s)) as (i' & -> & Hi' & Hw' & Hd'); cbn in *; [done | by rewrite Hb | done | by rewrite Hb | lia |].
  exists i'. split_and!; auto; [|lia]. rewrite Hw', Hw, <- app_assoc. reflexivity.
Qed.

Lemma binop_fragment_ok fuel : forall from i, ok_item from i -> item_depth i < fuel ->
  exists f, binop_fragment fuel i = Val f /\ grouped f /\ words f = item_words i.
Proof.
  induction fuel as [|fuel IH]; intros from i Hok Hd; [lia|]. cbn [binop_fragment]. destruct i as [f|s].
  { cbn in Hok. exists f. tauto. }
  destruct (fold_one_ok from s Hok) as (H1 & H2 & H3 & _). cbn in Hd.
  destruct (IH from (fold_one s) H1) as (f & -> & Hg & Hw); [lia|]. exists f. cbn. rewrite Hw, H2. auto.
Qed.

Lemma expression_ok fuel first rest :
  is_operand first -> Forall (fun p => is_operand p.2) rest -> in_text_order (frag_pos first).1 (first :: map snd rest) ->
  length rest < fuel ->
  exists f, expression fuel first rest = Val f /\ grouped f /\ words f = words first ++ rest_words rest.
Proof.
  intros Hf Hr Ho Hfuel. unfold expression. cbn [in_text_order] in Ho. destruct Ho as [Hp Ho].
  assert (frag_pos first = (first_pos first, last_pos first)) as Hpa by (destruct first as [n [x y]| |]; cbn in *; tauto).
  rewrite Hpa in Hp, Ho. cbn in Hp, Ho.
  destruct (guts_ok fuel (first_pos first) rest (IFrag first)) as (i & -> & Hi & Hw & Hd); cbn in *; auto.
  { split; [by destruct first | done]. }
  cbn [obind]. destruct (binop_fragment_ok fuel _ i Hi) as (f & -> & Hg & Hw'); [lia|].
  exists f. split_and!; auto. rewrite Hw', Hw. reflexivity.
Qed.

(** ** Uniqueness *)

Fixpoint ops (f : frag) : list op :=
  match f with
  | Operand _ _ => []
  | MacroCall o l r _ | OpCall o l r _ => ops l ++ o :: ops r
  end.

Lemma ops_words f o : WOp o ∈ words f -> o ∈ ops f.
Proof.
  induction f as [n p|o' l IHl r IHr p|o' l IHl r IHr p]; cbn; intros H; [by apply elem_of_list_singleton in H| |];
    apply elem_of_app in H; rewrite elem_of_app, elem_of_cons; rewrite elem_of_cons in H;
    destruct H as [H|[[= ->]|H]]; auto.
Qed.

Lemma left_ok_trans o1 o2 o3 : level o2 <= level o1 -> left_ok o2 o3 -> left_ok o1 o3.
Proof. unfold left_ok. intros H [H'|[E H']]; [left; lia|]. destruct (decide (level o3 = level o1)); [right; auto | left; lia]. Qed.
Lemma right_ok_trans o1 o2 o3 : level o2 <= level o1 -> right_ok o2 o3 -> right_ok o1 o3.
Proof. unfold right_ok. intros H [H'|[E H']]; [left; lia|]. destruct (decide (level o3 = level o1)); [right; auto | left; lia]. Qed.

Lemma grouped_level f : grouped f -> forall o t, o ∈ ops f -> top f = Some t -> level t <= level o.
Proof.
  assert (forall o' l r p (IHl : grouped l -> forall o t, o ∈ ops l -> top l = Some t -> level t <= level o)
     (IHr : grouped r -> forall o t, o ∈ ops r -> top r = Some t -> level t <= level o),
     node_ok o' l r p -> grouped l -> grouped r -> forall o, o ∈ ops l ++ o' :: ops r -> level o' <= level o) as Hstep.
  { intros o' l r p IHl IHr (Hl & Hr & _) Hgl Hgr o Ho. rewrite elem_of_app, elem_of_cons in Ho. destruct Ho as [Ho|[->|Ho]]; [| lia |].
    - destruct (top l) as [t|] eqn:E.
      + specialize (IHl Hgl o t Ho eq_refl). specialize (Hl t eq_refl). unfold left_ok in Hl. lia.
      + destruct l; cbn in E; try discriminate. by apply elem_of_nil in Ho.
    - destruct (top r) as [t|] eqn:E.
      + specialize (IHr Hgr o t Ho eq_refl). specialize (Hr t eq_refl). unfold right_ok in Hr. lia.
      + destruct r; cbn in E; try discriminate. by apply elem_of_nil in Ho. }
  induction f as [n p|o' l IHl r IHr p|o' l IHl r IHr p]; cbn; intros Hg o t Ho Ht; try discriminate;
    injection Ht as <-; destruct Hg as (_ & Hn & Hgl & Hgr); exact (Hstep o' l r p IHl IHr Hn Hgl Hgr o Ho).
Qed.

Lemma left_all l o : grouped l -> left_fits l o -> forall o', WOp o' ∈ words l -> left_ok o' o.
Proof.
  intros Hg Hf o' Ho. apply ops_words in Ho. destruct (top l) as [t|] eqn:E.
  - eapply left_ok_trans; [eapply grouped_level; eauto | by apply Hf].
  - destruct l; cbn in E; try discriminate. by apply elem_of_nil in Ho.
Qed.
Lemma right_all l o : grouped l -> right_fits l o -> forall o', WOp o' ∈ words l -> right_ok o' o.
Proof.
  intros Hg Hf o' Ho. apply ops_words in Ho. destruct (top l) as [t|] eqn:E.
  - eapply right_ok_trans; [eapply grouped_level; eauto | by apply Hf].
  - destruct l; cbn in E; try discriminate. by apply elem_of_nil in Ho.
Qed.

Lemma words_split {A} (l1 l2 r1 r2 : list A) a b : l1 ++ a :: r1 = l2 ++ b :: r2 ->
  (l1 = l2 /\ a = b /\ r1 = r2) \/ (b ∈ r1 /\ a ∈ l2) \/ (a ∈ r2 /\ b ∈ l1).
Proof.
  revert l2. induction l1 as [|x l1 IH]; intros [|y l2] H; cbn in H; injection H as H1 H2.
  - left. auto.
  - right. left. subst. split; [apply elem_of_app; right; left | left].
  - right. right. subst. split; [apply elem_of_app; right; left | left].
  - subst y. destruct (IH _ H2) as [(-> & -> & ->)|[[? ?]|[? ?]]]; [left; auto | right; left | right; right]; split; auto; by right.
Qed.

(** A fragment of any kind but an operand, seen as a node. *)
Definition node (m : bool) o l r p := if m then MacroCall o l r p else OpCall o l r p.
Lemma grouped_node m o l r p : grouped (node m o l r p) -> m = macro_operator o /\ node_ok o l r p /\ grouped l /\ grouped r.
Proof.
  pose proof (macro_spec o) as Hm. destruct m; cbn; intros (H & ? & ? & ?); split_and!; auto.
  - symmetry. by apply Hm.
  - destruct (macro_operator o); [|done]. exfalso. by apply H, Hm.
Qed.
Lemma words_node m o l r p : words (node m o l r p) = words l ++ WOp o :: words r.
Proof. by destruct m. Qed.

Lemma words_nonempty f : exists n p rest, words f = WOperand n p :: rest.
Proof. induction f as [n p|o l (n & p' & rest & E) r _ p|o l (n & p' & rest & E) r _ p]; cbn; [eauto| |]; rewrite E; cbn; eauto. Qed.

Lemma grouped_unique f : forall f', grouped f -> grouped f' -> words f = words f' -> f = f'.
Proof.
  assert (forall m o l r p f' (IHl : forall f', grouped l -> grouped f' -> words l = words f' -> l = f')
            (IHr : forall f', grouped r -> grouped f' -> words r = words f' -> r = f'),
     grouped (node m o l r p) -> grouped f' -> words (node m o l r p) = words f' -> node m o l r p = f') as Hstep.
  { intros m o l r p f' IHl IHr Hg Hg' Hw. rewrite words_node in Hw. destruct (grouped_node _ _ _ _ _ Hg) as (-> & (Hl & Hr & ->) & Hgl & Hgr).
    assert ((exists n p, f' = Operand n p) \/ exists m' o' l' r' p', f' = node m' o' l' r' p') as [(n & p' & ->)|(m' & o' & l' & r' & p' & ->)].
    { destruct f' as [n p'|o' l' r' p'|o' l' r' p']; [left; eauto | right; exists true; eauto 10 | right; exists false; eauto 10]. }
    { cbn in Hw. destruct (words_nonempty l) as (? & ? & rest & E). rewrite E in Hw. cbn in Hw. injection Hw as _ _ Hw. by destruct rest. }
    rewrite words_node in Hw. destruct (grouped_node _ _ _ _ _ Hg') as (-> & (Hl' & Hr' & ->) & Hgl' & Hgr').
    destruct (words_split _ _ _ _ _ _ Hw) as [(E1 & [= <-] & E2)|[[H1 H2]|[H1 H2]]].
    - rewrite (IHl l' Hgl Hgl' E1), (IHr r' Hgr Hgr' E2). reflexivity.
    - exfalso. apply (not_both o o'); [exact (left_all l' o' Hgl' Hl' _ H2) | exact (right_all r o Hgr Hr _ H1)].
    - exfalso. apply (not_both o' o); [exact (left_all l o Hgl Hl _ H2) | exact (right_all r' o' Hgr' Hr' _ H1)]. }
  induction f as [n p|o l IHl r IHr p|o l IHl r IHr p]; intros f' Hg Hg' Hw.
  - destruct f' as [n' p'|o' l' r' p'|o' l' r' p']; cbn in Hw; [by injection Hw as -> ->| |];
      destruct (words_nonempty l') as (? & ? & rest & E); rewrite E in Hw; cbn in Hw; injection Hw as _ _ Hw; by destruct rest.
  - apply (Hstep true o l r p); auto.
  - apply (Hstep false o l r p); auto.
Qed.
