(** Decision procedures for the hypotheses of the dispatch theorems, used by their examples. *)
From Verif Require Import Base ClassModel ClassSpec TypeModel TypeSpec DispModel DispSpec.
From Coq Require Import ZifyBool ZifyNat.
Local Open Scope nat_scope.

Section world.
Context (W : world).

Definition int_rangeb (i : Z) : bool := ((-2305843009213693952 <=? i) && (i <? 2305843009213693952))%Z.
Definition wf_objb (x : obj) : bool :=
  match x with
  | OInt i => int_rangeb i
  | ODirect c _ | OOther c _ _ => (c <? length (w_classes W)) && negb (c =? w_integer W) && negb (c =? w_class W)
  | OClass c => c <? length (w_classes W)
  end.
Definition boundb (m : option Z) : bool := match m with Some m => int_rangeb m | None => true end.
Fixpoint wf_tyb (t : ty) : bool :=
  match t with
  | TClass c | TSubclass c => c <? length (w_classes W)
  | TSing o => wf_objb o
  | TUnion t1 t2 => wf_tyb t1 && wf_tyb t2
  | TLimInt mn mx => boundb mn && boundb mx &&
      match mn, mx with Some m, Some m' => (m <=? m')%Z | _, _ => true end
  end.
Fixpoint no_scb (t : ty) : bool :=
  match t with
  | TSubclass c => negb (c =? w_class W)
  | TUnion t1 t2 => no_scb t1 && no_scb t2
  | _ => true
  end.
Fixpoint simpleb (t : ty) : bool :=
  match t with
  | TSing (OOther c _ v) =>
      match w_equality W c with EqContent => false | _ => true end && match v with None => false | _ => true end
  | TUnion t1 t2 => simpleb t1 && simpleb t2
  | _ => true
  end.
Definition wf_specb (t : ty) : bool := wf_tyb t && simpleb t && no_scb t.

Lemma int_rangeb_ok i : int_rangeb i = true -> int_range i.
Proof. unfold int_rangeb, int_range. lia. Qed.
Lemma wf_objb_ok x : wf_objb x = true -> wf_obj W x.
Proof.
  destruct x; unfold wf_objb, wf_obj; try apply int_rangeb_ok;
    rewrite ?andb_true_iff, ?negb_true_iff, ?Nat.ltb_lt, ?Nat.eqb_neq; tauto.
Qed.
Lemma wf_tyb_ok t : wf_tyb t = true -> wf_ty W t.
Proof.
  induction t; cbn -[Nat.ltb].
  - apply Nat.ltb_lt.
  - apply wf_objb_ok.
  - rewrite andb_true_iff. intros [? ?]. auto.
  - rewrite !andb_true_iff. intros [[H1 H2] H3]. split; [|split].
    + intros m ->. by apply int_rangeb_ok.
    + intros m ->. by apply int_rangeb_ok.
    + intros m m' -> ->. lia.
  - apply Nat.ltb_lt.
Qed.
Lemma wf_specb_ok t : wf_specb t = true -> wf_specializer W t.
Proof.
  unfold wf_specb. rewrite !andb_true_iff. intros [[H1 H2] H3]. split; [by apply wf_tyb_ok|]. split.
  - clear H1 H3. induction t; try done.
    + destruct o as [| | |cl ? v]; try done. cbn in *. apply andb_true_iff in H2 as [? ?]. by destruct (w_equality W cl), v.
    + cbn in *. apply andb_true_iff in H2 as [? ?]. auto.
  - clear H1 H2. induction t; try done; cbn in *; [|lia]. apply andb_true_iff in H3 as [? ?]. auto.
Qed.

Fixpoint no_limb (t : ty) : bool :=
  match t with TLimInt _ _ => false | TUnion a b => no_limb a && no_limb b | _ => true end.
Fixpoint no_subb (t : ty) : bool :=
  match t with TSubclass _ => false | TUnion a b => no_subb a && no_subb b | _ => true end.
Lemma no_limb_ok t : no_limb t = true -> no_limint t.
Proof. induction t; try done. cbn. rewrite andb_true_iff. intros [? ?]. auto. Qed.
Lemma no_subb_ok t : no_subb t = true -> no_subclass t.
Proof. induction t; try done. cbn. rewrite andb_true_iff. intros [? ?]. auto. Qed.

Definition at_pos (ms : list meth) (i : nat) : list ty := omap (fun m => m_specs m !! i) ms.
Lemma at_pos_ok ms i t : specializers_at ms i t -> t ∈ at_pos ms i.
Proof. intros (m & Hm & Ht). unfold at_pos. apply elem_of_list_omap. by exists m. Qed.

Definition wf_methodb (n : nat) (m : meth) : bool := (length (m_specs m) =? n) && forallb wf_specb (m_specs m).
Definition wf_methodsb (n : nat) (ms : list meth) : bool :=
  forallb (wf_methodb n) ms &&
  forallb (fun i => forallb no_limb (at_pos ms i) || forallb no_subb (at_pos ms i)) (seq 0 n).
Lemma wf_methodb_ok n m : wf_methodb n m = true -> wf_method W n m.
Proof.
  unfold wf_methodb, wf_method. rewrite andb_true_iff, forallb_forall. intros [H1 H2]. split; [lia|].
  apply Forall_forall. intros t Ht. apply wf_specb_ok, H2. by apply elem_of_list_In.
Qed.
Lemma wf_methodsb_ok n ms : wf_methodsb n ms = true -> wf_methods W n ms.
Proof.
  unfold wf_methodsb. rewrite andb_true_iff, !forallb_forall. intros [H1 H2]. split.
  - apply Forall_forall. intros m Hm. apply wf_methodb_ok, H1. by apply elem_of_list_In.
  - intros i. destruct (decide (i < n)) as [Hi|Hi].
    + specialize (H2 i). rewrite in_seq, orb_true_iff, !forallb_forall in H2. destruct H2 as [H2|H2]; [lia|left|right];
      intros t Ht%at_pos_ok%elem_of_list_In; [apply no_limb_ok|apply no_subb_ok]; by apply H2.
    + left. intros t (m & Hm & Ht). exfalso. apply lookup_lt_Some in Ht.
      apply elem_of_list_In, H1 in Hm. apply wf_methodb_ok in Hm as [Hm _]. lia.
Qed.

Definition wf_argsb (g : gfun) (args : list obj) : bool := (length args =? g_nreq g) && forallb wf_objb args.
Lemma wf_argsb_ok g args : wf_argsb g args = true -> wf_args W g args.
Proof.
  unfold wf_argsb, wf_args. rewrite andb_true_iff, forallb_forall. intros [H1 H2]. split; [lia|].
  apply Forall_forall. intros t Ht. apply wf_objb_ok, H2. by apply elem_of_list_In.
Qed.

(** Plain specializers. *)
Definition false_subtype (u t : ty) : bool := match subtype W u t with Val false => true | _ => false end.
Definition partialb (u : ty) : bool := match u with TClass _ | TUnion _ _ => false | _ => true end.
Definition plain_unionb (t : ty) : bool :=
  (match t with TSubclass _ => true | _ => false end || no_subb t) &&
  forallb (fun u => forallb (fun t' => match t' with TClass d => negb (partialb u) || false_subtype u (TClass d) | _ => true end)
    (atoms t)) (atoms t).
Definition pairb (u1 u2 : ty) : bool :=
  match u1, u2 with
  | TSing (OInt _), TLimInt _ _ => false
  | TLimInt _ _, TLimInt _ _ =>
      match subtype W u1 u2 with Val false => true | _ => match subtype W u2 u1 with Val true => true | _ => false end end
  | TSing (ODirect c _), TSing (OOther c' _ _) => negb (c =? c')
  | _, _ => true
  end.
Definition plain_positionb (ms : list meth) (i : nat) : bool :=
  let ts := at_pos ms i in
  forallb plain_unionb ts &&
  forallb (fun t => forallb (fun t' => forallb (fun u1 => forallb (pairb u1) (atoms t')) (atoms t)) ts) ts.
Lemma plain_unionb_ok t : plain_unionb t = true -> plain_union W t.
Proof.
  unfold plain_unionb. rewrite andb_true_iff, orb_true_iff, forallb_forall. intros [H1 H2]. split.
  - destruct H1 as [H1|H1]; [left; destruct t; eauto; done|right; by apply no_subb_ok].
  - intros u d Hu Hd Hp. apply elem_of_list_In, H2 in Hu. rewrite forallb_forall in Hu.
    apply elem_of_list_In, Hu in Hd. unfold false_subtype in Hd. destruct u; try done; cbn -[subtype] in Hd;
      destruct (subtype W _ _) as [[]| | |]; done.
Qed.
Lemma plain_positionb_ok ms i : plain_positionb ms i = true -> plain_position W ms i.
Proof.
  unfold plain_positionb. rewrite andb_true_iff, !forallb_forall. intros [H1 H2].
  assert (HP : forall t t' u u', specializers_at ms i t -> specializers_at ms i t' -> u ∈ atoms t -> u' ∈ atoms t' -> pairb u u' = true).
  { intros t t' u u' Ht%at_pos_ok%elem_of_list_In Ht'%at_pos_ok%elem_of_list_In Hu%elem_of_list_In Hu'%elem_of_list_In.
    specialize (H2 t Ht). rewrite forallb_forall in H2. specialize (H2 t' Ht'). rewrite forallb_forall in H2.
    specialize (H2 u Hu). rewrite forallb_forall in H2. auto. }
  split; [|split; [|split]].
  - intros t Ht%at_pos_ok%elem_of_list_In. by apply plain_unionb_ok, H1.
  - intros t t' k u Ht Ht' Hu Hu'. specialize (HP _ _ _ _ Ht Ht' Hu Hu'). by destruct u.
  - intros t t' mn mx mn' mx' Ht Ht' Hu Hu' Hs. specialize (HP _ _ _ _ Ht Ht' Hu Hu'). cbn -[subtype] in HP. rewrite Hs in HP.
    by destruct (subtype W _ _) as [[]| | |].
  - intros t t' c k ident v Ht Ht' Hu Hu'. specialize (HP _ _ _ _ Ht Ht' Hu Hu'). cbn in HP. by rewrite Nat.eqb_refl in HP.
Qed.
Definition plain_methodsb (n : nat) (ms : list meth) : bool :=
  wf_methodsb n ms && bool_decide (NoDup (List.map m_id ms)) && forallb (plain_positionb ms) (seq 0 n).
Lemma plain_methodsb_ok n ms : plain_methodsb n ms = true -> plain_methods W n ms.
Proof.
  unfold plain_methodsb. rewrite !andb_true_iff, forallb_forall, bool_decide_eq_true. intros [[H1 H2] H3].
  apply wf_methodsb_ok in H1. constructor; [done| |].
  - by eapply NoDup_fmap_1.
  - intros i. destruct (decide (i < n)) as [Hi|Hi]; [apply plain_positionb_ok, H3, in_seq; lia|].
    assert (HN : forall t, ~ specializers_at ms i t).
    { intros t (m & Hm & Ht). apply lookup_lt_Some in Ht. destruct H1 as [H1 _]. rewrite Forall_forall in H1.
      destruct (H1 m Hm) as [Hl _]. lia. }
    split; [|split; [|split]]; intros; exfalso; eapply HN; eassumption.
Qed.
Definition plain_historyb (g : gfun) (evs : list event) : bool :=
  match g_methods g with [] => true | _ => false end &&
  forallb (fun i => i <? g_nreq g) (g_first g) && plain_methodsb (g_nreq g) (added evs) &&
  forallb (fun ev => match ev with Call a => wf_argsb g a | _ => true end) evs.
Lemma plain_historyb_ok g evs : plain_historyb g evs = true -> plain_history W g evs.
Proof.
  unfold plain_historyb. rewrite !andb_true_iff, !forallb_forall. intros [[[H1 H2] H3] H4]. constructor.
  - by destruct (g_methods g).
  - intros i Hi%elem_of_list_In. specialize (H2 i Hi). lia.
  - by apply plain_methodsb_ok.
  - intros a Ha%elem_of_list_In. apply wf_argsb_ok. by apply (H4 (Call a)).
Qed.
End world.
