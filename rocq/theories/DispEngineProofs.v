(** The dispatch engine: what holds of every node, whatever calls have been made. *)
From stdpp Require Import list_numbers.
From Verif Require Import Base ClassModel ClassSpec ClassProofs TypeModel TypeSpec TypeProofs
  DispModel DispSpec DispProofs DispSortProofs DispTermProofs DispUniformProofs DispClassProofs.
From Coq Require Import ZifyBool ZifyNat Sorted.
Local Open Scope outcome_scope.
Local Open Scope nat_scope.

(** ** Lists of positions *)

Notation ascending := (StronglySorted lt).

Lemma argnum_considered_ok i l : ascending l -> argnum_considered i l = true <-> i ∈ l.
Proof.
  induction l as [|j l IH]; cbn -[Nat.ltb Nat.eqb]; intros Hs.
  - split; [done|]. intros H. by apply elem_of_nil in H.
  - apply StronglySorted_inv in Hs as [Hs Hj]. rewrite Forall_forall in Hj. rewrite elem_of_cons.
    destruct (Nat.eqb_spec j i) as [->|E]; [tauto|].
    destruct (Nat.ltb_spec i j) as [L|L].
    + split; [done|]. intros [->|H]; [done|]. apply Hj in H. lia.
    + rewrite (IH Hs). split; [auto|]. intros [->|?]; done.
Qed.
Lemma add_argnum_in i l k : k ∈ add_argnum i l <-> k = i \/ k ∈ l.
Proof.
  induction l as [|j l IH]; cbn -[Nat.ltb Nat.eqb].
  - by rewrite elem_of_list_singleton, elem_of_nil; tauto.
  - destruct (Nat.eqb_spec j i) as [->|E]; [rewrite elem_of_cons; tauto|].
    destruct (Nat.ltb_spec i j) as [L|L]; rewrite !elem_of_cons; [tauto|]. rewrite IH. tauto.
Qed.
Lemma add_argnum_ascending i l : ascending l -> ascending (add_argnum i l).
Proof.
  induction l as [|j l IH]; cbn -[Nat.ltb Nat.eqb]; intros Hs; [repeat constructor|].
  destruct (Nat.eqb_spec j i) as [->|E]; [done|].
  destruct (Nat.ltb_spec i j) as [L|L].
  - constructor; [done|]. apply StronglySorted_inv in Hs as [Hs Hj]. constructor; [done|].
    eapply Forall_impl; [exact Hj|]. cbn. lia.
  - apply StronglySorted_inv in Hs as [Hs Hj]. constructor; [by apply IH|]. rewrite Forall_forall in *.
    intros k [->|H]%add_argnum_in; [lia|by apply Hj].
Qed.
Lemma add_argnum_length i l : i ∉ l -> length (add_argnum i l) = S (length l).
Proof.
  induction l as [|j l IH]; cbn -[Nat.ltb Nat.eqb]; intros Hs; [done|]. rewrite elem_of_cons in Hs.
  destruct (Nat.eqb_spec j i) as [->|E]; [tauto|]. destruct (i <? j); cbn; [done|]. rewrite IH; tauto.
Qed.
Lemma next_free_ok l : forall k, ascending l -> (forall j, j ∈ l -> k <= j) ->
  next_free k l ∉ l /\ k <= next_free k l /\ (forall j, k <= j -> j < next_free k l -> j ∈ l).
Proof.
  induction l as [|j l IH]; cbn [next_free]; intros k Hs Hk.
  - split; [apply not_elem_of_nil|]. split; [done|]. lia.
  - apply StronglySorted_inv in Hs as [Hs Hj]. rewrite Forall_forall in Hj.
    assert (k <= j) by (apply Hk; by apply elem_of_cons; auto).
    destruct (Nat.eqb_spec j k) as [->|E].
    + destruct (IH (S k) Hs) as (H1 & H2 & H3); [intros j' H'; apply Hj in H'; lia|].
      split; [rewrite elem_of_cons; intros [?|?]; [lia|done]|]. split; [lia|].
      intros j' ? ?. rewrite elem_of_cons. destruct (decide (j' = k)); [by left|]. right. apply H3; lia.
    + split; [|split; [done|lia]]. rewrite elem_of_cons. intros [->|H']; [done|]. apply Hj in H'. lia.
Qed.
Lemma moop_ok l S : ascending S -> match moop l S with
  | Some (i, l') => i ∈ l /\ i ∉ S /\ forall j, j ∈ l' -> j ∈ l
  | None => True end.
Proof.
  intros Hs. induction l as [|i l IH]; cbn; [done|].
  destruct (argnum_considered i S) eqn:E.
  - destruct (moop l S) as [[j l']|]; [|done]. destruct IH as (? & ? & ?). rewrite elem_of_cons. split; [auto|].
    split; [done|]. intros k ?. rewrite elem_of_cons. auto.
  - split; [by apply elem_of_cons; left|]. split; [|done]. intros H. apply argnum_considered_ok in H; [congruence|done].
Qed.
Lemma ascending_bound l n : ascending l -> (forall i, i ∈ l -> i < n) -> length l <= n.
Proof.
  intros Hs Hn. assert (Hnd : NoDup l).
  { induction l as [|j l IH]; [constructor|]. apply StronglySorted_inv in Hs as [Hs Hj]. rewrite Forall_forall in Hj.
    constructor; [|apply IH; [done|]; intros; apply Hn; apply elem_of_cons; auto]. intros H. apply Hj in H. lia. }
  rewrite <- (seq_length n 0). apply submseteq_length, NoDup_submseteq; [done|].
  intros i Hi. apply elem_of_seq. apply Hn in Hi. lia.
Qed.

Section gf.
Context (W : world) (HW : wf_world W) (g : gfun) (PG : plain_gf W g).
Local Notation n := (g_nreq g).
Local Notation MS := (g_methods g).
Local Notation st := (w_classes W).
Local Notation T := (supers_table st).
Local Notation region := (list obj -> Prop).

Definition spc (m : meth) (i : nat) : ty := default (TClass object_class) (m_specs m !! i).
Definition ag (a : list obj) (i : nat) : obj := default (OInt 0) (a !! i).
Definition keeps (S : list nat) (a : list obj) (m : meth) : bool := forallb (fun i => instb W (ag a i) (spc m i)) S.
Definition rem (S : list nat) (a : list obj) : list meth := List.filter (keeps S a) MS.

Lemma spc_lookup m i : m ∈ MS -> i < n -> m_specs m !! i = Some (spc m i).
Proof.
  intros Hm Hi. destruct (pg_methods W g PG) as [Hw _]. rewrite Forall_forall in Hw. destruct (Hw m Hm) as [Hl _].
  unfold spc. destruct (lookup_lt_is_Some_2 (m_specs m) i) as [t ->]; [lia|done].
Qed.
Lemma spec_at_ok m i : m ∈ MS -> i < n -> spec_at m i = Val (spc m i).
Proof. intros Hm Hi. unfold spec_at, vread. by rewrite (spc_lookup m i Hm Hi). Qed.
Lemma spc_at m i : m ∈ MS -> i < n -> specializers_at MS i (spc m i).
Proof. intros Hm Hi. exists m. split; [done|]. by apply spc_lookup. Qed.
Lemma spc_wf m i : m ∈ MS -> i < n -> wf_specializer W (spc m i).
Proof.
  intros Hm Hi. destruct (pg_methods W g PG) as [Hw _]. rewrite Forall_forall in Hw. destruct (Hw m Hm) as [_ Hs].
  eapply Forall_lookup_1; [exact Hs|]. by apply spc_lookup.
Qed.
Lemma spc_plain m i : m ∈ MS -> i < n -> plain_union W (spc m i).
Proof. intros Hm Hi. apply (pg_plain W g PG i). by apply spc_at. Qed.
Lemma spc_comparable m1 m2 i : m1 ∈ MS -> m2 ∈ MS -> i < n -> comparable W (spc m1 i) (spc m2 i).
Proof.
  intros H1 H2 Hi. split; [by apply spc_wf|]. split; [by apply spc_wf|].
  destruct (pg_methods W g PG) as [_ Hu]. destruct (Hu i) as [H|H]; [left|right]; split; apply H; by apply spc_at.
Qed.
Lemma ag_lookup a i : wf_args W g a -> i < n -> a !! i = Some (ag a i).
Proof. intros [Hl _] Hi. unfold ag. destruct (lookup_lt_is_Some_2 a i) as [t ->]; [lia|done]. Qed.
Lemma arg_at_ok a i : wf_args W g a -> i < n -> arg_at a i = Val (ag a i).
Proof. intros Ha Hi. unfold arg_at, vread. by rewrite (ag_lookup a i Ha Hi). Qed.
Lemma ag_wf a i : wf_args W g a -> i < n -> wf_obj W (ag a i).
Proof. intros Ha Hi. destruct Ha as [Hl Hw]. eapply Forall_lookup_1; [exact Hw|]. by apply ag_lookup. Qed.
Lemma ag_class a i : wf_args W g a -> i < n -> class_of W (ag a i) < length st.
Proof. intros Ha Hi. apply (class_of_lt W HW). by apply ag_wf. Qed.

Lemma keeps_iff S a m : keeps S a m = true <-> forall i, i ∈ S -> instb W (ag a i) (spc m i) = true.
Proof. unfold keeps. rewrite forallb_forall. by setoid_rewrite elem_of_list_In. Qed.
Lemma rem_in S a m : m ∈ rem S a <-> m ∈ MS /\ forall i, i ∈ S -> instb W (ag a i) (spc m i) = true.
Proof. unfold rem. rewrite elem_of_list_In, filter_In, <- elem_of_list_In, keeps_iff. done. Qed.
Lemma rem_MS S a m : m ∈ rem S a -> m ∈ MS.
Proof. rewrite rem_in. tauto. Qed.
Lemma rem_ext S S' a : (forall i, i ∈ S <-> i ∈ S') -> rem S a = rem S' a.
Proof.
  intros H. unfold rem. apply filter_ext. intros m. apply eq_true_iff_eq. rewrite !keeps_iff. by setoid_rewrite H.
Qed.
Lemma rem_cons i S a : List.filter (fun m => instb W (ag a i) (spc m i)) (rem S a) = rem (i :: S) a.
Proof.
  unfold rem. induction MS as [|m l IH]; [done|]. cbn [List.filter keeps forallb].
  fold (keeps S a m). destruct (keeps S a m); cbn [List.filter].
  - rewrite andb_true_r. destruct (instb _ _ _); by rewrite IH.
  - by rewrite andb_false_r.
Qed.
Lemma rem_cons_in i S a m : m ∈ rem (i :: S) a <-> m ∈ rem S a /\ instb W (ag a i) (spc m i) = true.
Proof. rewrite <- rem_cons, elem_of_list_In, filter_In, <- elem_of_list_In. done. Qed.
Lemma rem_nil_all S a : rem S a = [] -> (forall i, i ∈ S -> i < n) -> rem (seq 0 n) a = [].
Proof.
  intros H HS. destruct (rem (seq 0 n) a) as [|m l] eqn:E; [done|]. exfalso.
  assert (Hm : m ∈ rem (seq 0 n) a) by (rewrite E; by apply elem_of_cons; left).
  apply rem_in in Hm as [Hm Hk]. assert (m ∈ rem S a); [|rewrite H in *; by eapply elem_of_nil].
  apply rem_in. split; [done|]. intros i Hi. apply Hk. apply elem_of_seq. apply HS in Hi. lia.
Qed.

(** ** Regions of argument lists that discrimination has not told apart *)

Definition uniform (R : region) (S : list nat) : Prop :=
  forall a a', R a -> R a' -> rem S a = rem S a' /\
    forall i m1 m2, i ∈ S -> m1 ∈ rem S a -> m2 ∈ rem S a -> osame W (ag a i) (ag a' i) (spc m1 i) (spc m2 i).
Definition okr (R : region) : Prop := forall a, R a -> wf_args W g a.

Lemma uniform_mono (R R' : region) S : (forall a, R' a -> R a) -> uniform R S -> uniform R' S.
Proof. intros H U a a' Ha Ha'. apply U; auto. Qed.
Lemma uniform_ext R S S' : (forall i, i ∈ S <-> i ∈ S') -> uniform R S -> uniform R S'.
Proof.
  intros H U a a' Ha Ha'. destruct (U a a' Ha Ha') as [H1 H2]. rewrite <- !(rem_ext S S') by done. split; [done|].
  intros i m1 m2 Hi. apply H2. by apply H.
Qed.
Lemma uniform_nil R : uniform R [].
Proof. intros a a' _ _. split; [done|]. intros i m1 m2 Hi. by apply elem_of_nil in Hi. Qed.

Lemma filter_eq {A} (f h : A -> bool) l : (forall x, x ∈ l -> f x = h x) -> List.filter f l = List.filter h l.
Proof.
  induction l as [|x l IH]; intros H; cbn; [done|]. rewrite (H x), IH; [done| |by apply elem_of_cons; left].
  intros y Hy. apply H. apply elem_of_cons. auto.
Qed.

Lemma uniform_step R S i : uniform R S ->
  (forall a a' m, R a -> R a' -> m ∈ rem S a -> instb W (ag a i) (spc m i) = instb W (ag a' i) (spc m i)) ->
  (forall a a' m1 m2, R a -> R a' -> m1 ∈ rem (i :: S) a -> m2 ∈ rem (i :: S) a ->
     osame W (ag a i) (ag a' i) (spc m1 i) (spc m2 i)) -> uniform R (i :: S).
Proof.
  intros U H1 H2 a a' Ha Ha'. destruct (U a a' Ha Ha') as [E O]. split.
  - rewrite <- !rem_cons, <- E. apply filter_eq. intros m Hm. by apply H1.
  - intros j m1 m2 [->|Hj]%elem_of_cons M1 M2; [by apply H2|]. apply rem_cons_in in M1 as [M1 _], M2 as [M2 _]. by apply O.
Qed.

Lemma uniform_same R S i : uniform R S -> (forall a a', R a -> R a' -> ag a i = ag a' i) -> uniform R (i :: S).
Proof.
  intros U H. apply uniform_step; [done|..].
  - intros a a' m Ha Ha' _. by rewrite (H a a').
  - intros a a' m1 m2 Ha Ha' _ _. rewrite (H a a') by done. apply osame_refl.
Qed.

(** The atoms of every specializer agree, or the specializer has no instance here. *)
Lemma uniform_atoms R S i : okr R -> i < n -> uniform R S ->
  (forall a a', R a -> R a' -> class_of W (ag a i) = class_of W (ag a' i) /\ forall m, m ∈ rem S a ->
     (forall u, u ∈ atoms (spc m i) -> (Inst W (ag a i) u <-> Inst W (ag a' i) u)) /\
       (forall d, TSubclass d ∈ atoms (spc m i) -> d = object_class) \/
     (~ Inst W (ag a i) (spc m i) /\ ~ Inst W (ag a' i) (spc m i))) ->
  uniform R (i :: S).
Proof.
  intros Hok Hi U H.
  assert (Hw : forall a, R a -> wf_obj W (ag a i)) by (intros a Ha; apply ag_wf; auto).
  apply uniform_step; [done|..].
  - intros a a' m Ha Ha' Hm. destruct (H a a' Ha Ha') as [_ Hmm].
    destruct (spc_wf m i) as (Wm & _); [by eapply rem_MS|done|].
    apply (instb_eq W HW); [auto|auto|done|].
    destruct (Hmm m Hm) as [[Hat _]|[N1 N2]]; [|tauto].
    rewrite !inst_atoms. split; intros (u & Hu & Hx); exists u; (split; [done|]); by apply Hat.
  - intros a a' m1 m2 Ha Ha' M1 M2. destruct (H a a' Ha Ha') as [Hc Hmm].
    apply rem_cons_in in M1 as [M1 I1], M2 as [M2 I2].
    destruct (spc_wf m1 i) as (W1 & _ & _); [by eapply rem_MS|done|].
    destruct (spc_wf m2 i) as (W2 & _ & _); [by eapply rem_MS|done|].
    rewrite (instb_true W HW) in I1, I2 by auto.
    destruct (Hmm m1 M1) as [[A1 S1]|[N1 _]]; [|done]. destruct (Hmm m2 M2) as [[A2 S2]|[N2 _]]; [|done].
    apply (osame_agree W (ag a i) (ag a' i) (atoms (spc m1 i) ++ atoms (spc m2 i))); [done| | |done].
    + intros u Hu. assert (Wu : wf_ty W u).
      { apply elem_of_app in Hu as [Hu|Hu]; eapply atoms_wf in Hu; try (by apply spc_wf; [eapply rem_MS|]); apply Hu. }
      rewrite !(instance_b W HW) by auto. f_equal. apply (instb_eq W HW); auto.
      apply elem_of_app in Hu as [Hu|Hu]; auto.
    + right. intros c1 c2. rewrite !elem_of_app. intros [C1|C1] [C2|C2];
        repeat match goal with
        | X : TSubclass _ ∈ atoms (spc m1 i) |- _ => apply S1 in X
        | X : TSubclass _ ∈ atoms (spc m2 i) |- _ => apply S2 in X end; congruence.
Qed.

(** A class on which no atom depends. *)
Lemma uniform_flat R S i c : okr R -> i < n -> uniform R S -> (forall a, R a -> class_of W (ag a i) = c) ->
  (forall a m, R a -> m ∈ rem S a -> flat_on W c (spc m i) \/ none_of W c (spc m i)) -> uniform R (i :: S).
Proof.
  intros Hok Hi U Hc H. apply uniform_atoms; [done..|]. intros a a' Ha Ha'. split; [by rewrite !Hc|].
  assert (wf_obj W (ag a i)) by (apply ag_wf; auto). assert (wf_obj W (ag a' i)) by (apply ag_wf; auto).
  intros m Hm. destruct (H a m Ha Hm) as [F|N]; [|right; split; apply N; auto].
  destruct (decide (instb W (ag a i) (spc m i) = true)) as [I|I];
    (rewrite (instb_true W HW) in I; [|done|apply spc_wf; [by eapply rem_MS|done]]).
  - left. split.
    + intros u Hu. destruct (F u Hu) as [[N|A] _].
      * split; intros Hx; exfalso; eapply N; [| |exact Hx| | |exact Hx]; auto.
      * split; intros _; apply A; auto.
    + intros d Hd. destruct (F _ Hd) as [_ [->|N]]; [done|]. exfalso. eapply (N (ag a i)); auto.
      rewrite (plain_subclass W (spc m i) d) in I; [done| |done]. apply spc_plain; [by eapply rem_MS|done].
  - right. split; [done|]. intros I'. apply I. apply inst_atoms in I' as (u & Hu & Ix). apply inst_atoms. exists u. split; [done|].
    destruct (F u Hu) as [[N|A] _]; [exfalso; eapply (N (ag a' i)); eauto|apply A; auto].
Qed.

(** Only <object>. *)
Lemma uniform_objects R S i : okr R -> i < n -> uniform R S ->
  (forall a m, R a -> m ∈ rem S a -> object_like W (spc m i)) -> uniform R (i :: S).
Proof.
  intros Hok Hi U H.
  assert (Hw : forall a, R a -> wf_obj W (ag a i)) by (intros a Ha; apply ag_wf; auto).
  assert (HI : forall a a' m, R a -> R a' -> m ∈ rem S a -> Inst W (ag a' i) (spc m i)).
  { intros a a' m Ha Ha' Hm. apply (object_like_inst W HW); [auto|apply spc_wf; [by eapply rem_MS|done]|]. by apply (H a). }
  apply uniform_step; [done|..].
  - intros a a' m Ha Ha' Hm. apply (instb_eq W HW); [auto|auto|apply spc_wf; [by eapply rem_MS|done]|].
    split; intros _; by apply (HI a).
  - intros a a' m1 m2 Ha Ha' M1 M2. apply rem_cons_in in M1 as [M1 _], M2 as [M2 _].
    assert (comparable W (spc m1 i) (spc m2 i)) by (apply spc_comparable; try done; by eapply rem_MS).
    apply (osame_of_tells W HW); [split; [auto|]; split; [done|]; split; by apply (HI a)..|].
    left. apply (object_like_alike W HW); [done|by apply (H a)|by apply (H a)].
Qed.

(** <object> and one type. *)
Lemma uniform_if R S i t b : okr R -> i < n -> uniform R S -> wf_specializer W t ->
  (forall a, R a -> instb W (ag a i) t = b) ->
  (forall a m, R a -> m ∈ rem S a -> object_like W (spc m i) \/ ~ object_like W (spc m i) /\ elike W t (spc m i)) ->
  uniform R (i :: S).
Proof.
  intros Hok Hi U Ht Hb H.
  assert (Hw : forall a, R a -> wf_obj W (ag a i)) by (intros a Ha; apply ag_wf; auto).
  assert (HI : forall a a' m, R a -> R a' -> m ∈ rem S a -> object_like W (spc m i) -> Inst W (ag a' i) (spc m i)).
  { intros a a' m Ha Ha' Hm. apply (object_like_inst W HW); [auto|apply spc_wf; [by eapply rem_MS|done]]. }
  assert (HE : forall a a' m, R a -> R a' -> m ∈ rem S a -> elike W t (spc m i) -> Inst W (ag a' i) (spc m i) <-> b = true).
  { intros a a' m Ha Ha' Hm (E1 & E2 & _). rewrite <- (Hb a' Ha'), (instb_true W HW) by (auto; apply Ht).
    split; eapply (Sub_sound W); eauto; [apply Ht|]. apply spc_wf; [by eapply rem_MS|done]. }
  apply uniform_step; [done|..].
  - intros a a' m Ha Ha' Hm. apply (instb_eq W HW); [auto|auto|apply spc_wf; [by eapply rem_MS|done]|].
    destruct (H a m Ha Hm) as [Ho|[_ He]]; [split; intros _; by apply (HI a)|].
    rewrite (HE a a m), (HE a a' m) by done. done.
  - intros a a' m1 m2 Ha Ha' M1 M2. apply rem_cons_in in M1 as [M1 I1], M2 as [M2 I2].
    assert (Hc : comparable W (spc m1 i) (spc m2 i)) by (apply spc_comparable; try done; by eapply rem_MS).
    destruct (spc_wf m1 i) as (W1 & _ & _); [by eapply rem_MS|done|].
    destruct (spc_wf m2 i) as (W2 & _ & _); [by eapply rem_MS|done|].
    rewrite (instb_true W HW) in I1, I2 by auto.
    assert (I1' : Inst W (ag a' i) (spc m1 i)).
    { destruct (H a m1 Ha M1) as [Ho|[_ He]]; [by apply (HI a)|]. rewrite (HE a a' m1) by done. by rewrite <- (HE a a m1). }
    assert (I2' : Inst W (ag a' i) (spc m2 i)).
    { destruct (H a m2 Ha M2) as [Ho|[_ He]]; [by apply (HI a)|]. rewrite (HE a a' m2) by done. by rewrite <- (HE a a m2). }
    assert (R1 : ready W (ag a i) (spc m1 i) (spc m2 i)) by (split; [auto|]; done).
    assert (R2 : ready W (ag a' i) (spc m1 i) (spc m2 i)) by (split; [auto|]; done).
    destruct (H a m1 Ha M1) as [O1|[N1 E1]], (H a m2 Ha M2) as [O2|[N2 E2]].
    + apply (osame_of_tells W HW); [done..|]. left. by apply (object_like_alike W HW).
    + apply (osame_of_tells W HW); [done..|]. right; right. pose proof (comparable_sym W _ _ Hc).
      split; apply (below_object_like W HW); auto.
    + apply (osame_of_tells W HW); [done..|]. right; left. split; apply (below_object_like W HW); auto.
    + eapply (elike_osame W HW); eauto.
Qed.
End gf.
