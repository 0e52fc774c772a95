(** Histories of table operations against the specification. *)
From Verif Require Import Base TableModel TableSpec TableProbe TableVec TableOps.
From Coq Require Import ZifyBool ZifyNat.
Open Scope Z_scope.

Section World.
Context {K V HS : Type} (P : protocol K HS) (since : HS -> option nat).
Context (HC : contract P since).
Implicit Types (m : list (K * V)).
Notation tvec := (tvec K V HS).
Notation table := (table K V HS).
Notation istate := (istate K).
Notation world := (world (K := K) (V := V) (HS := HS)).
Notation aworld := (aworld K V).
Notation mget := (mget (V := V) (test P)).
Notation mset := (mset (V := V) (test P)).
Notation mdel := (mdel (V := V) (test P)).
Notation kin := (kin (test P)).
Notation kdel := (kdel (test P)).
Notation shape := (shape P).
Notation core := (core P).
Notation tab_ok := (tab_ok P).
Notation advance := (advance (test P)).
Notation spec_step := (spec_step (V := V) (test P)).
Notation spec_run := (spec_run (V := V) (test P)).

Lemma kin_true k l : kin k l = true <-> exists k', k' ∈ l /\ test P k k' = true.
Proof.
  unfold TableSpec.kin. rewrite existsb_exists. split.
  - intros (k' & Hin & Ht). exists k'. split; [by apply elem_of_list_In|done].
  - intros (k' & Hin & Ht). exists k'. split; [by apply elem_of_list_In|done].
Qed.

Lemma kin_false k l : kin k l = false <-> forall k', k' ∈ l -> test P k k' = false.
Proof.
  split.
  - intros H k' Hin. destruct (test P k k') eqn:E; [|done].
    assert (kin k l = true) by (apply kin_true; eauto). congruence.
  - intros H. destruct (kin k l) eqn:E; [|done].
    apply kin_true in E as (k' & Hin & Ht). rewrite H in Ht; done.
Qed.

Lemma kin_cons_r k a l : kin k l = true -> kin k (a :: l) = true.
Proof. intros H. unfold TableSpec.kin in *. cbn. rewrite H. apply orb_true_r. Qed.

Lemma kin_cons_l k l : kin k (k :: l) = true.
Proof. unfold TableSpec.kin. cbn. by rewrite (test_refl P since HC). Qed.

Lemma elem_of_kdel k k' l : k' ∈ kdel k l <-> k' ∈ l /\ test P k k' = false.
Proof.
  unfold TableSpec.kdel. rewrite !elem_of_list_In, filter_In, negb_true_iff. done.
Qed.

(** ** What an iteration state knows of its source *)

(** The keys still ahead are those in the slots below [n]. *)
Record ahead (ks : list (slot K)) (n : nat) (c : cursor_spec K) : Prop := {
  a_must : forall k, k ∈ must c -> exists j, (j < n)%nat /\ ks !! j = Some (Key k);
  a_seen : forall j k k', (j < n)%nat -> ks !! j = Some (Key k) -> k' ∈ seen c ->
    test P k' k = false;
  a_ever : forall j k, (j < n)%nat -> ks !! j = Some (Key k) -> kin k (ever c) = true;
}.

(** [live]: the state has not been run to its end. *)
Definition live (s : istate) : bool := negb (sindex s <? 0).
Definition live_on (i : nat) (s : istate) : bool := live s && bool_decide (source s = i).

Record active (t : table) m (s : istate) (c : cursor_spec K) (i : nat) (k : K) (tv : tvec)
  : Prop := {
  s_index : sindex s = Z.of_nat i;
  s_key : skey s = Some k;
  s_at : at_key c = Some k;
  s_vec : vectors t !! source s = Some tv;
  s_token : stoken s = token tv;
  s_slot : keys tv !! i = Some (Key k) \/
    (keys tv !! i = Some Deleted /\ kin k (seen c) = false /\
     exists x, vals tv !! i = Some x /\ x <> VEmpty);
  s_ahead : ahead (keys tv) i c;
  s_present : source s = current t ->
    forall k', k' ∈ seen c -> kin k' (map fst m) = true;
}.

Definition cur_ok (t : table) m (s : istate) (c : cursor_spec K) : Prop :=
  (source s < length (vectors t))%nat /\
  if live s then exists i k tv, active t m s c i k tv else at_key c = None.

Record wok (w : world) (a : aworld) : Prop := {
  w_tab : tab_ok (tab w) (amap a);
  w_cur : Forall2 (cur_ok (tab w) (amap a)) (states w) (cursors a);
  w_refs : forall i tv, vectors (tab w) !! i = Some tv ->
    Z.of_nat (cnt (live_on i) (states w)) <= refs tv;
}.

Lemma live_cnt w a j s c :
  wok w a -> states w !! j = Some s -> live s = true -> cursors a !! j = Some c ->
  forall tv, vectors (tab w) !! source s = Some tv -> 0 < refs tv.
Proof.
  intros Hw Hj Hl Hc tv Htv. pose proof (w_refs _ _ Hw _ _ Htv).
  pose proof (cnt_insert (live_on (source s)) _ _ _ s Hj) as Hcnt.
  assert (live_on (source s) s = true) as Hlo.
  { unfold live_on. rewrite Hl, bool_decide_eq_true_2; done. }
  assert (0 < cnt (live_on (source s)) (states w))%nat; [|lia].
  clear -Hj Hlo. generalize dependent j. induction (states w) as [|s0 l IH]; intros j Hj; [done|].
  rewrite cnt_cons. destruct j as [|j]; cbn in Hj; [simplify_eq; rewrite Hlo; cbn; lia|].
  specialize (IH j Hj). lia.
Qed.

(** ** Moving an invariant to another table *)

Lemma cur_ok_keeps t t' m s c :
  keeps t t' -> cur_ok t m s c ->
  (live s = true -> forall tv, vectors t !! source s = Some tv -> refs tv <> 0) ->
  cur_ok t' m s c.
Proof.
  intros Hk [Hlt Hc] Hr. pose proof (keeps_length _ _ Hk) as Hl.
  destruct Hk as (Hk & _ & Hcur). split; [lia|].
  destruct (live s) eqn:El; [|done]. destruct Hc as (i & k & tv & [H1 H2 H3 H4 H5 H6 H7 H8]).
  destruct (Hk _ _ H4) as (tv' & Htv' & Hrf & Heq).
  destruct (Heq (Hr eq_refl tv H4)) as (Hks & Hvs & Htok).
  exists i, k, tv'. split; try done.
  - congruence.
  - by rewrite Hks, Hvs.
  - by rewrite Hks.
  - intros Hsc. apply H8. destruct Hcur as [Heqc|Hge]; [congruence|lia].
Qed.

Lemma wok_refs_keeps (t t' : table) (ss : list istate) :
  keeps t t' ->
  (forall s, s ∈ ss -> (source s < length (vectors t))%nat) ->
  (forall i tv, vectors t !! i = Some tv -> Z.of_nat (cnt (live_on i) ss) <= refs tv) ->
  forall i tv, vectors t' !! i = Some tv -> Z.of_nat (cnt (live_on i) ss) <= refs tv.
Proof.
  intros (Hk & Hnew & _) Hs Hr i tv' Hi.
  destruct (vectors t !! i) as [tv|] eqn:E.
  - destruct (Hk _ _ E) as (tv2 & Hi2 & Href & _). simplify_eq. rewrite Href. by apply Hr.
  - rewrite (Hnew _ _ Hi E).
    assert (cnt (live_on i) ss = 0%nat) as ->; [|lia].
    apply lookup_ge_None in E. clear -Hs E.
    induction ss as [|s ss IH]; [done|]. rewrite cnt_cons, IH.
    + unfold live_on. rewrite bool_decide_eq_false_2; [by rewrite andb_false_r|].
      specialize (Hs s ltac:(left)). lia.
    + intros s' Hin. apply Hs. by right.
Qed.

Lemma Forall2_lookup_both {A B} (R : A -> B -> Prop) l l' :
  length l = length l' ->
  (forall j a b, l !! j = Some a -> l' !! j = Some b -> R a b) -> Forall2 R l l'.
Proof.
  intros Hl H. apply Forall2_same_length_lookup_2; [done|]. intros j a b. apply H.
Qed.

Lemma w_sources w a s : wok w a -> s ∈ states w -> (source s < length (vectors (tab w)))%nat.
Proof.
  intros Hw Hin. apply elem_of_list_lookup in Hin as [j Hj].
  destruct (Forall2_lookup_l _ _ _ _ _ (w_cur _ _ Hw) Hj) as (c & _ & [Hlt _]). done.
Qed.

Lemma wok_keeps w a t' :
  wok w a -> keeps (tab w) t' -> tab_ok t' (amap a) -> wok (World t' (states w)) a.
Proof.
  intros Hw Hk Ht'. split; cbn.
  - done.
  - apply Forall2_lookup_both; [by eapply Forall2_length, Hw|].
    intros j s c Hj Hc. eapply cur_ok_keeps; [exact Hk| |].
    + by eapply (Forall2_lookup_lr _ _ _ _ _ _ (w_cur _ _ Hw)).
    + intros Hl tv Htv. pose proof (live_cnt _ _ _ _ _ Hw Hj Hl Hc tv Htv). lia.
  - eapply wok_refs_keeps; [exact Hk| |apply Hw]. intros s. by eapply w_sources.
Qed.

(** Changing one slot of the current vector. *)
Lemma changed_lookup (t1 t' : table) tv tv' i tvi :
  changed t1 t' tv tv' -> vectors t1 !! i = Some tvi ->
  vectors t' !! i = Some (if decide (i = current t1) then tv' else tvi) /\
  (i = current t1 -> tvi = tv).
Proof.
  intros (Hc & Ht & _ & _) Hi. rewrite Ht. cbn.
  destruct (decide (i = current t1)) as [->|Hne].
  - rewrite list_lookup_insert by (by apply lookup_lt_Some in Hi). split; [done|congruence].
  - rewrite list_lookup_insert_ne by done. done.
Qed.

Lemma changed_refs (t1 t' : table) tv tv' (ss : list istate) :
  changed t1 t' tv tv' ->
  (forall i tvi, vectors t1 !! i = Some tvi -> Z.of_nat (cnt (live_on i) ss) <= refs tvi) ->
  forall i tvi, vectors t' !! i = Some tvi -> Z.of_nat (cnt (live_on i) ss) <= refs tvi.
Proof.
  intros (Hc & Ht & _ & Hr & _) H i tvi Hi. rewrite Ht in Hi. cbn in Hi.
  destruct (decide (i = current t1)) as [->|Hne].
  - rewrite list_lookup_insert in Hi by (by apply lookup_lt_Some in Hc). simplify_eq.
    rewrite Hr. by apply H.
  - rewrite list_lookup_insert_ne in Hi by done. by apply H.
Qed.

Lemma changed_length (t1 t' : table) tv tv' :
  changed t1 t' tv tv' -> length (vectors t') = length (vectors t1) /\ current t' = current t1.
Proof. intros (Hc & Ht & _). rewrite Ht. cbn. by rewrite insert_length. Qed.

Lemma mget_None_kin m k k' : mget m k = None -> kin k' (map fst m) = true -> test P k' k = false.
Proof.
  intros Hn Hk. apply kin_true in Hk as (k2 & Hin & Ht).
  apply elem_of_map_fst_inv in Hin as [x Hx].
  pose proof (mget_None_inv P _ _ _ _ Hn Hx) as Hf.
  destruct (test P k' k) eqn:E; [|done].
  rewrite <- Hf. symmetry. eapply (test_trans P since HC); [|exact Ht].
  by apply (test_sym P since HC).
Qed.

Lemma kin_mset m k v k' : kin k' (map fst m) = true -> kin k' (map fst (mset m k v)) = true.
Proof.
  intros H. unfold TableSpec.mset. destruct existsb.
  - rewrite map_map. erewrite map_ext; [exact H|]. intros [a x]. cbn. by destruct (test P k a).
  - by apply kin_cons_r.
Qed.

Lemma kin_mdel m k k' :
  kin k' (map fst m) = true -> test P k k' = false -> kin k' (map fst (mdel m k)) = true.
Proof.
  intros H Hf. apply kin_true in H as (k2 & Hin & Ht).
  apply elem_of_map_fst_inv in Hin as [x Hx]. apply kin_true. exists k2. split; [|done].
  apply (elem_of_map_fst _ _ x). unfold TableSpec.mdel.
  apply elem_of_list_In, filter_In. split; [by apply elem_of_list_In|]. cbn.
  apply negb_true_iff. destruct (test P k k2) eqn:E; [|done].
  rewrite <- Hf. symmetry. eapply (test_trans P since HC); [exact E|].
  by apply (test_sym P since HC).
Qed.

Lemma cur_ok_put t1 t' m tv tv' k v s c :
  changed t1 t' tv tv' -> put_change P m tv tv' k v -> cur_ok t1 m s c ->
  cur_ok t' (mset m k v) s (cursor_put k c).
Proof.
  intros Hch Hpc [Hlt Hc]. pose proof (changed_length _ _ _ _ Hch) as [Hl Hcu].
  split; [lia|]. destruct (live s) eqn:El; [|done].
  destruct Hc as (i & ki & tvs & [H1 H2 H3 H4 H5 H6 [Hm Hs He] H8]).
  destruct (changed_lookup _ _ _ _ _ _ Hch H4) as [Hv Htv].
  destruct Hch as (Hcur & _ & Htok & Hrf & Hre).
  exists i, ki. eexists. split; try done.
  - destruct (decide (source s = current t1)); [|done]. rewrite Htok. by rewrite <- Htv.
  - destruct (decide (source s = current t1)) as [Hsc|]; [|done]. rewrite (Htv Hsc) in *.
    destruct Hpc as [j k' Hj Ht Hks Hvs|j Hj Hg Hks Hvs]; rewrite Hks, Hvs.
    + destruct H6 as [H6|(Hd & Hk & x & Hx & Hne)]; [by left|]. right.
      split; [done|]. split; [done|]. exists x. split; [|done].
      rewrite list_lookup_insert_ne; [done|]. intros ->. congruence.
    + assert (j <> i) by (intros ->; destruct H6 as [?|(? & _)]; congruence).
      rewrite !list_lookup_insert_ne by done. done.
  - destruct (decide (source s = current t1)) as [Hsc|].
    + rewrite (Htv Hsc) in *. specialize (H8 Hsc).
      destruct Hpc as [j k' Hj Ht Hks Hvs|j Hj Hg Hks Hvs]; rewrite Hks.
      * split; cbn [must seen ever cursor_put]; try done. intros j0 k0 Hj0 Hk0. apply kin_cons_r. by eapply He.
      * split; cbn [must seen ever cursor_put].
        -- intros k0 Hk0. destruct (Hm k0 Hk0) as (j0 & Hj0 & Hkey). exists j0. split; [done|].
           rewrite list_lookup_insert_ne; [done|]. intros ->. congruence.
        -- intros j0 k0 k' Hj0 Hk0 Hin. destruct (decide (j0 = j)) as [->|Hne].
           ++ rewrite list_lookup_insert in Hk0 by (by apply lookup_lt_Some in Hj). simplify_eq.
              eapply mget_None_kin; [exact Hg|]. by apply H8.
           ++ rewrite list_lookup_insert_ne in Hk0 by done. by eapply Hs.
        -- intros j0 k0 Hj0 Hk0. destruct (decide (j0 = j)) as [->|Hne].
           ++ rewrite list_lookup_insert in Hk0 by (by apply lookup_lt_Some in Hj). simplify_eq.
              apply kin_cons_l.
           ++ rewrite list_lookup_insert_ne in Hk0 by done. apply kin_cons_r. by eapply He.
    + split; cbn [must seen ever cursor_put]; try done. intros j0 k0 Hj0 Hk0. apply kin_cons_r. by eapply He.
  - rewrite Hcu. intros Hsc k' Hin. apply kin_mset. by apply H8.
Qed.

Lemma kin_kdel_false k k' l : test P k k' = true -> kin k' (kdel k l) = false.
Proof.
  intros Ht. apply kin_false. intros k2 Hin. apply elem_of_kdel in Hin as [_ Hf].
  destruct (test P k' k2) eqn:E; [|done]. rewrite <- Hf. symmetry.
  by eapply (test_trans P since HC).
Qed.

Lemma kin_kdel_mono k k' l : kin k' l = false -> kin k' (kdel k l) = false.
Proof.
  intros H. apply kin_false. intros k2 Hin. apply elem_of_kdel in Hin as [Hin _].
  by eapply kin_false in H.
Qed.

Lemma ahead_remove ks n c k : ahead ks n c -> ahead ks n (cursor_remove (test P) k c).
Proof.
  intros [Hm Hs He]. split; cbn [must seen ever cursor_remove].
  - intros k0 Hk0. apply elem_of_kdel in Hk0 as [Hk0 _]. by apply Hm.
  - intros j k0 k' Hj Hk Hin. apply elem_of_kdel in Hin as [Hin _]. by eapply Hs.
  - done.
Qed.

Lemma cur_ok_remove_frame t t' m k s c :
  cur_ok t m s c -> vectors t' = vectors t -> current t' = current t ->
  (forall k', kin k' (map fst m) = true -> test P k k' = false ->
     kin k' (map fst (mdel m k)) = true) ->
  cur_ok t' (mdel m k) s (cursor_remove (test P) k c).
Proof.
  intros [Hlt Hc] Hv Hcu Hk. split; [by rewrite Hv|]. destruct (live s) eqn:El; [|done].
  destruct Hc as (i & ki & tvs & [H1 H2 H3 H4 H5 H6 H7 H8]).
  exists i, ki, tvs. split; try done.
  - by rewrite Hv.
  - destruct H6 as [H6|(Hd & Hkk & Hx)]; [by left|]. right.
    split; [done|]. split; [|done]. cbn. by apply kin_kdel_mono.
  - by apply ahead_remove.
  - rewrite Hcu. cbn. intros Hsc k' Hin. apply elem_of_kdel in Hin as [Hin Hf].
    apply Hk; [|done]. by apply H8.
Qed.

Lemma cur_ok_remove t1 t' m tv tv' k j k' s c :
  changed t1 t' tv tv' -> keys tv !! j = Some (Key k') -> test P k k' = true ->
  length (keys tv) = length (vals tv) ->
  keys tv' = <[j := Deleted]> (keys tv) -> vals tv' = <[j := VDeleted]> (vals tv) ->
  cur_ok t1 m s c -> cur_ok t' (mdel m k) s (cursor_remove (test P) k c).
Proof.
  intros Hch Hj Ht Hlen Hks Hvs [Hlt Hc]. pose proof (changed_length _ _ _ _ Hch) as [Hl Hcu].
  split; [lia|]. destruct (live s) eqn:El; [|done].
  destruct Hc as (i & ki & tvs & [H1 H2 H3 H4 H5 H6 H7 H8]).
  destruct (changed_lookup _ _ _ _ _ _ Hch H4) as [Hv Htv].
  destruct Hch as (Hcur & _ & Htok & Hrf & Hre).
  assert (Hjl : (j < length (keys tv))%nat) by (by apply lookup_lt_Some in Hj).
  exists i, ki. eexists. split; try done.
  - destruct (decide (source s = current t1)); [|done]. rewrite Htok. by rewrite <- Htv.
  - destruct (decide (source s = current t1)) as [Hsc|]; cbn [seen cursor_remove].
    + rewrite (Htv Hsc) in *. rewrite Hks, Hvs.
      destruct (decide (i = j)) as [->|Hne].
      * right. rewrite !list_lookup_insert by lia. split; [done|]. split; [|by exists VDeleted].
        destruct H6 as [H6|(Hd & _)]; [|congruence]. simplify_eq. by apply kin_kdel_false.
      * rewrite !list_lookup_insert_ne by done.
        destruct H6 as [H6|(Hd & Hkk & Hx)]; [by left|]. right.
        split; [done|]. split; [|done]. by apply kin_kdel_mono.
    + destruct H6 as [H6|(Hd & Hkk & Hx)]; [by left|]. right.
      split; [done|]. split; [|done]. by apply kin_kdel_mono.
  - destruct (decide (source s = current t1)) as [Hsc|]; [|by apply ahead_remove].
    rewrite (Htv Hsc) in *. rewrite Hks. destruct H7 as [Hm Hs He].
    split; cbn [must seen ever cursor_remove].
    + intros k0 Hk0. apply elem_of_kdel in Hk0 as [Hk0 Hf].
      destruct (Hm k0 Hk0) as (j0 & Hj0 & Hkey). exists j0. split; [done|].
      rewrite list_lookup_insert_ne; [done|]. intros ->. congruence.
    + intros j0 k0 k2 Hj0 Hk0 Hin. apply elem_of_kdel in Hin as [Hin _].
      destruct (decide (j0 = j)) as [->|Hne].
      * rewrite list_lookup_insert in Hk0 by done. done.
      * rewrite list_lookup_insert_ne in Hk0 by done. by eapply Hs.
    + intros j0 k0 Hj0 Hk0. destruct (decide (j0 = j)) as [->|Hne].
      * rewrite list_lookup_insert in Hk0 by done. done.
      * rewrite list_lookup_insert_ne in Hk0 by done. by eapply He.
  - rewrite Hcu. cbn. intros Hsc k2 Hin. apply elem_of_kdel in Hin as [Hin Hf].
    apply kin_mdel; [|done]. by apply H8.
Qed.

Lemma cur_ok_clear t m s c : cur_ok t m s c -> forall m', cur_ok t m' s (cursor_clear c).
Proof.
  intros [Hlt Hc] m'. split; [done|]. destruct (live s) eqn:El; [|done].
  destruct Hc as (i & ki & tvs & [H1 H2 H3 H4 H5 H6 [Hm Hs He] H8]).
  exists i, ki, tvs. split; try done.
  - destruct H6 as [H6|(Hd & Hkk & Hx)]; [by left|right]. done.
  - split; cbn; try done.
    + intros k Hk. by apply elem_of_nil in Hk.
    + intros j k k' _ _ Hin. by apply elem_of_nil in Hin.
  - cbn. intros _ k' Hin. by apply elem_of_nil in Hin.
Qed.

(** ** Moving on *)
Lemma scan_ok (ks : list (slot K)) n :
  (n <= length ks)%nat ->
  (exists i k, scan ks n = Val (Some (Z.of_nat i, k)) /\ (i < n)%nat /\
     ks !! i = Some (Key k) /\
     forall j k', (i < j < n)%nat -> ks !! j <> Some (Key k')) \/
  (scan ks n = Val None /\ forall j k', (j < n)%nat -> ks !! j <> Some (Key k')).
Proof.
  induction n as [|n IH]; intros Hn.
  - right. split; [done|]. lia.
  - cbn [scan]. destruct (lookup_lt_is_Some_2 ks n) as [x Hx]; [lia|].
    rewrite (vread_val _ _ _ Hx). cbn [obind].
    assert (Hrec : (forall k', x <> Key k') ->
      (exists i k, scan ks n = Val (Some (Z.of_nat i, k)) /\ (i < S n)%nat /\
        ks !! i = Some (Key k) /\
        forall j k', (i < j < S n)%nat -> ks !! j <> Some (Key k')) \/
      (scan ks n = Val None /\ forall j k', (j < S n)%nat -> ks !! j <> Some (Key k'))).
    { intros Hnk. destruct (IH ltac:(lia)) as [(i & k & H1 & H2 & H3 & H4)|(H1 & H2)].
      - left. exists i, k. split; [done|]. split; [lia|]. split; [done|].
        intros j k' Hj. destruct (decide (j = n)) as [->|]; [|apply H4; lia].
        rewrite Hx. intros [= ->]. by eapply Hnk.
      - right. split; [done|]. intros j k' Hj. destruct (decide (j = n)) as [->|]; [|apply H2; lia].
        rewrite Hx. intros [= ->]. by eapply Hnk. }
    destruct x as [| |k]; [by apply Hrec|by apply Hrec|].
    left. exists n, k. split; [done|]. split; [lia|]. split; [done|]. lia.
Qed.

(** The step of the specification that moving on from [n] amounts to. *)
Lemma ahead_advance (tv : tvec) n c :
  shape tv -> (n <= length (keys tv))%nat -> ahead (keys tv) n c ->
  (exists i k, scan (keys tv) n = Val (Some (Z.of_nat i, k)) /\ (i < n)%nat /\
     keys tv !! i = Some (Key k) /\
     let c' := CursorSpec (Some k) (kdel k (must c)) (k :: seen c) (ever c) in
     advance c (Some k) c' /\ ahead (keys tv) i c') \/
  (scan (keys tv) n = Val None /\ advance c None (CursorSpec None [] (seen c) (ever c))).
Proof.
  intros [Hval Hd] Hn [Hm Hs He].
  destruct (scan_ok (keys tv) n Hn) as [(i & k & H1 & H2 & H3 & H4)|(H1 & H2)].
  - left. exists i, k. split; [done|]. split; [done|]. split; [done|]. split.
    + apply advance_key; [by eapply He|]. apply kin_false. intros k' Hin.
      apply (test_false_sym P since HC). by eapply Hs.
    + split; cbn [must seen ever].
      * intros k0 Hk0. apply elem_of_kdel in Hk0 as [Hk0 Hf].
        destruct (Hm k0 Hk0) as (j & Hj & Hkey). exists j. split; [|done].
        destruct (decide (j = i)) as [->|Hne].
        { exfalso. simplify_eq. by rewrite (test_refl P since HC) in Hf. }
        destruct (decide (j < i)%nat); [done|]. exfalso. eapply H4; [|exact Hkey]. lia.
      * intros j k0 k' Hj Hk0 Hin. apply elem_of_cons in Hin as [->|Hin].
        -- destruct (test P k k0) eqn:E; [|done]. exfalso.
           pose proof (Hd i j k k0 H3 Hk0 E). lia.
        -- eapply Hs; [|exact Hk0|exact Hin]. lia.
      * intros j k0 Hj Hk0. eapply He; [|exact Hk0]. lia.
  - right. split; [done|]. apply advance_end.
    destruct (must c) as [|k l] eqn:E; [done|]. exfalso.
    destruct (Hm k) as (j & Hj & Hkey); [left|]. by eapply H2.
Qed.

(** ** Changes that leave the entries alone *)
Definition alike (t t' : table) : Prop :=
  current t' = current t /\ length (vectors t') = length (vectors t) /\
  forall i tv, vectors t !! i = Some tv ->
    exists tv', vectors t' !! i = Some tv' /\
      keys tv' = keys tv /\ vals tv' = vals tv /\ token tv' = token tv.

Lemma cur_ok_alike t t' m s c : alike t t' -> cur_ok t m s c -> cur_ok t' m s c.
Proof.
  intros (Hc & Hl & Ha) [Hlt H]. split; [lia|]. destruct (live s); [|done].
  destruct H as (i & k & tv & [H1 H2 H3 H4 H5 H6 H7 H8]).
  destruct (Ha _ _ H4) as (tv' & Htv' & Hk & Hv & Ht).
  exists i, k, tv'. split; try done.
  - congruence.
  - by rewrite Hk, Hv.
  - by rewrite Hk.
  - by rewrite Hc.
Qed.

Lemma alike_refs (t : table) i tv r :
  vectors t !! i = Some tv -> alike t (set_vec t i (with_refs tv r)).
Proof.
  intros Hi. split; [done|]. split; [cbn; by rewrite insert_length|].
  intros j tvj Hj. cbn. destruct (decide (j = i)) as [->|Hne].
  - rewrite list_lookup_insert by (by apply lookup_lt_Some in Hi). simplify_eq.
    eexists. split; [reflexivity|]. done.
  - rewrite list_lookup_insert_ne by done. by exists tvj.
Qed.

Lemma core_refs t m tv r :
  core t tv m -> core (set_vec t (current t) (with_refs tv r)) (with_refs tv r) m.
Proof.
  intros [Hc Hr Hv He Hp Hw Hi]. split; cbn; try done.
  - apply list_lookup_insert. by apply lookup_lt_Some in Hc.
  - by destruct Hv.
Qed.

Lemma tab_ok_refs t m i tv r :
  tab_ok t m -> vectors t !! i = Some tv -> tab_ok (set_vec t i (with_refs tv r)) m.
Proof.
  intros [[tvc Hcore] Hs Hm] Hi.
  assert (Hlt : (i < length (vectors t))%nat) by (by apply lookup_lt_Some in Hi).
  split.
  - destruct (decide (i = current t)) as [->|Hne].
    + pose proof (c_cur _ _ _ _ Hcore). simplify_eq. eexists. by apply core_refs.
    + exists tvc. destruct Hcore. split; cbn; try done. by rewrite list_lookup_insert_ne.
  - intros j tvj Hj. cbn in Hj. destruct (decide (j = i)) as [->|Hne].
    + rewrite list_lookup_insert in Hj by done. simplify_eq. by apply (Hs i tv).
    + rewrite list_lookup_insert_ne in Hj by done. by eapply Hs.
  - intros j tvj Hj Hnc. cbn in Hj, Hnc. destruct (decide (j = i)) as [->|Hne].
    + rewrite list_lookup_insert in Hj by done. simplify_eq. by apply (Hm i tv).
    + rewrite list_lookup_insert_ne in Hj by done. by eapply Hm.
Qed.

(** ** Storing through an iteration state *)
Lemma tab_ok_put_old t tv m j k' key v :
  core t tv m -> tab_ok t m -> keys tv !! j = Some (Key k') -> test P key k' = true ->
  tab_ok (set_vec t (current t) (with_entries tv (keys tv) (<[j:=VVal v]> (vals tv)))) (mset m key v).
Proof.
  intros Hcore Hok Hj Ht. pose proof Hcore as [Hcur Hval Hv Hmap Hpl Hw Hini].
  pose proof (v_valued _ _ Hv) as [Hvl Hvv]. destruct (Hvv j k' Hj) as [x Hx].
  pose proof (entries_insert _ _ _ _ _ (Key k') (VVal v) Hj Hx) as HI.
  rewrite (list_insert_id _ _ _ Hj) in HI. cbn [ent app] in HI.
  pose proof (entries_insert _ _ _ _ _ Empty VEmpty Hj Hx) as HE. cbn [ent app] in HE.
  set (rest := entries (<[j:=Empty]> (keys tv)) (<[j:=VEmpty]> (vals tv))) in *.
  assert (HR : entries (keys tv) (<[j:=VVal v]> (vals tv)) ≡ₚ (k', v) :: rest).
  { rewrite HE in HI.
    apply (Permutation_cons_inv (a := (k', x))). rewrite <- HI. apply perm_swap. }
  eapply (tab_ok_set_vec P since HC); try done.
  - destruct Hv. split; cbn [with_entries keys vals additions deletions limit]; try done.
    + pose proof (valued_insert _ _ j (Key k') (VVal v) (conj Hvl Hvv) ltac:(eauto)) as Hvi.
      by rewrite (list_insert_id _ _ _ Hj) in Hvi.
    + eapply (kd_perm P since HC); [symmetry; apply (Permutation_map fst HR)|].
      eapply (kd_perm P since HC) in v_kd; [|apply (Permutation_map fst HE)]. exact v_kd.
  - cbn [with_entries keys vals]. rewrite HR. symmetry.
    eapply (mset_old P since HC); [by eapply core_kd| |done]. by rewrite <- Hmap.
Qed.

(** Storing into a slot that is not an entry of the table. *)
Lemma tab_ok_write t m i tv j x :
  tab_ok t m -> vectors t !! i = Some tv ->
  i <> current t \/ keys tv !! j = Some Deleted ->
  tab_ok (set_vec t i (with_entries tv (keys tv) (<[j:=VVal x]> (vals tv)))) m.
Proof.
  intros [[tvc Hcore] Hs Hm] Hi Hcase.
  assert (Hlt : (i < length (vectors t))%nat) by (by apply lookup_lt_Some in Hi).
  set (tv' := with_entries tv (keys tv) (<[j:=VVal x]> (vals tv))).
  assert (Hval : valued (keys tv) (<[j:=VVal x]> (vals tv))).
  { destruct (Hs i tv Hi) as [[Hl Hv] _]. split; [by rewrite insert_length|].
    intros j0 k0 Hj0. destruct (decide (j0 = j)) as [->|Hne].
    - rewrite list_lookup_insert; [by eauto|]. rewrite <- Hl. by apply lookup_lt_Some in Hj0.
    - rewrite list_lookup_insert_ne by done. by eapply Hv. }
  split.
  - destruct (decide (i = current t)) as [->|Hne].
    + destruct Hcase as [?|Hd]; [done|].
      pose proof Hcore as [Hcur Hre Hv Hmap Hpl Hw Hini].
      assert (tvc = tv) as -> by congruence.
      assert (He : entries (keys tv) (<[j:=VVal x]> (vals tv)) ≡ₚ entries (keys tv) (vals tv)).
      { assert (Hjv : (j < length (vals tv))%nat).
        { rewrite <- (proj1 (v_valued _ _ Hv)). by apply lookup_lt_Some in Hd. }
        destruct (lookup_lt_is_Some_2 _ _ Hjv) as [y Hy].
        pose proof (entries_insert _ _ _ _ _ Deleted (VVal x) Hd Hy) as HI.
        rewrite (list_insert_id _ _ _ Hd) in HI. cbn [ent app] in HI. by symmetry. }
      exists tv'. unfold tv'. split; cbn; try done.
      * by apply list_lookup_insert.
      * destruct Hv. split; cbn; try done.
        eapply (kd_perm P since HC); [symmetry; by apply (Permutation_map fst He)|done].
      * by rewrite He.
    + exists tvc. destruct Hcore. split; cbn; try done. by rewrite list_lookup_insert_ne.
  - intros j0 tvj Hj. cbn in Hj. destruct (decide (j0 = i)) as [->|Hne].
    + rewrite list_lookup_insert in Hj by done. simplify_eq. split; [done|]. apply (Hs i tv Hi).
    + rewrite list_lookup_insert_ne in Hj by done. by eapply Hs.
  - intros j0 tvj Hj Hnc. cbn in Hj, Hnc. destruct (decide (j0 = i)) as [->|Hne].
    + rewrite list_lookup_insert in Hj by done. simplify_eq. by apply (Hm i tv).
    + rewrite list_lookup_insert_ne in Hj by done. by eapply Hm.
Qed.

Lemma wok_write w a i tv j x :
  wok w a -> vectors (tab w) !! i = Some tv ->
  i <> current (tab w) \/ keys tv !! j = Some Deleted ->
  wok (World (set_vec (tab w) i (with_entries tv (keys tv) (<[j:=VVal x]> (vals tv)))) (states w)) a.
Proof.
  intros [Ht Hc Hr] Hi Hcase.
  assert (Hlt : (i < length (vectors (tab w)))%nat) by (by apply lookup_lt_Some in Hi).
  split; cbn [tab states].
  - by apply tab_ok_write.
  - eapply Forall2_impl; [exact Hc|]. intros s c [Hsl H]. split; [cbn; by rewrite insert_length|].
    destruct (live s); [|done].
    destruct H as (i0 & k & tvs & [H1 H2 H3 H4 H5 H6 H7 H8]).
    destruct (decide (source s = i)) as [Heq|Hne].
    + exists i0, k, (with_entries tv (keys tv) (<[j:=VVal x]> (vals tv))).
      assert (tvs = tv) as -> by congruence. split; cbn; try done.
      * rewrite Heq. by apply list_lookup_insert.
      * destruct H6 as [H6|(Hd & Hk & y & Hy & Hny)]; [by left|right].
        split; [done|]. split; [done|]. destruct (decide (j = i0)) as [->|Hne].
        -- exists (VVal x). rewrite list_lookup_insert; [done|]. by apply lookup_lt_Some in Hy.
        -- exists y. by rewrite list_lookup_insert_ne.
    + exists i0, k, tvs. split; cbn; try done. by rewrite list_lookup_insert_ne.
  - intros i0 tv0 H0. cbn in H0. destruct (decide (i0 = i)) as [->|Hne].
    + rewrite list_lookup_insert in H0 by done. injection H0 as <-. by apply (Hr i tv).
    + rewrite list_lookup_insert_ne in H0 by done. by apply Hr.
Qed.

Context (grow : Z -> outcome Z) (N : nat).
Context (HN : grow_ok grow (Z.of_nat N)).

Lemma debt_bound h c : (debt since h c <= S (length (schedule c)))%nat.
Proof. unfold debt. destruct freshb; lia. Qed.

Lemma fullness_bound (tv : tvec) : (fullness tv <= 2)%nat.
Proof. unfold fullness. destruct full; [|lia]. destruct (_ <? _); lia. Qed.

Lemma wok_put w a k v fuel :
  wok w a -> (length (amap a) <= N)%nat ->
  (2 * length (schedule (clk (tab w))) + 6 <= fuel)%nat ->
  exists t', puthash P grow fuel (tab w) k v = Val t' /\
    wok (World t' (states w)) (AWorld (mset (amap a) k v) (map (cursor_put k) (cursors a))).
Proof.
  intros Hw Hlen Hf. destruct (t_core _ _ _ (w_tab _ _ Hw)) as [tv Hcore].
  destruct (puthash_ok P since HC grow N HN fuel (tab w) tv (amap a) k v Hcore (w_tab _ _ Hw) Hlen)
    as (t1 & t' & tv1 & tv' & Hp & Hok1 & Hk & Hch & Hpc & Hok' & Hle).
  { pose proof (debt_bound (hstate tv) (clk (tab w))). pose proof (fullness_bound tv). lia. }
  exists t'. split; [done|].
  pose proof (wok_keeps _ _ _ Hw Hk Hok1) as [_ Hc1 Hr1]. cbn [tab states] in *.
  split; cbn [tab states amap cursors].
  - done.
  - apply Forall2_fmap_r. eapply Forall2_impl; [exact Hc1|]. intros s c Hs. by eapply cur_ok_put.
  - by eapply changed_refs.
Qed.

Lemma wok_get w a k fuel :
  wok w a -> (length (amap a) <= N)%nat ->
  (2 * length (schedule (clk (tab w))) + 6 <= fuel)%nat ->
  exists t', gethash P grow fuel (tab w) k = Val (mget (amap a) k, t') /\
    wok (World t' (states w)) a.
Proof.
  intros Hw Hlen Hf. destruct (t_core _ _ _ (w_tab _ _ Hw)) as [tv Hcore].
  destruct (gethash_ok P since HC grow N HN fuel (tab w) tv (amap a) k Hcore (w_tab _ _ Hw) Hlen)
    as (t' & Hg & Hok' & Hk & Hle).
  { pose proof (debt_bound (hstate tv) (clk (tab w))). lia. }
  exists t'. split; [done|]. by apply wok_keeps.
Qed.

Lemma wok_remove w a k fuel :
  wok w a -> (length (amap a) <= N)%nat ->
  (2 * length (schedule (clk (tab w))) + 6 <= fuel)%nat ->
  exists t', remove_key P grow fuel (tab w) k =
      Val (bool_decide (is_Some (mget (amap a) k)), t') /\
    wok (World t' (states w))
        (AWorld (mdel (amap a) k) (map (cursor_remove (test P) k) (cursors a))).
Proof.
  intros Hw Hlen Hf. destruct (t_core _ _ _ (w_tab _ _ Hw)) as [tv Hcore].
  destruct (remove_key_ok P since HC grow N HN fuel (tab w) tv (amap a) k Hcore (w_tab _ _ Hw) Hlen)
    as (r & t' & Hg & Hok' & Hle & Hcase).
  { pose proof (debt_bound (hstate tv) (clk (tab w))). lia. }
  exists t'. rewrite Hg. destruct Hcase as [(-> & Hn & Hk)|(-> & Hs & Hrest)].
  - rewrite Hn, bool_decide_eq_false_2 by (by intros [? ?]). split; [done|].
    assert (Hdel : mdel (amap a) k = amap a).
    { apply mdel_absent. intros k' x Hin. by eapply mget_None_inv. }
    pose proof (wok_keeps w a t' Hw Hk) as Hw'. rewrite Hdel in Hok'. specialize (Hw' Hok').
    destruct Hw' as [_ Hc1 Hr1]. cbn [tab states] in *.
    split; cbn [tab states amap cursors]; [by rewrite Hdel| |done].
    apply Forall2_fmap_r. eapply Forall2_impl; [exact Hc1|]. intros s c Hsc.
    eapply cur_ok_remove_frame; [exact Hsc|done|done|]. rewrite Hdel. done.
  - rewrite bool_decide_eq_true_2 by done. split; [done|].
    destruct Hrest as (t1 & tv1 & tv' & j & k' & Hk & Hok1 & Hch & Hj & Ht & Hks & Hvs).
    pose proof (wok_keeps w a t1 Hw Hk Hok1) as [_ Hc1 Hr1]. cbn [tab states] in *.
    split; cbn [tab states amap cursors]; [done| |by eapply changed_refs].
    apply Forall2_fmap_r. eapply Forall2_impl; [exact Hc1|]. intros s c Hsc.
    eapply cur_ok_remove; try done.
    destruct Hch as (Hcur & _). apply (t_shape _ _ _ Hok1 _ _ Hcur).
Qed.

Lemma wok_clear w a :
  wok w a ->
  exists t', remove_all_keys P (tab w) = Val t' /\
    wok (World t' (states w)) (AWorld [] (map cursor_clear (cursors a))).
Proof.
  intros Hw. destruct (t_core _ _ _ (w_tab _ _ Hw)) as [tv Hcore].
  destruct (remove_all_keys_ok P since HC N (tab w) tv (amap a) Hcore (w_tab _ _ Hw))
    as (t' & Hg & Hok' & Hk & Hclk & Hcu).
  exists t'. split; [done|]. destruct Hw as [Ht Hc Hr] eqn:Ew.
  split; cbn [tab states amap cursors].
  - done.
  - apply Forall2_fmap_r. apply Forall2_lookup_both; [by eapply Forall2_length|].
    intros j s c Hj Hcj. eapply cur_ok_clear, cur_ok_keeps; [exact Hk| |].
    + by eapply (Forall2_lookup_lr _ _ _ _ _ _ Hc).
    + intros Hl tvs Htv. pose proof (live_cnt w a _ _ _ Hw Hj Hl Hcj tvs Htv). lia.
  - eapply wok_refs_keeps; [exact Hk| |exact Hr]. intros s. by eapply w_sources.
Qed.

Lemma cnt_snoc {A} (f : A -> bool) l x : cnt f (l ++ [x]) = (cnt f l + Nat.b2n (f x))%nat.
Proof.
  induction l as [|y l IH]; cbn [app]; rewrite !cnt_cons; [cbn; lia|]. lia.
Qed.

Lemma wok_iter w a fuel :
  wok w a -> (length (amap a) <= N)%nat ->
  (2 * length (schedule (clk (tab w))) + 6 <= fuel)%nat ->
  exists s t' k c, make_initial_state P grow fuel (tab w) = Val (s, t') /\
    cursor s = k /\
    advance (CursorSpec None (map fst (amap a)) [] (map fst (amap a))) k c /\
    wok (World t' (states w ++ [s])) (AWorld (amap a) (cursors a ++ [c])).
Proof.
  intros Hw Hlen Hf. destruct (t_core _ _ _ (w_tab _ _ Hw)) as [tv Hcore].
  destruct (make_initial_state_ok P since HC grow N HN fuel (tab w) tv (amap a) Hcore (w_tab _ _ Hw) Hlen)
    as (t1 & tv1 & Hcore1 & Hok1 & Hk1 & Hle1 & Hrun).
  { pose proof (debt_bound (hstate tv) (clk (tab w))). lia. }
  rewrite Hrun. clear Hrun. pose proof (wok_keeps _ _ _ Hw Hk1 Hok1) as Hw1.
  pose proof Hcore1 as [Hcur _ Hv Hmap _ _ _].
  assert (Hlt : (current t1 < length (vectors t1))%nat) by (by apply lookup_lt_Some in Hcur).
  unfold next_state. cbn [sindex source stoken skey scount sadditions sdeletions].
  rewrite (proj2 (Z.ltb_ge _ _)) by lia.
  set (t2 := set_vec t1 (current t1) (with_refs tv1 (refs tv1 + 1))).
  assert (Hg : get_vec t2 (current t1) = Val (with_refs tv1 (refs tv1 + 1))).
  { unfold get_vec. apply vread_val. unfold t2. cbn. by apply list_lookup_insert. }
  rewrite Hg. cbn [obind]. rewrite Nat2Z.id.
  set (c0 := CursorSpec None (map fst (amap a)) [] (map fst (amap a))).
  assert (Hah : ahead (keys tv1) (length (keys tv1)) c0).
  { split; cbn.
    - intros k Hk. apply elem_of_map_fst_inv in Hk as [x Hx].
      destruct (core_entry _ _ _ _ _ _ Hcore1 Hx) as (j & Hj & _).
      exists j. split; [by apply lookup_lt_Some in Hj|done].
    - intros j k k' _ _ Hin. by apply elem_of_nil in Hin.
    - intros j k _ Hj. destruct (proj2 (v_valued _ _ Hv) j k Hj) as [x Hx].
      apply kin_true. exists k. split; [|apply (test_refl P since HC)].
      eapply elem_of_map_fst. eapply core_get_some; done. }
  change (keys (with_refs tv1 (refs tv1 + 1))) with (keys tv1).
  destruct (ahead_advance tv1 _ _ (t_shape _ _ _ Hok1 _ _ Hcur) (Nat.le_refl _) Hah)
    as [(i & k & Hscan & Hi & Hki & Hadv & Hah')|(Hscan & Hadv)]; rewrite Hscan; cbn [obind].
  - eexists _, _, _, _. split; [reflexivity|].
    assert (Hcs : cursor (IState (current t1) (token tv1) (Some k) (Z.of_nat i) (0 + 1)
                            (additions tv1) (deletions tv1)) = Some k).
    { unfold cursor. cbn. by rewrite (proj2 (Z.ltb_ge _ _)) by lia. }
    split; [exact Hcs|]. split; [exact Hadv|].
    destruct Hw1 as [Ht Hc Hr]. cbn [tab states] in *.
    split; cbn [tab states amap cursors].
    + by apply tab_ok_refs.
    + apply Forall2_app.
      * eapply Forall2_impl; [exact Hc|]. intros s c Hs.
        eapply cur_ok_alike; [|exact Hs]. by apply alike_refs.
      * constructor; [|constructor]. split; [cbn; by rewrite insert_length|].
        unfold live. cbn [sindex]. rewrite (proj2 (Z.ltb_ge _ _)) by lia. cbn [negb].
        exists i, k, (with_refs tv1 (refs tv1 + 1)). split; cbn; try done.
        -- by apply list_lookup_insert.
        -- by left.
        -- intros _ k' Hin. apply elem_of_list_singleton in Hin as ->.
           destruct (proj2 (v_valued _ _ Hv) i k Hki) as [x Hx].
           apply kin_true. exists k. split; [|apply (test_refl P since HC)].
           eapply elem_of_map_fst. eapply core_get_some; done.
    + intros j tvj Hj. cbn in Hj. rewrite cnt_snoc. unfold live_on at 2. cbn [source].
      destruct (decide (j = current t1)) as [->|Hne].
      * rewrite list_lookup_insert in Hj by done. simplify_eq. cbn [refs with_refs].
        specialize (Hr _ _ Hcur). destruct (live _ && _); cbn; lia.
      * rewrite list_lookup_insert_ne in Hj by done. rewrite bool_decide_eq_false_2 by done.
        rewrite andb_false_r. specialize (Hr _ _ Hj). cbn. lia.
  - eexists _, _, _, _. split; [reflexivity|]. split; [reflexivity|].
    split; [exact Hadv|].
    destruct Hw1 as [Ht Hc Hr]. cbn [tab states] in *.
    assert (Heq : set_vec t2 (current t1)
        (with_refs (with_refs tv1 (refs tv1 + 1)) (refs (with_refs tv1 (refs tv1 + 1)) - 1)) =
      set_vec t1 (current t1) (with_refs tv1 (refs tv1))).
    { unfold t2, set_vec, with_refs. cbn. rewrite list_insert_insert. do 4 f_equal. lia. }
    rewrite Heq. split; cbn [tab states amap cursors].
    + by apply tab_ok_refs.
    + apply Forall2_app.
      * eapply Forall2_impl; [exact Hc|]. intros s c Hs.
        eapply cur_ok_alike; [|exact Hs]. by apply alike_refs.
      * constructor; [|constructor]. split; [cbn; by rewrite insert_length|]. done.
    + intros j tvj Hj. cbn in Hj. rewrite cnt_snoc. unfold live_on at 2, live. cbn.
      destruct (decide (j = current t1)) as [->|Hne].
      * rewrite list_lookup_insert in Hj by done. simplify_eq. cbn [refs with_refs].
        specialize (Hr _ _ Hcur). lia.
      * rewrite list_lookup_insert_ne in Hj by done. specialize (Hr _ _ Hj). lia.
Qed.

Lemma live_on_live i s : live_on i s = true -> live s = true /\ source s = i.
Proof. unfold live_on. rewrite andb_true_iff, bool_decide_eq_true. done. Qed.

Lemma wok_next w a j s c :
  wok w a -> states w !! j = Some s -> cursors a !! j = Some c -> live s = true ->
  exists s' t' c', next_state (tab w) s = Val (s', t') /\
    advance c (cursor s') c' /\
    wok (World t' (<[j := s']> (states w))) (AWorld (amap a) (<[j := c']> (cursors a))).
Proof.
  intros Hw Hj Hcj Hl. pose proof Hw as [Ht Hc Hr].
  destruct (Forall2_lookup_lr _ _ _ _ _ _ Hc Hj Hcj) as [Hsl Hact]. rewrite Hl in Hact.
  destruct Hact as (n & k0 & tv & [H1 H2 H3 H4 H5 H6 H7 H8]).
  assert (Hsj : (j < length (states w))%nat) by (by apply lookup_lt_Some in Hj).
  unfold next_state. unfold live in Hl. apply negb_true_iff in Hl. rewrite Hl.
  unfold get_vec. rewrite (vread_val _ _ _ H4). cbn [obind]. rewrite H1, Nat2Z.id.
  assert (Hn : (n <= length (keys tv))%nat).
  { destruct H6 as [H6|[H6 _]]; apply lookup_lt_Some in H6; lia. }
  pose proof (t_shape _ _ _ Ht _ _ H4) as Hsh.
  destruct (ahead_advance tv n c Hsh Hn H7)
    as [(i & k & Hscan & Hi & Hki & Hadv & Hah')|(Hscan & Hadv)]; rewrite Hscan; cbn [obind].
  - eexists _, _, _. split; [reflexivity|].
    assert (Hcs : cursor (IState (source s) (stoken s) (Some k) (Z.of_nat i) (scount s + 1)
                            (sadditions s) (sdeletions s)) = Some k).
    { unfold cursor. cbn. by rewrite (proj2 (Z.ltb_ge _ _)) by lia. }
    rewrite Hcs. split; [exact Hadv|].
    split; cbn [tab states amap cursors].
    + done.
    + apply Forall2_insert; [done|]. split; [done|].
      unfold live. cbn [sindex]. rewrite (proj2 (Z.ltb_ge _ _)) by lia. cbn [negb].
      exists i, k, tv. split; cbn; try done.
      * by left.
      * intros Hsc k' Hin. apply elem_of_cons in Hin as [->|Hin]; [|by apply H8].
        destruct (t_core _ _ _ Ht) as [tvc Hcore].
        assert (tvc = tv) as -> by (pose proof (c_cur _ _ _ _ Hcore); congruence).
        destruct (proj2 (proj1 Hsh) i k Hki) as [x Hx].
        apply kin_true. exists k. split; [|apply (test_refl P since HC)].
        eapply elem_of_map_fst. eapply core_get_some; done.
    + intros i0 tv0 H0. specialize (Hr _ _ H0).
      match goal with |- context [<[j := ?x]> (states w)] =>
        pose proof (cnt_insert (live_on i0) (states w) j s x Hj) as Hcnt;
        assert (Hlo : live_on i0 x = live_on i0 s) end.
      { unfold live_on, live. cbn [source sindex].
        by rewrite Hl, (proj2 (Z.ltb_ge (Z.of_nat i) 0)) by lia. }
      rewrite Hlo in Hcnt. lia.
  - eexists _, _, _. split; [reflexivity|]. split; [exact Hadv|].
    split; cbn [tab states amap cursors].
    + by apply tab_ok_refs.
    + apply Forall2_insert.
      * eapply Forall2_impl; [exact Hc|]. intros s0 c0 Hs.
        eapply cur_ok_alike; [|exact Hs]. by apply alike_refs.
      * split; [cbn; by rewrite insert_length|]. done.
    + intros i0 tv0 H0. cbn in H0.
      match goal with |- context [<[j := ?x]> (states w)] =>
        pose proof (cnt_insert (live_on i0) (states w) j s x Hj) as Hcnt;
        assert (Hlo : live_on i0 x = false) by done end.
      rewrite Hlo in Hcnt.
      assert (Hlo' : live_on i0 s = bool_decide (source s = i0)).
      { unfold live_on, live. by rewrite Hl. }
      rewrite Hlo' in Hcnt. cbn [Nat.b2n] in Hcnt.
      destruct (decide (i0 = source s)) as [->|Hne].
      * rewrite list_lookup_insert in H0 by done. simplify_eq. cbn [refs with_refs].
        specialize (Hr _ _ H4). rewrite bool_decide_eq_true_2 in Hcnt by done. cbn in Hcnt. lia.
      * rewrite list_lookup_insert_ne in H0 by done. specialize (Hr _ _ H0). lia.
Qed.

Lemma cursor_at w a j s c :
  wok w a -> states w !! j = Some s -> cursors a !! j = Some c -> cursor s = at_key c.
Proof.
  intros Hw Hj Hcj. destruct (Forall2_lookup_lr _ _ _ _ _ _ (w_cur _ _ Hw) Hj Hcj) as [_ H].
  unfold cursor, live in *. destruct (sindex s <? 0); cbn in H; [done|].
  destruct H as (i & k & tv & [H1 H2 H3 _ _ _ _ _]). congruence.
Qed.

(** ** One operation *)
Definition adds1 (o : op (K := K) (V := V)) : nat :=
  match o with OPut _ _ | OSetElement _ _ => 1 | _ => 0 end.

Lemma length_mdel_le m k : (length (mdel m k) <= length m)%nat.
Proof.
  unfold TableSpec.mdel. induction m as [|p m IH]; [done|]. cbn.
  destruct (negb (test P k p.1)); cbn; lia.
Qed.

Lemma step_ok w a o :
  wok w a -> (length (amap a) <= N)%nat ->
  exists r w' a', step P grow w o = Val (r, w') /\ spec_step a o r a' /\ wok w' a' /\
    (length (amap a') <= length (amap a) + adds1 o)%nat.
Proof.
  intros Hw Hlen.
  assert (Hst : forall i, (states w !! i = None /\ cursors a !! i = None) \/
     exists s c, states w !! i = Some s /\ cursors a !! i = Some c).
  { intros i. pose proof (Forall2_length _ _ _ (w_cur _ _ Hw)) as Hl.
    destruct (states w !! i) as [s|] eqn:E.
    - right. destruct (Forall2_lookup_l _ _ _ _ _ (w_cur _ _ Hw) E) as (c & Hc & _). eauto.
    - left. split; [done|]. apply lookup_ge_None. apply lookup_ge_None in E. lia. }
  assert (HF : (2 * length (schedule (clk (tab w))) + 6 <= retry_fuel (tab w))%nat)
    by (unfold retry_fuel; lia).
  destruct o as [k|k v|k| | | | |i|i|i|i|i v|i|i]; cbn [step adds1].
  - destruct (wok_get w a k _ Hw Hlen HF) as (t' & Hg & Hw'). rewrite Hg. cbn [obind].
    eexists _, _, a. split; [reflexivity|]. split; [constructor|]. split; [done|lia].
  - destruct (wok_put w a k v _ Hw Hlen HF) as (t' & Hg & Hw'). rewrite Hg. cbn [obind].
    eexists _, _, _. split; [reflexivity|]. split; [constructor|]. split; [done|].
    cbn. pose proof (length_mset_le P (amap a) k v). lia.
  - destruct (wok_remove w a k _ Hw Hlen HF) as (t' & Hg & Hw'). rewrite Hg. cbn [obind].
    eexists _, _, _. split; [reflexivity|]. split; [constructor|]. split; [done|].
    cbn. pose proof (length_mdel_le (amap a) k). lia.
  - destruct (wok_clear w a Hw) as (t' & Hg & Hw'). rewrite Hg. cbn [obind].
    eexists _, _, _. split; [reflexivity|]. split; [constructor|]. split; [done|]. cbn. lia.
  - destruct (t_core _ _ _ (w_tab _ _ Hw)) as [tv [Hcur _ Hv Hmap _ _ _]].
    unfold table_size, cur_vec, get_vec. rewrite (vread_val _ _ _ Hcur). cbn [obind].
    rewrite (vec_ok_present P _ Hv), (Permutation_length Hmap).
    eexists _, _, a. split; [reflexivity|]. split; [constructor|]. split; [done|lia].
  - destruct (t_core _ _ _ (w_tab _ _ Hw)) as [tv [Hcur _ Hv Hmap _ _ _]].
    unfold table_empty, cur_vec, get_vec. rewrite (vread_val _ _ _ Hcur). cbn [obind].
    rewrite (vec_ok_present P _ Hv), (Permutation_length Hmap).
    assert ((Z.of_nat (length (amap a)) =? 0) = bool_decide (amap a = [])) as ->.
    { destruct (amap a); cbn [length]; [by rewrite bool_decide_eq_true_2|].
      rewrite bool_decide_eq_false_2 by done. lia. }
    eexists _, _, a. split; [reflexivity|]. split; [constructor|]. split; [done|lia].
  - destruct (wok_iter w a _ Hw Hlen HF) as (s & t' & k & c & Hg & Hcs & Hadv & Hw').
    rewrite Hg. cbn [obind]. rewrite Hcs.
    eexists _, _, _. split; [reflexivity|]. split; [by econstructor|]. split; [done|]. cbn. lia.
  - unfold on_state. destruct (Hst i) as [[-> Hn]|(s & c & Hs & Hc)].
    { eexists _, _, a. split; [reflexivity|]. split; [|split; [done|lia]].
      apply (spec_no_state _ _ i); [done|]. by left. }
    rewrite Hs. pose proof (cursor_at _ _ _ _ _ Hw Hs Hc) as Hat.
    destruct (live s) eqn:El.
    + destruct (wok_next w a i s c Hw Hs Hc El) as (s' & t' & c' & Hn & Hadv & Hw').
      rewrite Hn. cbn [obind]. eexists _, _, _. split; [reflexivity|].
      split; [|split; [exact Hw'|cbn; lia]].
      econstructor; [exact Hc| |exact Hadv].
      destruct (Forall2_lookup_lr _ _ _ _ _ _ (w_cur _ _ Hw) Hs Hc) as [_ H]. rewrite El in H.
      destruct H as (i0 & k & tv & [_ _ H3 _ _ _ _ _]). rewrite H3. done.
    + unfold next_state. unfold live in El. apply negb_false_iff in El. rewrite El. cbn [obind].
      unfold cursor in *. rewrite El in *.
      eexists _, _, a. split; [reflexivity|]. split; [by eapply spec_next_finished|].
      split; [|lia]. rewrite list_insert_id by done. by destruct w.
  - unfold on_state. destruct (Hst i) as [[-> Hn]|(s & c & Hs & Hc)].
    { eexists _, _, a. split; [reflexivity|]. split; [|split; [done|lia]].
      apply (spec_no_state _ _ i); [done|]. right. by left. }
    rewrite Hs. pose proof (cursor_at _ _ _ _ _ Hw Hs Hc) as Hat.
    destruct (t_core _ _ _ (w_tab _ _ Hw)) as [tv [_ _ _ _ _ Hweak _]].
    unfold finished_state. rewrite Hweak. cbn [negb].
    pose proof (spec_finished (V := V) (test P) a i c Hc) as Hsp. rewrite <- Hat in Hsp.
    destruct (Forall2_lookup_lr _ _ _ _ _ _ (w_cur _ _ Hw) Hs Hc) as [_ Hlv].
    unfold cursor, live in *. destruct (sindex s <? 0) eqn:El; cbn [negb] in *; cbn [obind].
    + eexists _, _, a. split; [reflexivity|]. split; [exact Hsp|]. split; [by destruct w|lia].
    + destruct Hlv as (i0 & k & tvs & [_ H2 _ _ _ _ _ _]). rewrite H2 in Hsp.
      eexists _, _, a. split; [reflexivity|]. split; [exact Hsp|]. split; [by destruct w|lia].
  - unfold on_state. destruct (Hst i) as [[-> Hn]|(s & c & Hs & Hc)].
    { eexists _, _, a. split; [reflexivity|]. split; [|split; [done|lia]].
      apply (spec_no_state _ _ i); [done|]. right. right. by left. }
    rewrite Hs. pose proof (cursor_at _ _ _ _ _ Hw Hs Hc) as Hat.
    destruct (Forall2_lookup_lr _ _ _ _ _ _ (w_cur _ _ Hw) Hs Hc) as [_ Hlv].
    unfold current_key, cursor, live in *. destruct (sindex s <? 0) eqn:El; cbn [negb] in *.
    + eexists _, _, a. split; [reflexivity|]. split; [|split; [done|lia]].
      eapply spec_error; [exact Hc|done|by left].
    + destruct Hlv as (i0 & k & tvs & [_ H2 _ _ _ _ _ _]). rewrite H2 in *.
      eexists _, _, a. split; [reflexivity|]. split; [by econstructor|]. split; [done|lia].
  - unfold on_state. destruct (Hst i) as [[-> Hn]|(s & c & Hs & Hc)].
    { eexists _, _, a. split; [reflexivity|]. split; [|split; [done|lia]].
      apply (spec_no_state _ _ i); [done|]. right. right. right. by left. }
    rewrite Hs. pose proof (cursor_at _ _ _ _ _ Hw Hs Hc) as Hat.
    destruct (Forall2_lookup_lr _ _ _ _ _ _ (w_cur _ _ Hw) Hs Hc) as [_ Hlv].
    unfold current_element, cursor, live in *. destruct (sindex s <? 0) eqn:El; cbn [negb] in *.
    + eexists _, _, a. split; [reflexivity|]. split; [|split; [done|lia]].
      eapply spec_error; [exact Hc|done|right; by left].
    + destruct Hlv as (i0 & k & tvs & [H1 H2 H3 H4 H5 H6 H7 H8]).
      unfold get_vec. rewrite (vread_val _ _ _ H4). cbn [obind]. rewrite H1.
      pose proof (t_shape _ _ _ (w_tab _ _ Hw) _ _ H4) as [[Hvl Hvv] Hd].
      destruct (wok_get w a k _ Hw Hlen HF) as (t' & Hg & Hw').
      destruct H6 as [H6|(Hdel & Hkin & x & Hx & Hnx)].
      * destruct (Hvv _ _ H6) as [x Hx].
        rewrite (zread_val _ _ (VVal x)) by (rewrite ?Nat2Z.id; lia || done). cbn [obind].
        rewrite (zread_val _ _ (Key k)) by (rewrite ?Nat2Z.id; lia || done). cbn [obind].
        cbn [andb]. destruct (token_valid tvs (stoken s)) eqn:Etok.
        -- eexists _, _, a. split; [reflexivity|]. split; [|split; [by destruct w|lia]].
           eapply spec_element; [exact Hc|exact H3|].
           destruct (t_core _ _ _ (w_tab _ _ Hw)) as [tvc Hcore].
           assert (source s = current (tab w)) as Hsc.
           { destruct (decide (source s = current (tab w))) as [|Hne]; [done|].
             pose proof (t_marked _ _ _ (w_tab _ _ Hw) _ _ H4 Hne) as Hmk.
             unfold token_valid in Etok. rewrite Hmk in Etok. by rewrite ?andb_false_r in Etok. }
           assert (tvc = tvs) as -> by (pose proof (c_cur _ _ _ _ Hcore); congruence).
           eapply (mget_some P since HC); [by eapply core_kd|by eapply core_get_some|].
           apply (test_refl P since HC).
        -- unfold current_key. rewrite El, H2. cbn [obind]. rewrite Hg. cbn [obind].
           destruct (mget (amap a) k) as [y|] eqn:Em; cbn [default].
           ++ eexists _, _, a. split; [reflexivity|]. split; [|split; [done|lia]].
              eapply spec_element; done.
           ++ eexists _, _, a. split; [reflexivity|]. split; [|split; [done|lia]].
              eapply spec_element_removed; [exact Hc|exact H3|by right|]. right. by eexists.
      * rewrite (zread_val _ _ x) by (rewrite ?Nat2Z.id; lia || done). cbn [obind].
        rewrite (zread_val _ _ Deleted) by (rewrite ?Nat2Z.id; lia || done). cbn [obind andb].
        destruct x as [| |x]; [done| |].
        -- eexists _, _, a. split; [reflexivity|]. split; [|split; [done|lia]].
           eapply spec_element_removed; [exact Hc|exact H3|by left|by left].
        -- unfold current_key. rewrite El, H2. cbn [obind]. rewrite Hg. cbn [obind].
           eexists _, _, a. split; [reflexivity|]. split; [|split; [done|lia]].
           eapply spec_element_removed; [exact Hc|exact H3|by left|]. right. by eexists.
  - unfold on_state. destruct (Hst i) as [[-> Hn]|(s & c & Hs & Hc)].
    { eexists _, _, a. split; [reflexivity|]. split; [|split; [done|lia]].
      apply (spec_no_state _ _ i); [done|]. do 5 right. by eexists. }
    rewrite Hs. pose proof (cursor_at _ _ _ _ _ Hw Hs Hc) as Hat.
    destruct (Forall2_lookup_lr _ _ _ _ _ _ (w_cur _ _ Hw) Hs Hc) as [_ Hlv].
    unfold set_current_element, cursor, live in *. destruct (sindex s <? 0) eqn:El; cbn [negb] in *.
    + eexists _, _, a. split; [reflexivity|]. split; [|split; [done|lia]].
      eapply spec_error; [exact Hc|done|]. right. right. by eexists.
    + destruct Hlv as (i0 & k & tvs & [H1 H2 H3 H4 H5 H6 H7 H8]).
      unfold get_vec. rewrite (vread_val _ _ _ H4). cbn [obind]. rewrite H1.
      pose proof (t_shape _ _ _ (w_tab _ _ Hw) _ _ H4) as [[Hvl Hvv] Hd].
      assert (Hi0 : (i0 < length (keys tvs))%nat).
      { destruct H6 as [H6|[H6 _]]; by apply lookup_lt_Some in H6. }
      rewrite zwrite_val by lia. cbn [obind]. rewrite Nat2Z.id.
      set (tv2 := with_entries tvs (keys tvs) (<[i0:=VVal v]> (vals tvs))).
      set (t2 := set_vec (tab w) (source s) tv2).
      change (keys tv2) with (keys tvs).
      change (token_valid tv2 (stoken s)) with (token_valid tvs (stoken s)).
      assert (Hput : wok (World t2 (states w)) a ->
        exists t', puthash P grow (retry_fuel (tab w)) t2 k v = Val t' /\
          wok (World t' (states w))
              (AWorld (mset (amap a) k v) (map (cursor_put k) (cursors a)))).
      { intros Hw2. apply (wok_put (World t2 (states w)) a k v _ Hw2 Hlen). apply HF. }
      assert (Hlm : (length (mset (amap a) k v) <= length (amap a) + 1)%nat).
      { pose proof (length_mset_le P (amap a) k v). lia. }
      unfold current_key. rewrite El, H2.
      destruct H6 as [H6|(Hdel & Hkin & x & Hx & Hnx)].
      * rewrite (zread_val _ _ (Key k)) by (rewrite ?Nat2Z.id; lia || done). cbn [obind orb].
        destruct (token_valid tvs (stoken s)) eqn:Etok; cbn [negb].
        -- destruct (t_core _ _ _ (w_tab _ _ Hw)) as [tvc Hcore].
           assert (source s = current (tab w)) as Hsc.
           { destruct (decide (source s = current (tab w))) as [|Hne]; [done|].
             pose proof (t_marked _ _ _ (w_tab _ _ Hw) _ _ H4 Hne) as Hmk.
             unfold token_valid in Etok. rewrite Hmk in Etok. by rewrite ?andb_false_r in Etok. }
           assert (tvc = tvs) as -> by (pose proof (c_cur _ _ _ _ Hcore); congruence).
           eexists _, _, _. split; [reflexivity|]. split; [by eapply spec_set_element|].
           split; [|exact Hlm].
           assert (Hch : changed (tab w) t2 tvs tv2).
           { split; [by rewrite <- Hsc|]. unfold t2. rewrite Hsc. by repeat split. }
           assert (Hpc : put_change P (amap a) tvs tv2 k v).
           { apply put_old with i0 k; [done|apply (test_refl P since HC)|done|done]. }
           destruct Hw as [Ht Hcu Hr]. split; cbn [tab states amap cursors].
           ++ unfold t2. rewrite Hsc. eapply tab_ok_put_old; [done|done|exact H6|].
              apply (test_refl P since HC).
           ++ apply Forall2_fmap_r. eapply Forall2_impl; [exact Hcu|].
              intros s0 c0 Hs0. by eapply cur_ok_put.
           ++ by eapply changed_refs.
        -- assert (Hne : source s <> current (tab w)).
           { intros Hsc. destruct (t_core _ _ _ (w_tab _ _ Hw)) as [tvc Hcore].
             assert (tvc = tvs) as -> by (pose proof (c_cur _ _ _ _ Hcore); congruence).
             rewrite H5, (valid_token tvs) in Etok; [done|apply Hcore]. }
           destruct Hput as (t' & Hp & Hw').
           { apply wok_write; [done|done|by left]. }
           rewrite Hp. eexists _, _, _. split; [reflexivity|].
           split; [by eapply spec_set_element|]. split; [done|exact Hlm].
      * rewrite (zread_val _ _ Deleted) by (rewrite ?Nat2Z.id; lia || done). cbn [obind orb].
        destruct Hput as (t' & Hp & Hw').
        { apply wok_write; [done|done|by right]. }
        rewrite Hp. eexists _, _, _. split; [reflexivity|].
        split; [by eapply spec_set_element|]. split; [done|exact Hlm].
  - unfold on_state. destruct (Hst i) as [[-> Hn]|(s & c & Hs & Hc)].
    { eexists _, _, a. split; [reflexivity|]. split; [|split; [done|lia]].
      apply (spec_no_state _ _ i); [done|]. do 4 right. by left. }
    rewrite Hs. pose proof (cursor_at _ _ _ _ _ Hw Hs Hc) as Hat.
    pose proof Hw as [Ht Hcu Hr].
    pose proof (Forall2_lookup_lr _ _ _ _ _ _ Hcu Hs Hc) as Hok.
    destruct (lookup_lt_is_Some_2 (vectors (tab w)) (source s)) as [tv Htv]; [apply Hok|].
    unfold copy_state, get_vec. rewrite (vread_val _ _ _ Htv). cbn [obind]. rewrite Hat.
    eexists _, _, _. split; [reflexivity|]. split; [by econstructor|]. split; [|cbn; lia].
    split; cbn [tab states amap cursors].
    + by apply tab_ok_refs.
    + apply Forall2_app.
      * eapply Forall2_impl; [exact Hcu|]. intros s0 c0 Hs0.
        eapply cur_ok_alike; [|exact Hs0]. by apply alike_refs.
      * constructor; [|constructor]. eapply cur_ok_alike; [|exact Hok]. by apply alike_refs.
    + intros i0 tv0 H0. cbn in H0. rewrite cnt_snoc.
      destruct (decide (i0 = source s)) as [->|Hne].
      * rewrite list_lookup_insert in H0 by (by apply lookup_lt_Some in Htv). simplify_eq.
        cbn [refs with_refs]. specialize (Hr _ _ Htv). destruct (live_on _ s); cbn; lia.
      * rewrite list_lookup_insert_ne in H0 by done. specialize (Hr _ _ H0).
        unfold live_on at 2. rewrite bool_decide_eq_false_2 by done.
        rewrite andb_false_r. cbn. lia.
  - destruct (t_core _ _ _ (w_tab _ _ Hw)) as [tv [Hcur _ Hv Hmap _ Hweak _]].
    unfold purge, cur_vec, get_vec. rewrite (vread_val _ _ _ Hcur). cbn [obind].
    rewrite Hweak. cbn [obind].
    eexists _, _, a. split; [reflexivity|]. split; [constructor|]. split; [by destruct w|lia].
Qed.

Lemma run_ok os : forall w a,
  wok w a -> (length (amap a) + adds os <= N)%nat ->
  exists rs w' a', run P grow w os = Val (rs, w') /\ spec_run a os rs a' /\ wok w' a'.
Proof.
  induction os as [|o os IH]; intros w a Hw Hlen.
  - exists [], w, a. split; [done|]. split; [constructor|done].
  - assert (Hadds : adds (o :: os) = (adds1 o + adds os)%nat).
    { unfold adds. destruct o; cbn; done. }
    destruct (step_ok w a o Hw ltac:(lia)) as (r & w1 & a1 & Hs & Hsp & Hw1 & Hl1).
    destruct (IH w1 a1 Hw1 ltac:(lia)) as (rs & w' & a' & Hr & Hsr & Hw').
    exists (r :: rs), w', a'. cbn [run]. rewrite Hs. cbn [obind]. rewrite Hr. cbn [obind].
    split; [done|]. split; [by econstructor|done].
Qed.

Lemma make_table_ok size c :
  size <= max_entries ->
  exists t, make_table P size false c = Val t /\ wok (World t []) (AWorld [] []).
Proof.
  intros Hsz. unfold make_table.
  destruct (make_table_vector_ok P (V := V) size Hsz) as
    (tv & Htv & Hv & He & _ & Hre & Hh & Hrf & Hadd & Hdel & Hpl).
  rewrite Htv. cbn [obind]. eexists. split; [reflexivity|].
  split; cbn [tab states amap cursors].
  - split.
    + exists tv. split; cbn; try done; [by rewrite He|].
      eapply placed_mono; [|exact Hpl]. lia.
    + intros i tvi Hi. cbn in Hi. apply list_lookup_singleton_Some in Hi as [_ <-].
      split; [apply Hv|by eapply (vec_ok_distinct P since HC)].
    + intros i tvi Hi Hne. cbn in Hi, Hne. apply list_lookup_singleton_Some in Hi as [-> _]. done.
  - constructor.
  - intros i tvi Hi. cbn in Hi. apply list_lookup_singleton_Some in Hi as [_ <-]. rewrite Hrf. done.
Qed.

End World.
