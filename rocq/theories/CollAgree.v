(** Collections that differ only in elements already visited: used for iterating over a heap that
    the loop changes (map-into). *)
From Verif Require Import Base CollModel CollSpec CollProofs.
From Coq Require Import ZArith ZifyBool ZifyNat.
Local Open Scope outcome_scope.
Local Open Scope Z_scope.

(** Same class, same keys in the same order, and the same elements under the keys not in [D]. *)
Definition agree (D : list key) (c c' : coll) : Prop :=
  match c, c' with
  | CVec k l, CVec k' l' => k = k' /\ length l' = length l /\ forall i : nat, KInt (Z.of_nat i) ∉ D -> l' !! i = l !! i
  | CDeq f l, CDeq f' l' => f = f' /\ length l' = length l /\ forall i : nat, KInt (Z.of_nat i) ∉ D -> l' !! i = l !! i
  | CList l, CList l' => length l' = length l /\ forall i : nat, KInt (Z.of_nat i) ∉ D -> l' !! i = l !! i
  | CRange f b n, CRange f' b' n' => f = f' /\ b = b' /\ n = n'
  | CRangeInf f b, CRangeInf f' b' => f = f' /\ b = b'
  | CTab kt t, CTab kt' t' => kt = kt' /\ t'.*1 = t.*1 /\ forall i k v, t !! i = Some (k, v) -> k ∉ D -> t' !! i = Some (k, v)
  | _, _ => False
  end.

Lemma agree_refl D c : agree D c c.
Proof. destruct c; cbn; auto. Qed.

Lemma agree_mono D D' c c' : D ⊆ D' -> agree D c c' -> agree D' c c'.
Proof. intros HD. destruct c, c'; cbn; naive_solver. Qed.

Lemma agree_trans D D' c c1 c2 : agree D c c1 -> agree D' c1 c2 -> agree (D ++ D') c c2.
Proof.
  destruct c, c1, c2; cbn; try done; intros; destruct_and?; subst; repeat split; try congruence.
  all: try (intros i Hi; rewrite elem_of_app in Hi; match goal with H : forall i, _ -> ?l2 !! i = _ |- ?l2 !! _ = _ => rewrite H by tauto; auto end).
  intros i k v Hi Hk. rewrite elem_of_app in Hk. apply H3; [|tauto]. apply H5; tauto.
Qed.

Lemma agree_fip D c c' : agree D c c' -> fip_of c' = fip_of c.
Proof.
  destruct c, c'; cbn; try done; intros; destruct_and?; subst; try done; congruence.
Qed.

Lemma agree_pos D c c' i : agree D c c' -> pos_state c' i = pos_state c i.
Proof. destruct c, c'; cbn; try done; intros; destruct_and?; subst; done. Qed.

Lemma agree_len D c c' : agree D c c' -> slen c' = slen c.
Proof.
  destruct c, c'; cbn; try done; intros; destruct_and?; subst; try done; f_equal; try done.
  rewrite <- (fmap_length fst t0), <- (fmap_length fst t). congruence.
Qed.

Lemma agree_seq D c c' : agree D c c' -> is_sequence c' = is_sequence c.
Proof. by destruct c, c'. Qed.

Lemma agree_size D c c' : agree D c c' -> coll_size c' = coll_size c.
Proof. intros H. apply agree_len in H as H'. destruct c, c'; cbn in *; try done; by injection H' as ->. Qed.

Lemma agree_value D c c' k : agree D c c' -> k ∉ D -> value_at c' k = value_at c k.
Proof.
  intros H Hk. destruct c, c'; cbn in H; try done; destruct_and?; subst.
  1-3: destruct k; cbn; try done; destruct (decide (0 <= z)); try done;
       match goal with H : forall i : nat, _ |- _ => apply H; by rewrite Z2Nat.id by lia end.
  - done.
  - done.
  - match goal with H : _.*1 = _.*1 |- _ => rename H into Hkeys end.
    match goal with H : forall i k v, _ |- _ => rename H into Hv end. cbn.
    revert t0 Hkeys Hv. induction t as [|[x v] t IH]; intros [|[x' v'] t'] Hkeys Hv; try done. cbn in Hkeys. injection Hkeys as -> Hkeys.
    cbn. destruct (decide (x = k)) as [E|E].
    + subst x. specialize (Hv 0%nat k v eq_refl Hk). cbn in Hv. injection Hv as ->. done.
    + specialize (IH t' Hkeys (fun i => Hv (S i))). destruct (list_find _ t) as [[? []]|], (list_find _ t') as [[? []]|]; cbn in *; done.
Qed.

Lemma agree_entry D c c' i k v : agree D c c' -> entry_at c i = Some (k, v) -> k ∉ D -> entry_at c' i = Some (k, v).
Proof.
  intros H He Hk. destruct (is_sequence c) eqn:Es.
  - apply entry_seq in He as [-> Hv]; [|done]. rewrite <- (agree_value _ _ _ _ H Hk) in Hv.
    unfold entry_at. rewrite Hv. destruct c; try done; by destruct c'.
  - destruct c, c'; try done. cbn in *. destruct_and?. eauto.
Qed.

Lemma agree_wf D c c' : agree D c c' -> (forall kt t, c = CTab kt t -> wf_coll c) -> forall kt t', c' = CTab kt t' -> NoDup t'.*1.
Proof. intros H Hwf kt t' ->. destruct c; try done. cbn in H. destruct H as (_ & -> & _). by apply (Hwf kt0 t). Qed.

(** The heap [h'] has, at the addresses [as_], collections that agree with those of [h]. *)
Definition similar (as_ : list nat) (h : heap) (D : list key) (h' : heap) : Prop :=
  forall a c, a ∈ as_ -> h !! a = Some c -> exists c', h' !! a = Some c' /\ agree D c c'.

Lemma similar_refl as_ h D : similar as_ h D h.
Proof. intros a c _ H. exists c. split; [done|]. apply agree_refl. Qed.

Lemma similar_mono as_ h D D' h' : D ⊆ D' -> similar as_ h D h' -> similar as_ h D' h'.
Proof. intros HD H a c Ha Hc. destruct (H a c Ha Hc) as (c' & H1 & H2). exists c'. split; [done|]. by eapply agree_mono. Qed.

Lemma similar_all as0 as_ h D h' cs : similar as0 h D h' -> as_ ⊆ as0 -> Forall2 (fun a c => h !! a = Some c) as_ cs ->
  exists cs', all_ h' as_ = Val cs' /\ Forall2 (agree D) cs cs'.
Proof.
  intros Hs Hsub H. revert Hsub. induction H as [|a c as_ cs Hc _ IH]; intros Hsub; [by exists []|].
  destruct (Hs a c) as (c' & Hc' & Ha); [apply Hsub; left|done|].
  destruct IH as (cs' & H1 & H2). { intros x Hx. apply Hsub. by right. }
  exists (c' :: cs'). split; [|by constructor]. cbn. rewrite (at_val _ _ _ Hc'). cbn. by rewrite H1.
Qed.

Lemma agree_map_fip D cs cs' : Forall2 (agree D) cs cs' -> map fip_of cs' = map fip_of cs.
Proof. induction 1 as [|c c' cs cs' H _ IH]; [done|]. cbn. by rewrite IH, (agree_fip _ _ _ H). Qed.

Lemma agree_map_pos D cs cs' i : Forall2 (agree D) cs cs' -> map (fun c => pos_state c i) cs' = map (fun c => pos_state c i) cs.
Proof. induction 1 as [|c c' cs cs' H _ IH]; [done|]. cbn. by rewrite IH, (agree_pos _ _ _ _ H). Qed.

Lemma agree_below D cs cs' i : Forall2 (agree D) cs cs' -> all_below i cs' <-> all_below i cs.
Proof.
  unfold all_below. induction 1 as [|c c' cs cs' H _ IH]; [done|]. rewrite !Forall_cons. by rewrite IH, (agree_len _ _ _ H).
Qed.

Lemma agree_aligned D cs cs' k : Forall2 (agree D) cs cs' -> k ∉ D -> aligned cs' k = aligned cs k.
Proof.
  intros H Hk. unfold aligned. induction H as [|c c' cs cs' H _ IH]; [done|]. cbn. by rewrite IH, (agree_value _ _ _ _ H Hk).
Qed.

Lemma agree_all_seq D cs cs' b : Forall2 (agree D) cs cs' -> Forall (fun c => is_sequence c = b) cs -> Forall (fun c => is_sequence c = b) cs'.
Proof. induction 1 as [|c c' cs cs' H _ IH]; [done|]. intros Hs. inversion_clear Hs. constructor; [by rewrite (agree_seq _ _ _ H)|auto]. Qed.

Lemma agree_wf_keys D c c' : agree D c c' -> wf_keys c -> wf_keys c'.
Proof. destruct c, c'; cbn; try done; intros; destruct_and?; subst; try done. congruence. Qed.
