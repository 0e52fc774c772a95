(** Invariants of the lock machines: simple and recursive locks, semaphores. *)
From Verif Require Import Base LockModel LockSpec.
From Coq Require Import ZifyBool ZifyNat.
Open Scope Z_scope.

(** Sums over threads. *)
Fixpoint total (f : nat -> nat) (n : nat) : nat :=
  match n with O => 0%nat | S n => (total f n + f n)%nat end.
Lemma total_ext f g n : (forall u, (u < n)%nat -> f u = g u) -> total f n = total g n.
Proof. induction n as [|n IH]; cbn; intros H; [done|]. rewrite IH, H by (intros; try apply H; lia). done. Qed.
Lemma total_update f g n t :
  (t < n)%nat -> (forall u, u <> t -> f u = g u) -> (total g n + f t = total f n + g t)%nat.
Proof.
  induction n as [|n IH]; intros Ht H; [lia|]. cbn.
  destruct (decide (t = n)) as [-> |Hn].
  - rewrite (total_ext g f n); [lia|]. intros u Hu. symmetry. apply H. lia.
  - rewrite <- (H n) by done. specialize (IH ltac:(lia) H). lia.
Qed.
Lemma total_ge f n t : (t < n)%nat -> (f t <= total f n)%nat.
Proof. induction n as [|n IH]; intros Ht; [lia|]. cbn. destruct (decide (t = n)) as [-> |]; [lia|]. specialize (IH ltac:(lia)). lia. Qed.
Lemma total_zero f n : (forall u, (u < n)%nat -> f u = 0%nat) -> total f n = 0%nat.
Proof. induction n as [|n IH]; intros H; [done|]. cbn. rewrite IH, H; [done|lia|]. intros; apply H; lia. Qed.
Lemma total_pos f n : (0 < total f n)%nat -> exists u, (u < n)%nat /\ (0 < f u)%nat.
Proof.
  induction n as [|n IH]; cbn; intros H; [lia|]. destruct (decide (0 < f n)%nat) as [Hn|Hn].
  - exists n. lia.
  - destruct IH as (u & Hu & Hf); [lia|]. exists u. lia.
Qed.

Lemma waiting_in t ws : waiting t ws = true <-> t ∈ ws.
Proof.
  unfold waiting. rewrite existsb_exists. split.
  - intros (u & Hu & E). apply Nat.eqb_eq in E as ->. by apply elem_of_list_In.
  - intros H. exists t. split; [by apply elem_of_list_In|apply Nat.eqb_refl].
Qed.
Lemma remove_waiter_in u t ws : u ∈ remove_waiter t ws <-> u ∈ ws /\ u <> t.
Proof.
  unfold remove_waiter. rewrite !elem_of_list_In, filter_In.
  destruct (Nat.eqb_spec u t); naive_solver.
Qed.

(** ** Simple locks *)

Definition sl_iff (h : bool) (m : option nat) (t : nat) : Prop := h = true <-> m = Some t.
Definition sl_local (th : option (thread sl_op sl_point)) (m : option nat) (t : nat) (h hc : bool) : Prop :=
  match th with
  | None => h = false /\ m <> Some t
  | Some (Run (SWait _) S1) => h = false /\ m = Some t
  | Some (Run SRelease _) => h = false /\ sl_iff hc m t
  | Some (Run (SNotifWait _) (SParked | SRelock _)) => h = false /\ m <> Some t /\ hc = true
  | Some (Run (SNotifWait _) _) => h = false /\ sl_iff hc m t
  | _ => sl_iff h m t
  end.

Definition sl_calls (tr : list (event sl_op)) (t : nat) : bool * bool := fold_left (sl_call1 t) tr (false, false).
Lemma sl_calls_1 tr t : (sl_calls tr t).1 = sl_held tr t.
Proof.
  enough (H : forall b b0, (fold_left (sl_call1 t) tr (b, b0)).1 = fold_left (sl_hold1 t) tr b) by apply H.
  induction tr as [|e tr IH]; intros b b0; [done|]. cbn [fold_left]. apply (IH (sl_hold1 t b e)).
Qed.
Lemma sl_held_snoc tr e t : sl_held (tr ++ [e]) t = sl_hold1 t (sl_held tr t) e.
Proof. unfold sl_held. by rewrite fold_left_app. Qed.
Lemma sl_at_call_snoc tr e t :
  sl_held_at_call (tr ++ [e]) t =
    match e with ECall u _ => if (u =? t)%nat then sl_held tr t else sl_held_at_call tr t
               | _ => sl_held_at_call tr t end.
Proof.
  unfold sl_held_at_call. rewrite fold_left_app. cbn. rewrite <- sl_calls_1. done.
Qed.

Definition sl_inv (w : sl_world) (tr : list (event sl_op)) : Prop :=
  forall t, sl_local (sl_threads w !! t) (sl_mutex w) t (sl_held tr t) (sl_held_at_call tr t).

Definition ev_thread {O} (e : event O) : nat := match e with ECall t _ | ERet t _ _ => t end.
Lemma sl_other tr e u : ev_thread e <> u ->
  sl_held (tr ++ [e]) u = sl_held tr u /\ sl_held_at_call (tr ++ [e]) u = sl_held_at_call tr u.
Proof.
  intros H. rewrite sl_held_snoc, sl_at_call_snoc. apply Nat.eqb_neq in H.
  destruct e as [t o|t o r]; cbn in *; rewrite H; [by destruct o|]. destruct o, r; done.
Qed.

Lemma sl_frame th m m' t h hc :
  (m = Some t <-> m' = Some t) -> sl_local th m t h hc -> sl_local th m' t h hc.
Proof. unfold sl_local, sl_iff. destruct th as [[|[] []]|]; naive_solver. Qed.

(** What a step changes: the point of its thread, the mutex if it is free or
    the thread's own, and events of the thread are added. *)
Lemma sl_step_shape w t c w' es : sl_step w t c = Some (w', es) ->
  exists th, sl_threads w' = <[t := th]> (sl_threads w) /\ is_Some (sl_threads w !! t) /\
    (forall u, u <> t -> sl_mutex w = Some u <-> sl_mutex w' = Some u) /\
    (es = [] \/ exists e, es = [e] /\ ev_thread e = t).
Proof.
  unfold sl_step. destruct (sl_threads w !! t) as [[|o p]|] eqn:E; [| |done].
  - destruct c; intros [= <- <-]. eexists. split; [reflexivity|]. split; [done|]. split; [done|]. right. by eexists.
  - intros H.
    destruct o; unfold sl_wait, sl_release, sl_owned, sl_notif_wait, sl_notif_release, sl_notif_release_all in H;
      destruct p, c; try done;
      repeat match type of H with
      | match ?x with _ => _ end = _ => destruct x eqn:?
      | (if ?x then _ else _) = _ => destruct x eqn:?
      end; try done; unfold sl_at, sl_ret in H; injection H as <- <-; cbn;
      (eexists; split; [reflexivity|]; split; [done|]; split; [let v := fresh in let Hv := fresh in intros v Hv; try apply Nat.eqb_eq in Heqb; intuition congruence|];
       first [left; done | right; by eexists]).
Qed.

Lemma sl_local_step w t c w' es tr : sl_inv w tr -> sl_step w t c = Some (w', es) ->
  sl_local (sl_threads w' !! t) (sl_mutex w') t (sl_held (tr ++ es) t) (sl_held_at_call (tr ++ es) t).
Proof.
  intros Hi H. specialize (Hi t). unfold sl_step in H.
  destruct (sl_threads w !! t) as [[|o p]|] eqn:E; [| |done].
  - assert (Hl : (t < length (sl_threads w))%nat) by (by apply lookup_lt_Some in E).
    destruct c; try done. injection H as <- <-. cbn [sl_threads sl_mutex]. rewrite list_lookup_insert by done.
    rewrite sl_held_snoc, sl_at_call_snoc. unfold sl_local, sl_iff in *. cbn. rewrite Nat.eqb_refl.
    destruct o; cbn; try rewrite Nat.eqb_refl; naive_solver.
  - assert (Hl : (t < length (sl_threads w))%nat) by (by apply lookup_lt_Some in E).
    destruct o; unfold sl_wait, sl_release, sl_owned, sl_notif_wait, sl_notif_release, sl_notif_release_all in H;
      destruct p, c; try done;
      repeat match type of H with
      | match ?x with _ => _ end = _ => destruct x eqn:?
      | (if ?x then _ else _) = _ => destruct x eqn:?
      end; try done; unfold sl_at, sl_ret in H; injection H as <- <-; cbn [sl_threads sl_mutex sl_with_mutex sl_with_owner sl_with_waiters];
      rewrite list_lookup_insert by done;
      rewrite ?app_nil_r, ?sl_held_snoc, ?sl_at_call_snoc; unfold sl_local, sl_iff in *; cbn; rewrite ?Nat.eqb_refl;
      repeat match goal with
      | H : (?a =? ?b)%nat = true |- _ => apply Nat.eqb_eq in H; subst
      | H : (?a =? ?b)%nat = false |- _ => apply Nat.eqb_neq in H
      | H : sl_mutex _ = _ |- _ => rewrite H in *
      | |- context [match ?b with true => RFalse | false => RTrue end] => destruct b
      end; try (intuition congruence).
    split; [|done]. destruct (sl_held tr t); [|done]. discriminate (proj1 Hi eq_refl).
Qed.

Lemma sl_inv_run n tr w : run sl_step (sl_initial n) tr w -> sl_inv w tr.
Proof.
  induction 1 as [|tr w t c w' es Hr IH Hs].
  - intros t. cbn. destruct (replicate n Idle !! t) as [th|] eqn:E; [|done].
    apply lookup_replicate in E as [-> _]. done.
  - intros u. destruct (decide (u = t)) as [-> |Hu]; [by eapply sl_local_step|].
    destruct (sl_step_shape _ _ _ _ _ Hs) as (th & Et & _ & Hm & He).
    rewrite Et, list_lookup_insert_ne by done.
    assert (sl_held (tr ++ es) u = sl_held tr u /\ sl_held_at_call (tr ++ es) u = sl_held_at_call tr u) as [-> ->].
    { destruct He as [-> |(e & -> & He)]; [by rewrite app_nil_r|]. apply sl_other. congruence. }
    eapply sl_frame; [|apply IH]. by apply Hm.
Qed.

(** [owned?] when nobody waits for the notification and nobody releases a lock
    it does not hold. *)
Definition sl_simple (tr : list (event sl_op)) : Prop :=
  (forall t b, ~ ECall t (SNotifWait b) ∈ tr) /\
  forall pre t post, tr = pre ++ ECall t SRelease :: post -> sl_held pre t = true.

Lemma sl_simple_prefix tr es : sl_simple (tr ++ es) -> sl_simple tr.
Proof.
  intros [H1 H2]. split.
  - intros t b H. apply (H1 t b), elem_of_app. by left.
  - intros pre t post ->. apply (H2 pre t (post ++ es)). by rewrite <- app_assoc.
Qed.

Definition sl_owner_ok (w : sl_world) (tr : list (event sl_op)) : Prop :=
  (forall t b p, sl_threads w !! t = Some (Run (SNotifWait b) p) -> False) /\
  (forall t p, sl_threads w !! t = Some (Run SRelease p) -> sl_held_at_call tr t = true) /\
  (forall t, sl_owner w = Some t -> sl_held tr t = true \/ sl_threads w !! t = Some (Run SRelease S0)) /\
  (forall t, sl_held tr t = true -> sl_owner w = Some t).

Lemma sl_owner_run n tr w : run sl_step (sl_initial n) tr w -> sl_simple tr -> sl_owner_ok w tr.
Proof.
  induction 1 as [|tr w t c w' es Hr IH Hs]; intros Hsim.
  { assert (Hn : forall t x, replicate n (@Idle sl_op sl_point) !! t = Some x -> x = Idle).
    { intros t x E. by apply lookup_replicate in E as [-> _]. }
    repeat split; cbn; try done; intros; try (apply Hn in H; done). }
  pose proof (sl_inv_run _ _ _ Hr) as Hi. pose proof (sl_inv_run _ _ _ (run_step _ _ _ _ _ _ _ _ Hr Hs)) as Hi'.
  specialize (IH (sl_simple_prefix _ _ Hsim)) as (I1 & I2 & I3 & I4).
  destruct (sl_step_shape _ _ _ _ _ Hs) as (th & Et & [th0 Eth] & Hm & He).
  assert (Hoth : forall u, u <> t -> sl_held (tr ++ es) u = sl_held tr u /\
      sl_held_at_call (tr ++ es) u = sl_held_at_call tr u /\ sl_threads w' !! u = sl_threads w !! u).
  { intros u Hu. rewrite Et, list_lookup_insert_ne by done.
    destruct He as [-> |(e & -> & He)]; [by rewrite app_nil_r|].
    destruct (sl_other tr e u) as [-> ->]; [congruence|done]. }
  pose proof (Hi t) as Hit. unfold sl_step in Hs. rewrite Eth in *.
  assert (Hl : (t < length (sl_threads w))%nat) by (by apply lookup_lt_Some in Eth).
  assert (Hwt : sl_threads w' !! t = Some th) by (rewrite Et; by apply list_lookup_insert).
  assert (Hex : forall u, sl_mutex w = Some t -> sl_held tr u = true -> u = t).
  { intros u Hmt Hu. pose proof (Hi u) as Hiu. unfold sl_local, sl_iff in Hiu.
    destruct (sl_threads w !! u) as [[|[] []]|]; intuition congruence. }
  assert (Hrel : forall u, sl_mutex w = Some t -> sl_threads w !! u = Some (Run SRelease S0) -> u = t).
  { intros u Hmt Hu. pose proof (Hi u) as Hiu. pose proof (I2 _ _ Hu). rewrite Hu in Hiu.
    unfold sl_local, sl_iff in Hiu. intuition congruence. }
  assert (Hsame : sl_held (tr ++ es) t = sl_held tr t ->
      sl_owner w' = sl_owner w ->
      (forall b p, th <> Run (SNotifWait b) p) -> (forall p, th = Run SRelease p -> sl_held_at_call (tr ++ es) t = true) ->
      (th0 = Run SRelease S0 -> th = Run SRelease S0) -> sl_owner_ok w' (tr ++ es)).
  { intros Hh Ho H1 H2 H3. split_and!.
    - intros v b p Hv. destruct (decide (v = t)) as [-> |Hne]; [naive_solver|].
      destruct (Hoth v Hne) as (_ & _ & E). rewrite E in Hv. eauto.
    - intros v p Hv. destruct (decide (v = t)) as [-> |Hne].
      + apply (H2 p). congruence.
      + destruct (Hoth v Hne) as (_ & -> & E). rewrite E in Hv. eauto.
    - intros v Hv. rewrite Ho in Hv. destruct (I3 v Hv) as [H|H]; destruct (decide (v = t)) as [-> |Hne].
      + left. congruence.
      + left. by destruct (Hoth v Hne) as (-> & _).
      + right. rewrite Hwt. f_equal. apply H3. congruence.
      + right. by destruct (Hoth v Hne) as (_ & _ & ->).
    - intros v Hv. rewrite Ho. apply I4. destruct (decide (v = t)) as [-> |Hne]; [congruence|].
      by destruct (Hoth v Hne) as (<- & _). }
  clear Hi' Hr. destruct th0 as [|o p].
  { destruct c as [|o| | |]; try done. injection Hs as <- <-. cbn [sl_threads] in Hwt.
    rewrite list_lookup_insert in Hwt by done. injection Hwt as <-.
    destruct o; try (apply Hsame; [by rewrite sl_held_snoc|done|done|done|done]).
    - assert (Ht : sl_held tr t = true) by (apply (proj2 Hsim tr t []); done).
      assert (Ho : sl_owner w = Some t) by auto.
      assert (Hmt : sl_mutex w = Some t) by (unfold sl_local, sl_iff in Hit; tauto).
      split_and!; cbn [sl_threads sl_owner].
      + intros v b p Hv. destruct (decide (v = t)) as [-> |Hne]; [by rewrite list_lookup_insert in Hv|].
        rewrite list_lookup_insert_ne in Hv by done. eauto.
      + intros v p Hv. destruct (decide (v = t)) as [-> |Hne].
        * rewrite sl_at_call_snoc. by rewrite Nat.eqb_refl.
        * destruct (Hoth v Hne) as (_ & -> & _). rewrite list_lookup_insert_ne in Hv by done. eauto.
      + intros v Hv. right. assert (v = t) as -> by congruence. by apply list_lookup_insert.
      + intros v Hv. destruct (decide (v = t)) as [-> |Hne]; [done|].
        destruct (Hoth v Hne) as (E & _). rewrite E in Hv. auto.
    - exfalso. apply (proj1 Hsim t timed). apply elem_of_app. right. by apply elem_of_list_singleton. }
  destruct o.
  - destruct p, c; try done; cbn [sl_wait] in Hs.
    + destruct (sl_mutex w) as [u|] eqn:Em.
      * destruct (u =? t)%nat; [|done]. injection Hs as <- <-. cbn [sl_threads] in Hwt.
        rewrite list_lookup_insert in Hwt by done. injection Hwt as <-.
        apply Hsame; [by rewrite sl_held_snoc|done|done|done|done].
      * injection Hs as <- <-. cbn in Hwt. rewrite list_lookup_insert in Hwt by done. injection Hwt as <-.
        apply Hsame; [by rewrite app_nil_r|done|done|done|done].
    + destruct (sl_mutex w) as [u|]; [|done]. destruct (timed && negb (u =? t)%nat); [|done].
      injection Hs as <- <-. cbn [sl_threads] in Hwt. rewrite list_lookup_insert in Hwt by done. injection Hwt as <-.
      apply Hsame; [by rewrite sl_held_snoc|done|done|done|done].
    + injection Hs as <- <-. cbn in Hwt. rewrite list_lookup_insert in Hwt by done. injection Hwt as <-.
      destruct Hit as [Hh Hmt]. split_and!; cbn [sl_threads sl_owner sl_with_owner].
      * intros v b p Hv. destruct (decide (v = t)) as [-> |Hne]; [by rewrite list_lookup_insert in Hv|].
        rewrite list_lookup_insert_ne in Hv by done. eauto.
      * intros v p Hv. destruct (decide (v = t)) as [-> |Hne]; [by rewrite list_lookup_insert in Hv|].
        destruct (Hoth v Hne) as (_ & -> & _). rewrite list_lookup_insert_ne in Hv by done. eauto.
      * intros v [= <-]. left. rewrite sl_held_snoc. cbn. by rewrite Nat.eqb_refl.
      * intros v Hv. destruct (decide (v = t)) as [-> |Hne]; [done|].
        destruct (Hoth v Hne) as (E & _). rewrite E in Hv. by rewrite (Hex v Hmt Hv).
  - assert (Hc := I2 _ _ Eth). destruct Hit as [Hh Hmt]. apply Hmt in Hc as Hm1.
    destruct p, c; try done; cbn [sl_release] in Hs.
    + injection Hs as <- <-. cbn in Hwt. rewrite list_lookup_insert in Hwt by done. injection Hwt as <-.
      rewrite app_nil_r in *. split_and!; cbn [sl_threads sl_owner sl_with_owner].
      * intros v b p Hv. destruct (decide (v = t)) as [-> |Hne]; [by rewrite list_lookup_insert in Hv|].
        rewrite list_lookup_insert_ne in Hv by done. eauto.
      * intros v p Hv. destruct (decide (v = t)) as [-> |Hne]; [done|].
        rewrite list_lookup_insert_ne in Hv by done. eauto.
      * done.
      * intros v Hv. assert (v = t) by auto. congruence.
    + rewrite Hm1, Nat.eqb_refl in Hs. injection Hs as <- <-. cbn in Hwt. rewrite list_lookup_insert in Hwt by done. injection Hwt as <-.
      split_and!; cbn [sl_threads sl_owner sl_with_mutex].
      * intros v b p Hv. destruct (decide (v = t)) as [-> |Hne]; [by rewrite list_lookup_insert in Hv|].
        rewrite list_lookup_insert_ne in Hv by done. eauto.
      * intros v p Hv. destruct (decide (v = t)) as [-> |Hne]; [by rewrite list_lookup_insert in Hv|].
        destruct (Hoth v Hne) as (_ & -> & _). rewrite list_lookup_insert_ne in Hv by done. eauto.
      * intros v Hv. exfalso. destruct (I3 v Hv) as [H|H].
        { assert (v = t) by auto. congruence. }
        { assert (v = t) by auto. congruence. }
      * intros v Hv. destruct (decide (v = t)) as [-> |Hne].
        { rewrite sl_held_snoc in Hv. cbn in Hv. congruence. }
        destruct (Hoth v Hne) as (E & _). rewrite E in Hv. auto.
  - destruct p, c; try done. injection Hs as <- <-. cbn [sl_threads] in Hwt.
    rewrite list_lookup_insert in Hwt by done. injection Hwt as <-.
    apply Hsame; [by rewrite sl_held_snoc|done|done|done|done].
  - by destruct (I1 _ _ _ Eth).
  - destruct p, c; try done; cbn [sl_notif_release] in Hs;
      match type of Hs with (if ?b then _ else _) = _ => destruct b; [|done] end;
      injection Hs as <- <-; cbn in Hwt; rewrite list_lookup_insert in Hwt by done; injection Hwt as <-;
      (apply Hsame; [by rewrite sl_held_snoc|done|done|done|done]).
  - destruct p, c; try done; cbn [sl_notif_release_all] in Hs;
      injection Hs as <- <-; cbn in Hwt; rewrite list_lookup_insert in Hwt by done; injection Hwt as <-;
      (apply Hsame; [by rewrite sl_held_snoc|done|done|done|done]).
Qed.
