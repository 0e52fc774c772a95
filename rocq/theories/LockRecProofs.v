(** Invariants of recursive locks. *)
From Verif Require Import Base LockModel LockSpec LockProofs.
From Coq Require Import ZifyBool ZifyNat.
Open Scope Z_scope.

Definition depth (m : option (nat * nat)) (t : nat) : nat :=
  match m with Some (u, k) => if (u =? t)%nat then k else 0%nat | None => 0%nat end.
Lemma depth_unique m t u : (0 < depth m t)%nat -> (0 < depth m u)%nat -> u = t.
Proof. unfold depth. destruct m as [[v k]|]; [|lia]. destruct (Nat.eqb_spec v t), (Nat.eqb_spec v u); lia. Qed.

Definition rl_calls (tr : list (event rl_op)) (t : nat) : nat * nat := fold_left (rl_call1 t) tr (0, 0)%nat.
Lemma rl_calls_1 tr t : (rl_calls tr t).1 = rl_held tr t.
Proof.
  enough (H : forall b b0, (fold_left (rl_call1 t) tr (b, b0)).1 = fold_left (rl_hold1 t) tr b) by apply H.
  induction tr as [|e tr IH]; intros b b0; [done|]. cbn [fold_left]. apply (IH (rl_hold1 t b e)).
Qed.
Lemma rl_held_snoc tr e t : rl_held (tr ++ [e]) t = rl_hold1 t (rl_held tr t) e.
Proof. unfold rl_held. by rewrite fold_left_app. Qed.
Lemma rl_at_call_snoc tr e t :
  rl_held_at_call (tr ++ [e]) t =
    match e with ECall u _ => if (u =? t)%nat then rl_held tr t else rl_held_at_call tr t
               | _ => rl_held_at_call tr t end.
Proof. unfold rl_held_at_call. rewrite fold_left_app. cbn. rewrite <- rl_calls_1. done. Qed.
Lemma rl_other tr e u : ev_thread e <> u ->
  rl_held (tr ++ [e]) u = rl_held tr u /\ rl_held_at_call (tr ++ [e]) u = rl_held_at_call tr u.
Proof.
  intros H. rewrite rl_held_snoc, rl_at_call_snoc. apply Nat.eqb_neq in H.
  destruct e as [t o|t o r]; cbn in *; rewrite H; [by destruct o|]. destruct o, r; done.
Qed.

(** The depth of the mutex that belongs to a thread at a given point. *)
Definition rl_local (th : option (thread rl_op rl_point)) (d k kc : nat) : Prop :=
  match th with
  | None => k = 0%nat /\ d = 0%nat
  | Some (Run (RLWait _) (R1 | R2)) => d = S k
  | Some (Run RLRelease R0) => d = kc /\ k = pred kc
  | Some (Run RLRelease R1) => d = k /\ k = pred kc /\ (0 < kc)%nat
  | Some (Run RLRelease R2) => False
  | Some (Run RLOwned R2) => False
  | _ => d = k
  end.
(** What it has contributed to [count]. *)
Definition pend (th : option (thread rl_op rl_point)) (k kc : nat) : nat :=
  match th with
  | Some (Run (RLWait _) R2) => S k
  | Some (Run RLRelease R0) => kc
  | Some (Run RLRelease R1) => S k
  | _ => k
  end.
Definition own (th : option (thread rl_op rl_point)) (k kc : nat) : nat :=
  match th with Some (Run RLRelease R0) => kc | _ => k end.

Definition rl_pend (w : rl_world) (tr : list (event rl_op)) (t : nat) : nat :=
  pend (rl_threads w !! t) (rl_held tr t) (rl_held_at_call tr t).
Definition rl_own (w : rl_world) (tr : list (event rl_op)) (t : nat) : nat :=
  own (rl_threads w !! t) (rl_held tr t) (rl_held_at_call tr t).
Record rl_inv (w : rl_world) (tr : list (event rl_op)) : Prop := {
  ri_pos : forall u k, rl_mutex w = Some (u, k) -> (0 < k)%nat;
  ri_local : forall t, rl_local (rl_threads w !! t) (depth (rl_mutex w) t) (rl_held tr t) (rl_held_at_call tr t);
  ri_count : rl_count w = Z.of_nat (total (rl_pend w tr) (length (rl_threads w)));
  ri_owner : forall t, (0 < rl_own w tr t)%nat -> rl_owner w = Some t }.

Lemma own_le th d k kc : rl_local th d k kc -> (own th k kc <= d)%nat.
Proof. destruct th as [[|[] []]|]; cbn; lia. Qed.

Ltac cases H :=
  repeat match type of H with
  | match ?x with _ => _ end = _ => destruct x eqn:?
  | (if ?x then _ else _) = _ => destruct x eqn:?
  end; try done.

Lemma rl_step_ok n w t c w' es tr : length (rl_threads w) = n ->
  rl_inv w tr -> rl_step w t c = Some (w', es) -> rl_inv w' (tr ++ es) /\ length (rl_threads w') = n.
Proof.
  intros Hn Hi Hs.
  assert (H : exists th th0, rl_threads w !! t = Some th0 /\ rl_threads w' = <[t := th]> (rl_threads w) /\
    (forall u, u <> t -> depth (rl_mutex w') u = depth (rl_mutex w) u) /\
    (es = [] \/ exists e, es = [e] /\ ev_thread e = t) /\
    (forall u k, rl_mutex w' = Some (u, k) -> (0 < k)%nat) /\
    rl_local (Some th) (depth (rl_mutex w') t) (rl_held (tr ++ es) t) (rl_held_at_call (tr ++ es) t) /\
    rl_count w' + Z.of_nat (rl_pend w tr t) =
      rl_count w + Z.of_nat (pend (Some th) (rl_held (tr ++ es) t) (rl_held_at_call (tr ++ es) t)) /\
    (rl_owner w' = Some t /\ (0 < depth (rl_mutex w') t)%nat \/
     rl_owner w' = rl_owner w /\
     ((0 < own (Some th) (rl_held (tr ++ es) t) (rl_held_at_call (tr ++ es) t))%nat -> (0 < rl_own w tr t)%nat))).
  { destruct Hi as [Hp Hl Hc Ho]. specialize (Hl t). unfold rl_step in Hs. unfold rl_pend, rl_own.
    destruct (rl_threads w !! t) as [th0|] eqn:Et; [|done].
    destruct th0 as [|o p].
    - destruct c as [|o| | |]; try done. injection Hs as <- <-. exists (Run o R0), Idle. cbn [rl_threads rl_mutex rl_owner rl_count].
      split; [done|]. split; [done|]. split; [done|]. split; [right; by eexists|]. split; [done|].
      rewrite rl_held_snoc, rl_at_call_snoc, Nat.eqb_refl. cbn in Hl.
      destruct o; cbn; rewrite ?Nat.eqb_refl; split_and!; try done; try lia; (right; split; [done|]); cbn; lia.
    - destruct o; unfold rl_wait, rl_release, rl_owned in Hs; destruct p, c; try done; cases Hs;
        unfold rl_at, rl_ret in Hs; injection Hs as <- <-;
        cbn [rl_threads rl_mutex rl_owner rl_count rl_with_mutex rl_with_owner rl_with_count];
        rewrite ?app_nil_r, ?rl_held_snoc, ?rl_at_call_snoc;
        repeat match goal with
        | H : (?a =? ?b)%nat = true |- _ => apply Nat.eqb_eq in H; subst
        | H : (?a =? ?b)%nat = false |- _ => apply Nat.eqb_neq in H
        | H : rl_mutex _ = Some (?u, ?k) |- _ => pose proof (Hp _ _ H); rewrite H in *; clear H
        | H : rl_mutex _ = _ |- _ => rewrite H in *; clear H
        end;
        repeat match goal with |- context [match ?k with O => None | S _ => _ end] => destruct k; try lia end;
        (eexists _, _; split; [reflexivity|]; split; [reflexivity|];
         split; [let v := fresh "v" in let Hv := fresh "Hv" in intros v Hv; unfold depth;
                 try (destruct (Nat.eqb_spec t v); [congruence|]); done|];
         split; [first [left; done | right; by eexists]|]);
        unfold rl_local, pend, own, depth in *; rewrite ?Nat.eqb_refl in *; cbn [rl_hold1] in *; rewrite ?Nat.eqb_refl in *;
        (split; [first [exact Hp | let E := fresh "E" in intros ? ? E; first [injection E as <- <-; lia | done] ]|]);
        try (rewrite (proj2 (Nat.eqb_neq _ _)) in * by eassumption);
        try (destruct (rl_mutex w) as [[? ?]|]; [match goal with |- context [(?a =? ?b)%nat] => destruct (a =? b)%nat end|]);
        split_and!; first [lia | left; split; [done|lia] | right; split; [done|lia] | (specialize (Hp _ _ eq_refl); lia)]. }
  destruct H as (th & th0 & Et & Et' & Hd & He & Hp' & Hl' & Hc' & Ho').
  destruct Hi as [Hp Hl Hc Ho].
  assert (Hlt : (t < length (rl_threads w))%nat) by (by apply lookup_lt_Some in Et).
  assert (Hwt : rl_threads w' !! t = Some th) by (rewrite Et'; by apply list_lookup_insert).
  assert (Hoth : forall u, u <> t -> rl_held (tr ++ es) u = rl_held tr u /\
      rl_held_at_call (tr ++ es) u = rl_held_at_call tr u /\ rl_threads w' !! u = rl_threads w !! u).
  { intros u Hu. rewrite Et', list_lookup_insert_ne by done.
    destruct He as [-> |(e & -> & He)]; [by rewrite app_nil_r|].
    destruct (rl_other tr e u) as [-> ->]; [congruence|done]. }
  assert (Hpt : rl_pend w' (tr ++ es) t = pend (Some th) (rl_held (tr ++ es) t) (rl_held_at_call (tr ++ es) t)).
  { unfold rl_pend. by rewrite Hwt. }
  assert (Hot : rl_own w' (tr ++ es) t = own (Some th) (rl_held (tr ++ es) t) (rl_held_at_call (tr ++ es) t)).
  { unfold rl_own. by rewrite Hwt. }
  assert (Hlen : length (rl_threads w') = length (rl_threads w)) by (rewrite Et'; apply insert_length).
  split; [|congruence]. split.
  - done.
  - intros u. destruct (decide (u = t)) as [-> |Hu]; [by rewrite Hwt|].
    destruct (Hoth u Hu) as (-> & -> & ->). rewrite Hd by done. apply Hl.
  - rewrite Hlen. pose proof (total_update (rl_pend w tr) (rl_pend w' (tr ++ es)) _ t Hlt) as Htot.
    lapply Htot; [intros; lia|]. intros u Hu. unfold rl_pend. by destruct (Hoth u Hu) as (-> & -> & ->).
  - intros u Hu. destruct (decide (u = t)) as [-> |Hne].
    + destruct Ho' as [[H _]|[-> H]]; [done|]. apply Ho, H. by rewrite <- Hot.
    + assert (E : rl_own w' (tr ++ es) u = rl_own w tr u).
      { unfold rl_own. by destruct (Hoth u Hne) as (-> & -> & ->). }
      rewrite E in Hu. destruct Ho' as [[_ H]|[-> _]]; [|by apply Ho].
      assert (0 < depth (rl_mutex w') u)%nat as Hdu.
      { rewrite Hd by done. pose proof (own_le _ _ _ _ (Hl u)). unfold rl_own in Hu. lia. }
      by pose proof (depth_unique _ _ _ H Hdu).
Qed.

Lemma rl_inv_run n tr w : run rl_step (rl_initial n) tr w -> rl_inv w tr /\ length (rl_threads w) = n.
Proof.
  induction 1 as [|tr w t c w' es Hr [IH1 IH2] Hs]; [|by eapply rl_step_ok].
  assert (Hn : forall t x, replicate n (@Idle rl_op rl_point) !! t = Some x -> x = Idle).
  { intros t x E. by apply lookup_replicate in E as [-> _]. }
  split; [|apply replicate_length]. split; cbn; try done.
  - intros t. destruct (replicate n Idle !! t) as [x|] eqn:E; [|done]. by rewrite (Hn _ _ E).
  - rewrite total_zero; [done|]. intros u _. unfold rl_pend. cbn.
    destruct (replicate n Idle !! u) as [x|] eqn:E; [|done]. by rewrite (Hn _ _ E).
  - intros t. unfold rl_own. cbn.
    destruct (replicate n Idle !! t) as [x|] eqn:E; [|cbn; lia]. rewrite (Hn _ _ E). cbn. lia.
Qed.
