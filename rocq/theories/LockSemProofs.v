(** Invariants of semaphores. *)
From Verif Require Import Base LockModel LockSpec LockProofs.
From Coq Require Import ZifyBool ZifyNat.
Open Scope Z_scope.

Lemma number_app {A} (p : A -> bool) l l' : number p (l ++ l') = (number p l + number p l')%nat.
Proof. unfold number. by rewrite List.filter_app, app_length. Qed.
Lemma number_le {A} (p q : A -> bool) l : (forall x, p x = true -> q x = true) -> (number p l <= number q l)%nat.
Proof.
  intros H. unfold number. induction l as [|x l IH]; [done|]. cbn. specialize (H x).
  destruct (p x); [rewrite H by done; cbn; lia|]. destruct (q x); cbn; lia.
Qed.

Ltac cases H :=
  repeat match type of H with
  | match ?x with _ => _ end = _ => destruct x eqn:?
  | (if ?x then _ else _) = _ => destruct x eqn:?
  end; try done.

Definition ps_inv (initial : Z) (w : ps_world) (tr : list (event sem_op)) : Prop :=
  ps_value w + Z.of_nat (number is_grant tr) = initial + Z.of_nat (number is_release_ok tr) /\
  0 <= ps_value w <= sem_value_max.
Lemma ps_inv_run n initial max w0 tr w :
  ps_make n initial max = Some w0 -> run ps_step w0 tr w -> ps_inv initial w tr.
Proof.
  unfold ps_make. destruct (Z.ltb_spec sem_value_max max); [done|]. destruct (Z.ltb_spec initial 0); [done|].
  destruct (Z.ltb_spec sem_value_max initial); [done|]. cbn. intros [= <-].
  induction 1 as [|tr w t c w' es Hr [IH1 IH2] Hs]; [unfold ps_inv; cbn; lia|].
  unfold ps_step in Hs. unfold ps_inv. rewrite !number_app.
  destruct (ps_threads w !! t) as [[|[timed|] p]|]; [| | |done]; destruct c; try done; cases Hs;
    unfold ps_ret in Hs; injection Hs as <- <-; cbn [ps_value ps_with_value]; cbn [number List.filter is_grant is_release_ok length]; lia.
Qed.

Definition crit (th : thread sem_op es_point) : bool :=
  match th with
  | Run (SemWait _) (E1 | EUpd | E2 | E3) => true
  | Run SemRelease (E1 | EUpd | E2) => true
  | _ => false
  end.
Definition taken (th : option (thread sem_op es_point)) : nat :=
  match th with Some (Run (SemWait _) E2) => 1%nat | _ => 0%nat end.
Definition given (th : option (thread sem_op es_point)) : nat :=
  match th with Some (Run SemRelease (E2 | E3)) => 1%nat | _ => 0%nat end.
Definition releasing (th : option (thread sem_op es_point)) : nat :=
  match th with Some (Run SemRelease _) => 1%nat | _ => 0%nat end.
Definition is_release_ret (e : event sem_op) : bool :=
  match e with ERet _ SemRelease _ => true | _ => false end.

Record es_inv (initial max : Z) (n : nat) (w : es_world) (tr : list (event sem_op)) : Prop := {
  ei_len : length (es_threads w) = n;
  ei_max : es_max w = max;
  ei_crit : forall t th, es_threads w !! t = Some th -> crit th = true -> es_mutex w = Some t;
  ei_wait : forall t b, es_threads w !! t = Some (Run (SemWait b) EUpd) -> 0 < es_count w;
  ei_rel : forall t, es_threads w !! t = Some (Run SemRelease EUpd) -> es_count w < max;
  ei_range : 0 <= es_count w <= max;
  ei_count : es_count w + Z.of_nat (number is_grant tr) + Z.of_nat (total (fun u => taken (es_threads w !! u)) n) =
    initial + Z.of_nat (number is_release_ok tr) + Z.of_nat (total (fun u => given (es_threads w !! u)) n);
  ei_calls : (number is_release_call tr =
    number is_release_ret tr + total (fun u => releasing (es_threads w !! u)) n)%nat }.

Lemma es_step_ok initial max n w t c w' es tr :
  es_inv initial max n w tr -> es_step w t c = Some (w', es) -> es_inv initial max n w' (tr ++ es).
Proof.
  intros [Hn Hm Hcr Hw Hr Hrg Hc Hca] Hs.
  assert (H : exists th th0, es_threads w !! t = Some th0 /\ es_threads w' = <[t := th]> (es_threads w) /\
    es_max w' = max /\
    (crit th = true -> es_mutex w' = Some t) /\
    (forall u, u <> t -> es_mutex w = Some u -> es_mutex w' = Some u) /\
    (es_count w' = es_count w \/ es_mutex w = Some t) /\
    (forall b, th = Run (SemWait b) EUpd -> 0 < es_count w') /\
    (th = Run SemRelease EUpd -> es_count w' < max) /\
    0 <= es_count w' <= max /\
    es_count w' + Z.of_nat (number is_grant es) + Z.of_nat (taken (Some th)) + Z.of_nat (given (Some th0)) =
      es_count w + Z.of_nat (number is_release_ok es) + Z.of_nat (given (Some th)) + Z.of_nat (taken (Some th0)) /\
    (number is_release_call es + releasing (Some th0) = number is_release_ret es + releasing (Some th))%nat).
  { unfold es_step in Hs. destruct (es_threads w !! t) as [th0|] eqn:Et; [|done].
    assert (Hcrt := Hcr _ _ Et). assert (Hwt := Hw t). assert (Hrt := Hr t). rewrite Et in Hwt, Hrt.
    destruct th0 as [|o p].
    - destruct c as [|o| | |]; try done. injection Hs as <- <-. exists (Run o E0), Idle. cbn. 
      split_and!; try done; try lia; try (by left); by destruct o.
    - destruct o; unfold es_wait, es_release in Hs; destruct p, c; try done; cases Hs;
        unfold es_at, es_ret in Hs; injection Hs as <- <-;
        cbn [es_threads es_mutex es_count es_max es_with_mutex es_with_waiters es_with_count];
        (eexists _, _; split; [reflexivity|]; split; [reflexivity|]; split; [done|]);
        try (specialize (Hwt _ eq_refl)); try (specialize (Hrt eq_refl)); cbn in Hcrt;
        (split_and!; try (case_match); cbn; try done; try lia; try (by left); try (by right; auto);
         try (intros; try (specialize (Hcrt eq_refl)); congruence); try (intros; lia)). }
  destruct H as (th & th0 & Et & Et' & Hm' & Hcr' & Hmo & Hco & Hw' & Hr' & Hrg' & Hc' & Hca').
  assert (Hlt : (t < length (es_threads w))%nat) by (by apply lookup_lt_Some in Et).
  assert (Hwt : es_threads w' !! t = Some th) by (rewrite Et'; by apply list_lookup_insert).
  assert (Hoth : forall u, u <> t -> es_threads w' !! u = es_threads w !! u).
  { intros u Hu. by rewrite Et', list_lookup_insert_ne by done. }
  assert (Htot : forall f, (total (fun u => f (es_threads w' !! u)) n + f (Some th0) =
      total (fun u => f (es_threads w !! u)) n + f (Some th))%nat).
  { intros f. rewrite Hn in Hlt.
    pose proof (total_update (fun u => f (es_threads w !! u)) (fun u => f (es_threads w' !! u)) n t Hlt) as H.
    cbn in H. rewrite Hwt, Et in H. apply H. intros u Hu. by rewrite Hoth. }
  split; try done.
  - rewrite Et', insert_length. done.
  - intros u x Hu Hx. destruct (decide (u = t)) as [-> |Hne]; [apply Hcr'; congruence|].
    apply Hmo; [done|]. eapply Hcr; [|exact Hx]. by rewrite <- Hoth.
  - intros u b Hu. destruct (decide (u = t)) as [-> |Hne]; [apply (Hw' b); congruence|].
    rewrite Hoth in Hu by done. pose proof (Hw _ _ Hu). destruct Hco as [-> |Hco]; [done|].
    pose proof (Hcr _ _ Hu eq_refl). congruence.
  - intros u Hu. destruct (decide (u = t)) as [-> |Hne]; [apply Hr'; congruence|].
    rewrite Hoth in Hu by done. pose proof (Hr _ Hu). destruct Hco as [-> |Hco]; [done|].
    pose proof (Hcr _ _ Hu eq_refl). congruence.
  - rewrite !number_app. pose proof (Htot taken). pose proof (Htot given). lia.
  - rewrite !number_app. pose proof (Htot releasing). lia.
Qed.

Lemma es_inv_run n initial max tr w :
  0 <= initial <= max -> run es_step (es_make n initial max) tr w -> es_inv initial max n w tr.
Proof.
  intros Hr. induction 1 as [|tr w t c w' es Hrun IH Hs]; [|by eapply es_step_ok].
  assert (Hn : forall t x, replicate n (@Idle sem_op es_point) !! t = Some x -> x = Idle).
  { intros t x E. by apply lookup_replicate in E as [-> _]. }
  assert (Hz : forall f, f None = 0%nat -> f (Some Idle) = 0%nat ->
    total (fun u => f (replicate n (@Idle sem_op es_point) !! u)) n = 0%nat).
  { intros f H1 H2. apply total_zero. intros u _. destruct (replicate n Idle !! u) as [x|] eqn:E; [|done].
    by rewrite (Hn _ _ E). }
  split; cbn; try done.
  - apply replicate_length.
  - intros t th E. by rewrite (Hn _ _ E).
  - intros t b E. apply Hn in E. done.
  - intros t E. apply Hn in E. done.
  - rewrite !Hz by done. cbn. lia.
  - rewrite !Hz by done. done.
Qed.

(** Once a release has been refused, the mutex stays locked. *)
Definition stuck (u : nat) (w : es_world) : Prop :=
  es_mutex w = Some u /\ forall t th, es_threads w !! t = Some th -> th = Idle \/ exists o, th = Run o E0.
Lemma stuck_step u w t c w' es : stuck u w -> es_step w t c = Some (w', es) ->
  stuck u w' /\ forall t o r, ~ ERet t o r ∈ es.
Proof.
  intros [Hm Ht] Hs. unfold es_step in Hs. destruct (es_threads w !! t) as [th|] eqn:Et; [|done].
  destruct (Ht _ _ Et) as [-> |[o ->]].
  - destruct c as [|o| | |]; try done. injection Hs as <- <-. split.
    + split; [done|]. cbn. intros v th Hv. destruct (decide (v = t)) as [-> |Hne].
      * rewrite list_lookup_insert in Hv by (by apply lookup_lt_Some in Et). injection Hv as <-. right. by eexists.
      * rewrite list_lookup_insert_ne in Hv by done. eauto.
    + intros v o' r Hin. by apply elem_of_list_singleton in Hin.
  - destruct o; cbn in Hs; rewrite Hm in Hs; by destruct c.
Qed.
Lemma stuck_run u w tr w' : stuck u w -> run es_step w tr w' -> stuck u w' /\ forall t o r, ~ ERet t o r ∈ tr.
Proof.
  intros H. induction 1 as [|tr w1 t c w2 es Hr [IH1 IH2] Hs].
  - split; [done|]. intros t o r Hin. by apply elem_of_nil in Hin.
  - destruct (stuck_step _ _ _ _ _ _ IH1 Hs) as [H1 H2]. split; [done|].
    intros v o r Hin. apply elem_of_app in Hin as [Hin|Hin]; [by eapply IH2|by eapply H2].
Qed.
