(** Locks, semaphores and notifications: C36, C37, C46. *)
From Verif Require Import Base LockModel LockSpec LockProofs LockRecProofs LockSemProofs LockRWProofs.
Open Scope Z_scope.

(** ** From runs to their single events *)

Section events.
  Context {W O : Type} (step : W -> nat -> choice O -> option (W * list (event O))).
  Hypothesis one : forall w t c w' es, step w t c = Some (w', es) ->
    es = [] \/ exists e, es = [e] /\ ev_thread e = t.

  Lemma run_event w0 tr w : run step w0 tr w -> forall pre e post, tr = pre ++ e :: post ->
    exists w1 c w2, run step w0 pre w1 /\ step w1 (ev_thread e) c = Some (w2, [e]).
  Proof.
    induction 1 as [|tr w t c w' es Hr IH Hs]; intros pre e post E; [by destruct pre|].
    destruct (one _ _ _ _ _ Hs) as [-> |(e' & -> & Ht)].
    - rewrite app_nil_r in E. by eapply IH.
    - destruct post as [|e1 post _] using rev_ind.
      + apply app_inj_tail in E as [-> ->]. exists w, c, w'. by rewrite Ht.
      + rewrite app_comm_cons, app_assoc in E. apply app_inj_tail in E as [E _]. by eapply IH.
  Qed.
  Lemma play_run w0 s w tr : play step w0 [] s = Some (w, tr) -> run step w0 tr w.
  Proof.
    enough (H : forall w1 tr1, run step w0 tr1 w1 -> play step w1 tr1 s = Some (w, tr) -> run step w0 tr w)
      by (apply H; constructor).
    induction s as [|[t c] s IH]; cbn; intros w1 tr1 Hr E; [by injection E as -> ->|].
    destruct (step w1 t c) as [[w2 es]|] eqn:Es; [|done]. eapply IH; [|exact E]. by econstructor.
  Qed.
End events.

Lemma sl_one w t c w' es : sl_step w t c = Some (w', es) -> es = [] \/ exists e, es = [e] /\ ev_thread e = t.
Proof. intros H. by destruct (sl_step_shape _ _ _ _ _ H) as (_ & _ & _ & _ & ?). Qed.
Lemma rl_one w t c w' es : rl_step w t c = Some (w', es) -> es = [] \/ exists e, es = [e] /\ ev_thread e = t.
Proof.
  unfold rl_step. intros Hs. destruct (rl_threads w !! t) as [[|[timed| |] p]|]; [| | | |done];
    destruct c; try done; try (destruct p; try done); unfold rl_wait, rl_release, rl_owned in Hs; cases Hs;
    injection Hs as <- <-; try (by left); right; by eexists.
Qed.
Lemma rw_one w t c w' es : rw_step w t c = Some (w', es) -> es = [] \/ exists e, es = [e] /\ ev_thread e = t.
Proof.
  unfold rw_step. intros Hs. destruct (rw_threads w !! t) as [[|[m timed|] p]|]; [| | |done];
    destruct c; try done; try (destruct p; try done); unfold rw_wait, rw_release, rw_enter, rw_leave in Hs; cases Hs;
    injection Hs as <- <-; try (by left); right; by eexists.
Qed.

(** ** C36: read-write locks *)

(** Whatever the schedule, a thread that holds the lock for writing is alone. *)
Theorem C36_exclusion n tr w t : run rw_step (rw_initial n) tr w -> disciplined tr ->
  (0 < rw_writes tr t)%nat ->
  rw_writes tr t = 1%nat /\ rw_reads tr t = 0%nat /\
  forall u, u <> t -> rw_writes tr u = 0%nat /\ rw_reads tr u = 0%nat.
Proof.
  intros Hr Hd Hp. destruct (rw_inv_run _ _ _ Hr Hd) as [_ _ _ _ Hg _].
  unfold rw_writes, rw_reads in *. unfold rw_global, rw_nwrites, rw_nreads, nwrites, nreads in Hg.
  destruct (rw_state w) as [k|u].
  - destruct Hg as [H _]. specialize (H t). lia.
  - destruct Hg as (H1 & H2 & H3). destruct (decide (t = u)) as [-> |Hne]; [|specialize (H2 t Hne); lia].
    split; [lia|]. pose proof (H3 u). split; [lia|]. intros v Hv. specialize (H2 v Hv). specialize (H3 v). lia.
Qed.

(** No call fails in a program that releases only what it holds. *)
Theorem C36_no_errors n tr w t o : run rw_step (rw_initial n) tr w -> disciplined tr ->
  ~ ERet t o RError ∈ tr.
Proof.
  intros Hr Hd Hin. apply elem_of_list_split in Hin as (pre & post & E).
  destruct (run_event _ rw_one _ _ _ Hr _ _ _ E) as (w1 & c & w2 & Hr1 & Hs). cbn in Hs.
  assert (Hd1 : disciplined pre).
  { intros pre' u post' ->. apply (Hd pre' u (post' ++ ERet t o RError :: post)). by rewrite E, <- app_assoc. }
  destruct (rw_inv_run _ _ _ Hr1 Hd1) as [_ _ Hin Hl _ _].
  unfold rw_step in Hs. destruct (rw_threads w1 !! t) as [th|] eqn:Et; [|done].
  specialize (Hin _ _ Et). specialize (Hl _ _ Et).
  destruct th as [|[m timed|] p]; [by destruct c| |];
    destruct p, c; try done; unfold rw_wait, rw_release, rw_enter, rw_leave in Hs; cases Hs;
    try (injection Hs as <- <- ); try done.
  all: try (assert (Hx : false = true) by (apply Hin; f_equal; lia); discriminate Hx).
  all: try (subst r; cbn in Hl; try destruct m; by destruct Hl).
  all: try (assert (Hx : Some n0 = Some t) by (by apply Hin); injection Hx as ->; rewrite Nat.eqb_refl in *; discriminate).
  all: try (assert (Hx : None = Some t) by (by apply Hin); discriminate Hx).
Qed.

(** [owned?] in a thread that is not inside an operation on the lock. *)
Theorem C36_owned n tr w t : run rw_step (rw_initial n) tr w -> disciplined tr ->
  rw_threads w !! t = Some Idle -> rw_owned w t = true <-> (0 < rw_writes tr t)%nat.
Proof.
  intros Hr Hd Ht. destruct (rw_inv_run _ _ _ Hr Hd) as [_ _ _ _ Hg _]. unfold rw_owned, rw_writes.
  unfold rw_global, rw_nwrites, nwrites in Hg. destruct (rw_state w) as [k|u]; cbn.
  - destruct Hg as [H _]. specialize (H t). rewrite Ht in H. cbn in H. split; [done|lia].
  - destruct Hg as (H1 & H2 & _). destruct (Nat.eqb_spec u t) as [-> |Hne].
    + rewrite Ht in H1. cbn in H1. split; [lia|done].
    + specialize (H2 t (not_eq_sym Hne)). rewrite Ht in H2. cbn in H2. split; [done|lia].
Qed.
(** And [owned-for-reading?] is at least true for readers. *)
Theorem C36_owned_for_reading_partial n tr w t : run rw_step (rw_initial n) tr w -> disciplined tr ->
  (t < n)%nat -> (0 < rw_reads tr t)%nat -> rw_owned_for_reading w = true.
Proof.
  intros Hr Hd Ht Hp. destruct (rw_inv_run _ _ _ Hr Hd) as [_ _ _ _ Hg _].
  unfold rw_owned_for_reading, rw_reads in *.
  unfold rw_global in Hg. destruct (rw_state w) as [k|u]; cbn.
  - destruct Hg as [_ ->]. pose proof (total_ge (rw_nreads w tr) n t Ht) as H. unfold rw_nreads at 1, nreads in H. lia.
  - destruct Hg as (_ & _ & H). specialize (H t). unfold rw_nreads, nreads in H. lia.
Qed.

(** A writer comes and goes, two readers share the lock, a waiting writer is
    woken up. *)
Definition rw_take (t : nat) (m : mode) : list (nat * choice rw_op) :=
  (t, Call (RWWait m false)) ::
  map (fun _ => (t, Go)) (match m with Read => [(); (); (); (); ()] | Write => [(); (); (); ()] end).
Definition rw_give (t : nat) (last : bool) : list (nat * choice rw_op) :=
  (t, Call RWRelease) :: map (fun _ => (t, Go)) (if last then [(); (); (); (); ()] else [(); (); (); ()]).
Definition rw_demo : list (nat * choice rw_op) :=
  rw_take 0 Write ++ [(1%nat, Call (RWWait Read false)); (1%nat, Go); (1%nat, Go); (1%nat, Go)] ++
  rw_give 0 true ++ [(1%nat, Go); (1%nat, Go)] ++
  [(1%nat, Go); (1%nat, Go); (1%nat, Go); (1%nat, Go)] ++ rw_take 2 Read ++ rw_give 1 false ++ rw_give 2 true.
Example rw_demo_ok : exists w tr, play rw_step (rw_initial 3) [] rw_demo = Some (w, tr) /\
  rw_writes (take 2 tr) 0 = 1%nat /\ rw_reads (take 8 tr) 1 = 1%nat /\ rw_reads (take 8 tr) 2 = 1%nat /\
  rw_state w = Count 0 /\ length tr = 12%nat.
Proof. do 2 eexists. split; [vm_compute; reflexivity|]. vm_compute. repeat split. Qed.

(** [owned-for-reading?] does not say who holds the lock. *)
Theorem C36_owned_for_reading_refuted : exists tr w,
  run rw_step (rw_initial 2) tr w /\ disciplined tr /\
  rw_threads w !! 1%nat = Some Idle /\ (forall e, e ∈ tr -> ev_thread e <> 1%nat) /\
  rw_owned_for_reading w = true.
Proof.
  eexists _, _. split; [apply (play_run _ _ (rw_take 0 Read)); vm_compute; reflexivity|].
  split; [|split; [done|]; split; [|done]].
  - intros pre t post E. destruct pre as [|? [|? [|? pre]]]; by try injection E.
  - intros e He. repeat (apply elem_of_cons in He as [-> |He]; [done|]). by apply elem_of_nil in He.
Qed.

(** [release] by a thread that does not hold the lock: it succeeds when some
    other thread is reading, and then a writer gets in beside the reader. *)
Theorem C36_undisciplined_refuted : exists tr w,
  run rw_step (rw_initial 3) tr w /\
  ERet 1 RWRelease RTrue ∈ tr /\ (forall m b r, ~ ERet 1%nat (RWWait m b) r ∈ tr) /\
  rw_reads tr 0 = 1%nat /\ rw_writes tr 2 = 1%nat.
Proof.
  eexists _, _.
  split; [apply (play_run _ _ (rw_take 0 Read ++ rw_give 1 true ++ rw_take 2 Write)); vm_compute; reflexivity|].
  split; [|split; [|done]].
  - do 3 right. left.
  - intros m b r H. repeat (apply elem_of_cons in H as [H|H]; [done|]). by apply elem_of_nil in H.
Qed.

(** ** C46: nobody sleeps before a free read-write lock *)

(** A thread that is asleep waits for somebody who holds the lock (for a
    reader: who writes), or for a thread that is inside an operation and not
    asleep. *)
Theorem C46_no_lost_wakeup n tr w t m timed : run rw_step (rw_initial n) tr w -> disciplined tr ->
  rw_threads w !! t = Some (Run (RWWait m timed) WParked) -> t ∈ rw_asleep w ->
  (exists u, match m with
             | Write => (0 < rw_reads tr u + rw_writes tr u)%nat
             | Read => (0 < rw_writes tr u)%nat
             end) \/
  exists u o p, rw_threads w !! u = Some (Run o p) /\ p <> WParked.
Proof.
  intros Hr Hd Ht Ha. destruct (rw_inv_run _ _ _ Hr Hd) as [_ _ _ _ Hg Has].
  destruct (Has _ Ha) as (m' & b & Et & Hb). rewrite Ht in Et. injection Et as <- <-.
  destruct Hb as [Hb|(u & o & Hu)]; [|by right; exists u, o, WBroadcast].
  unfold rw_reads, rw_writes. unfold rw_global, rw_nreads, rw_nwrites in Hg.
  assert (Hx : forall u, (0 < extra Read (rw_threads w !! u) (rw_holding tr u) + extra Write (rw_threads w !! u) (rw_holding tr u))%nat ->
    exists o p, rw_threads w !! u = Some (Run o p) /\ p <> WParked).
  { intros u. destruct (rw_threads w !! u) as [[|o p]|]; cbn; [lia| |lia]. intros H. exists o, p. split; [done|].
    intros ->. destruct o as [[]|]; cbn in H; lia. }
  destruct (rw_state w) as [k|u].
  - destruct Hg as [H1 H2]. destruct m; [done|]. cbn in Hb.
    assert (Hp : (0 < total (fun t => nreads (rw_threads w !! t) (rw_holding tr t)) n)%nat) by (unfold rw_nreads in H2; lia).
    apply total_pos in Hp as (u & Hun & Hu). unfold nreads in Hu.
    destruct (decide (0 < reads (rw_holding tr u))%nat); [left; exists u; lia|].
    destruct (Hx u) as (o & p & Ho & Hp); [lia|]. right. by exists u, o, p.
  - destruct Hg as (H1 & _). unfold nwrites in H1.
    destruct (decide (0 < writes (rw_holding tr u))%nat); [left; exists u; destruct m; lia|].
    destruct (Hx u) as (o & p & Ho & Hp); [lia|]. right. by exists u, o, p.
Qed.
Example C46_ex : exists tr w, run rw_step (rw_initial 2) tr w /\
  rw_threads w !! 1%nat = Some (Run (RWWait Read false) WParked) /\ 1%nat ∈ rw_asleep w /\ rw_writes tr 0 = 1%nat.
Proof.
  eexists _, _. split; [apply (play_run _ _ (rw_take 0 Write ++
    [(1%nat, Call (RWWait Read false)); (1%nat, Go); (1%nat, Go); (1%nat, Go)])); vm_compute; reflexivity|].
  split; [done|]. split; [left|done].
Qed.

(** In the emulation of semaphores a wake-up can be lost: a timed wait that is
    chosen by the signal and times out at that moment (POSIX lets it consume the
    signal) returns #f, and another thread sleeps although the count is 1 and no
    thread is inside an operation. *)
Theorem C46_emulated_semaphore_refuted : exists tr w,
  run es_step (es_make 3 0 5) tr w /\ es_count w = 1 /\
  es_threads w = [Idle; Run (SemWait false) EParked; Idle] /\ es_waiters w = [1%nat] /\
  forall c w' es, es_step w 1 c = Some (w', es) -> c = Spurious.
Proof.
  eexists _, _. split.
  - apply (play_run _ _ ([(0%nat, Call (SemWait true)); (0%nat, Go); (0%nat, Go)] ++
      [(1%nat, Call (SemWait false)); (1%nat, Go); (1%nat, Go)] ++
      [(2%nat, Call SemRelease); (2%nat, Go); (2%nat, Go); (2%nat, Go); (2%nat, Go); (2%nat, Pick 0)] ++
      [(0%nat, Timeout); (0%nat, Go); (0%nat, Go)])).
    vm_compute. reflexivity.
  - repeat (split; [done|]). intros c w' es E. by destruct c.
Qed.
(** With POSIX semaphores a waiting thread can go on whenever the count is
    positive. *)
Theorem C46_semaphore w t timed : 0 < ps_value w -> ps_threads w !! t = Some (Run (SemWait timed) tt) ->
  exists w', ps_step w t Go = Some (w', [ERet t (SemWait timed) RTrue]) /\ ps_value w' = ps_value w - 1.
Proof.
  intros Hv Ht. unfold ps_step. rewrite Ht. destruct (Z.ltb_spec 0 (ps_value w)); [|lia]. eexists. by split.
Qed.

(** ** C37: simple locks *)

Lemma sl_holder n tr w t : run sl_step (sl_initial n) tr w -> sl_held tr t = true -> sl_mutex w = Some t.
Proof.
  intros Hr Ht. pose proof (sl_inv_run _ _ _ Hr t) as H. unfold sl_local, sl_iff in H.
  destruct (sl_threads w !! t) as [[|[] []]|]; try tauto; try congruence; destruct H; try tauto; congruence.
Qed.
Theorem C37_simple_exclusive n tr w t u : run sl_step (sl_initial n) tr w ->
  sl_held tr t = true -> sl_held tr u = true -> u = t.
Proof. intros Hr Ht Hu. pose proof (sl_holder _ _ _ _ Hr Ht). pose proof (sl_holder _ _ _ _ Hr Hu). congruence. Qed.

Lemma sl_timed n tr w t b : run sl_step (sl_initial n) tr w ->
  sl_threads w !! t = Some (Run (SNotifWait b) (SRelock true)) -> b = true.
Proof.
  intros Hr. revert t b. induction Hr as [|tr w u c w' es Hr IH Hs]; intros t b Ht.
  { cbn in Ht. by apply lookup_replicate in Ht as [? _]. }
  destruct (sl_step_shape _ _ _ _ _ Hs) as (th & Et & [th0 Eth] & _).
  destruct (decide (t = u)) as [-> |Hne]; [|rewrite Et, list_lookup_insert_ne in Ht by done; by eapply IH].
  unfold sl_step in Hs. rewrite Eth in Hs.
  assert (Hlt : (u < length (sl_threads w))%nat) by (by apply lookup_lt_Some in Eth).
  destruct th0 as [|o p]; [destruct c; try done; injection Hs as <- <-; cbn in Ht; by rewrite list_lookup_insert in Ht|].
  destruct o, p, c; cbn in Hs; try done; cases Hs; injection Hs as <- <-; cbn in Ht;
    rewrite list_lookup_insert in Ht by done; try done.
  by injection Ht.
Qed.

(** What the calls return: [release] succeeds for the holder and for nobody
    else; [wait-for] by the holder is an error, and by nobody else; [wait-for]
    on the notification is refused exactly when the caller does not hold the
    lock. *)
Theorem C37_simple_results n tr w pre t o r post : run sl_step (sl_initial n) tr w ->
  tr = pre ++ ERet t o r :: post ->
  match o with
  | SRelease => r = (if sl_held_at_call pre t then RTrue else RError)
  | SWait timed => (r = RError <-> sl_held pre t = true) /\ (r = RFalse -> timed = true)
  | SNotifWait timed => (r = RError <-> sl_held_at_call pre t = false) /\ (r = RFalse -> timed = true)
  | SNotifRelease | SNotifReleaseAll => r = RTrue
  | SOwned => True
  end.
Proof.
  intros Hr E. destruct (run_event _ sl_one _ _ _ Hr _ _ _ E) as (w1 & c & w2 & Hr1 & Hs). cbn in Hs.
  pose proof (sl_inv_run _ _ _ Hr1 t) as Hi. unfold sl_local, sl_iff in Hi.
  unfold sl_step in Hs. destruct (sl_threads w1 !! t) as [[|o' p]|] eqn:Et; [by destruct c| |done].
  assert (o' = o).
  { destruct o', p, c; cbn in Hs; try done; cases Hs; by injection Hs. }
  assert (Htt : forall b, o = SNotifWait b -> p = SRelock true -> b = true).
  { intros b -> ->. eapply sl_timed; [exact Hr1|]. rewrite Et. by subst o'. }
  subst o'. destruct o as [timed| | |timed| |], p as [| | |to], c; cbn in Hs; try done; cases Hs; injection Hs as <- Hrr; subst r; try done.
  all: repeat match goal with
    | H : (?u =? ?t)%nat = true |- _ => apply Nat.eqb_eq in H; subst
    | H : (?u =? ?t)%nat = false |- _ => apply Nat.eqb_neq in H
    | H : _ && _ = true |- _ => apply andb_true_iff in H as [? ?]
    | H : negb _ = true |- _ => apply negb_true_iff in H
    end; try done.
  all: try (rewrite Heqo in Hi).
  all: destruct (sl_held pre t), (sl_held_at_call pre t); try (intuition congruence).
  all: specialize (Htt _ eq_refl); destruct to; [specialize (Htt eq_refl)|]; intuition congruence.
Qed.

(** When [wait-for] on a notification returns, the caller holds the lock, and
    nobody else does. *)
Theorem C37_notification n tr w t timed r : run sl_step (sl_initial n) (tr ++ [ERet t (SNotifWait timed) r]) w ->
  r <> RError ->
  sl_mutex w = Some t /\ forall u, sl_held (tr ++ [ERet t (SNotifWait timed) r]) u = true <-> u = t.
Proof.
  intros Hr Hne. assert (Ht : sl_held (tr ++ [ERet t (SNotifWait timed) r]) t = true).
  { rewrite sl_held_snoc. cbn. rewrite Nat.eqb_refl. by destruct r. }
  split; [by eapply sl_holder|]. intros u. split; [|by intros ->]. intros Hu. by eapply C37_simple_exclusive.
Qed.

(** [wait-for] on a notification returns only to a thread that held the lock
    when it called; while the thread sleeps the lock is free for others. *)
Theorem C37_notification_sleeps n tr w t timed : run sl_step (sl_initial n) tr w ->
  sl_threads w !! t = Some (Run (SNotifWait timed) SParked) -> sl_mutex w <> Some t /\ sl_held_at_call tr t = true.
Proof. intros Hr Ht. pose proof (sl_inv_run _ _ _ Hr t) as H. rewrite Ht in H. cbn in H. tauto. Qed.

(** [owned?], in programs without notifications where only holders release. *)
Theorem C37_owned_partial n tr w pre t r post : run sl_step (sl_initial n) tr w ->
  tr = pre ++ ERet t SOwned r :: post -> sl_simple pre ->
  r = (if sl_held pre t then RTrue else RFalse).
Proof.
  intros Hr E Hsim. destruct (run_event _ sl_one _ _ _ Hr _ _ _ E) as (w1 & c & w2 & Hr1 & Hs). cbn in Hs.
  destruct (sl_owner_run _ _ _ Hr1 Hsim) as (_ & _ & H1 & H2).
  unfold sl_step in Hs. destruct (sl_threads w1 !! t) as [[|o' p]|] eqn:Et; [by destruct c| |done].
  assert (o' = SOwned).
  { destruct o', p, c; cbn in Hs; try done; cases Hs; by injection Hs. }
  subst o'. destruct p, c; cbn in Hs; try done. injection Hs as <- Hrr. subst r.
  destruct (sl_held pre t) eqn:Eh.
  - rewrite (H2 t Eh), Nat.eqb_refl. done.
  - destruct (sl_owner w1) as [u|] eqn:Eo; [|done]. destruct (u =? t)%nat eqn:Eu; [|done].
    apply Nat.eqb_eq in Eu. subst u. destruct (H1 t eq_refl) as [?|?]; congruence.
Qed.
Definition sl_take (t : nat) : list (nat * choice sl_op) := [(t, Call (SWait false)); (t, Go); (t, Go)].
Definition sl_give (t : nat) : list (nat * choice sl_op) := [(t, Call SRelease); (t, Go); (t, Go)].
Example C37_owned_ex : exists w tr, play sl_step (sl_initial 2) [] (sl_take 0 ++ sl_give 0 ++ sl_take 1 ++
    [(1%nat, Call SOwned); (1%nat, Go); (0%nat, Call SOwned); (0%nat, Go)]) = Some (w, tr) /\
  sl_held (take 7 tr) 1 = true /\ tr !! 7%nat = Some (ERet 1 SOwned RTrue) /\
  sl_held (take 9 tr) 0 = false /\ tr !! 9%nat = Some (ERet 0 SOwned RFalse).
Proof. do 2 eexists. vm_compute. repeat split. Qed.

(** After [wait-for] on a notification the field [owner] is not set again: the
    waiter holds the lock and [owned?] is false for it. *)
Definition sl_after_notification : list (nat * choice sl_op) :=
  sl_take 0 ++ [(0%nat, Call (SNotifWait false)); (0%nat, Go)] ++
  sl_take 1 ++ [(1%nat, Call SNotifRelease); (1%nat, Pick 0)] ++ sl_give 1 ++ [(0%nat, Go); (0%nat, Go)] ++
  [(0%nat, Call SOwned); (0%nat, Go)].
Theorem C37_owned_notification_refuted : exists tr w,
  run sl_step (sl_initial 2) (tr ++ [ECall 0 SOwned; ERet 0 SOwned RFalse]) w /\
  sl_held tr 0 = true /\ sl_held (tr ++ [ECall 0 SOwned; ERet 0 SOwned RFalse]) 0 = true /\
  forall t r, ~ ERet t SRelease RError ∈ tr /\ ~ ERet t r RError ∈ tr.
Proof.
  eexists [_; _; _; _; _; _; _; _; _; _], _.
  split; [apply (play_run _ _ sl_after_notification); vm_compute; reflexivity|].
  split; [done|]. split; [done|]. intros t r.
  split; intros H; repeat (apply elem_of_cons in H as [H|H]; [done|]); by apply elem_of_nil in H.
Qed.

(** A failed [release] by a thread that does not hold the lock makes [owned?]
    false for the holder. *)
Theorem C37_owned_release_refuted : exists tr w,
  run sl_step (sl_initial 2) (tr ++ [ECall 0 SOwned; ERet 0 SOwned RFalse]) w /\
  sl_held (tr ++ [ECall 0 SOwned; ERet 0 SOwned RFalse]) 0 = true /\
  (forall t b, ~ ECall t (SNotifWait b) ∈ tr) /\ ERet 1 SRelease RError ∈ tr.
Proof.
  eexists [_; _; _; _], _.
  split; [apply (play_run _ _ (sl_take 0 ++ sl_give 1 ++ [(0%nat, Call SOwned); (0%nat, Go)])); vm_compute; reflexivity|].
  split; [done|]. split; [|do 3 right; left].
  intros t b H. repeat (apply elem_of_cons in H as [H|H]; [done|]). by apply elem_of_nil in H.
Qed.

(** ** C37: recursive locks *)

Lemma rl_holder n tr w t : run rl_step (rl_initial n) tr w -> (rl_held tr t <= depth (rl_mutex w) t)%nat.
Proof.
  intros Hr. destruct (rl_inv_run _ _ _ Hr) as [[_ H _ _] _]. specialize (H t). unfold rl_local in H.
  destruct (rl_threads w !! t) as [[|[] []]|]; lia.
Qed.
Theorem C37_recursive_exclusive n tr w t u : run rl_step (rl_initial n) tr w ->
  (0 < rl_held tr t)%nat -> (0 < rl_held tr u)%nat -> u = t.
Proof.
  intros Hr Ht Hu. pose proof (rl_holder _ _ _ t Hr). pose proof (rl_holder _ _ _ u Hr).
  apply (depth_unique (rl_mutex w)); lia.
Qed.

(** The mutex of a lock is locked as often as the thread that holds it has
    taken it more often than released it, so another thread can take it only
    when the last of them is released. *)
Theorem C37_recursive_balanced n tr w : run rl_step (rl_initial n) tr w ->
  (forall t th, rl_threads w !! t = Some th -> th = Idle) ->
  match rl_mutex w with
  | None => forall t, rl_held tr t = 0%nat
  | Some (t, k) => rl_held tr t = k /\ (0 < k)%nat /\ forall u, u <> t -> rl_held tr u = 0%nat
  end.
Proof.
  intros Hr Hid. destruct (rl_inv_run _ _ _ Hr) as [[Hp H _ _] _].
  assert (Hd : forall t, rl_held tr t = depth (rl_mutex w) t).
  { intros t. specialize (H t). destruct (rl_threads w !! t) as [th|] eqn:E; cbn in H; [|lia].
    rewrite (Hid _ _ E) in H. by symmetry. }
  destruct (rl_mutex w) as [[t k]|] eqn:Em.
  - split_and!.
    + rewrite Hd. cbn. by rewrite Nat.eqb_refl.
    + by eapply Hp.
    + intros u Hu. rewrite Hd. cbn. destruct (Nat.eqb_spec t u); [congruence|done].
  - intros t. by rewrite Hd.
Qed.

(** [release] succeeds exactly for a thread that holds the lock; [wait-for]
    never fails, and fails to get the lock only after a time-out while another
    thread has it. *)
Theorem C37_recursive_results n tr w pre t o r post : run rl_step (rl_initial n) tr w ->
  tr = pre ++ ERet t o r :: post ->
  match o with
  | RLRelease => r = (if (0 <? rl_held_at_call pre t)%nat then RTrue else RError)
  | RLWait timed => r <> RError /\ (r = RFalse -> timed = true /\ rl_held pre t = 0%nat)
  | RLOwned => (0 < rl_held pre t)%nat -> r = RTrue
  end.
Proof.
  intros Hr E. destruct (run_event _ rl_one _ _ _ Hr _ _ _ E) as (w1 & c & w2 & Hr1 & Hs). cbn in Hs.
  destruct (rl_inv_run _ _ _ Hr1) as [[Hp Hi Hc Ho] Hlen]. specialize (Hi t). specialize (Ho t). unfold rl_own in Ho.
  assert (Hcnt : (t < length (rl_threads w1))%nat -> Z.of_nat (rl_pend w1 pre t) <= rl_count w1).
  { intros Hlt. rewrite Hc. pose proof (total_ge (rl_pend w1 pre) _ _ Hlt). lia. }
  unfold rl_pend in Hcnt.
  unfold rl_step in Hs. destruct (rl_threads w1 !! t) as [[|o' p]|] eqn:Et; [by destruct c| |done].
  apply lookup_lt_Some in Et. specialize (Hcnt Et).
  assert (o' = o).
  { destruct o', p, c; cbn in Hs; try done; cases Hs; by injection Hs. }
  subst o'. destruct o as [timed| |], p, c; cbn in Hs; try done; cases Hs; injection Hs as <- Hrr; subst r; try done.
  all: cbn in Hi, Ho, Hcnt; try done.
  all: repeat match goal with
    | H : (?u =? ?t)%nat = true |- _ => apply Nat.eqb_eq in H; subst
    | H : (?u =? ?t)%nat = false |- _ => apply Nat.eqb_neq in H
    | H : _ && _ = true |- _ => apply andb_true_iff in H as [? ?]
    | H : negb _ = true |- _ => apply negb_true_iff in H
    end; try done.
  all: try (destruct (rl_mutex w1) as [[? ?]|]; cbn in Hi; try discriminate).
  all: repeat match goal with
    | H : Some _ = Some _ |- _ => injection H as ?; subst
    | H : (_, _) = (_, _) |- _ => injection H as ?; subst
    end.
  all: try (destruct (Nat.eqb_spec n0 t); try done).
  all: try (split; [done|]; intros _; split; [done|lia]).
  all: try (destruct (Nat.ltb_spec 0 (rl_held_at_call pre t)); [lia|done]).
  all: try (destruct (Nat.ltb_spec 0 (rl_held_at_call pre t)); [done|lia]).
  all: intros Hpos; specialize (Ho Hpos); try congruence; try lia.
  all: destruct (Z.eqb_spec (rl_count w1) 0); [lia|done].
Qed.

(** [owned?] can be true for a thread that has released the lock. *)
Definition rl_take (t : nat) : list (nat * choice rl_op) := [(t, Call (RLWait false)); (t, Go); (t, Go); (t, Go)].
Definition rl_give (t : nat) : list (nat * choice rl_op) := [(t, Call RLRelease); (t, Go); (t, Go)].
Theorem C37_recursive_owned_refuted : exists tr w,
  run rl_step (rl_initial 2) (tr ++ [ECall 0 RLOwned; ERet 0 RLOwned RTrue]) w /\
  rl_held tr 0 = 0%nat /\ forall t o, ~ ERet t o RError ∈ tr.
Proof.
  eexists [_; _; _; _; _], _.
  split; [apply (play_run _ _ (rl_take 0 ++ rl_give 0 ++ [(1%nat, Call (RLWait false)); (1%nat, Go); (1%nat, Go)] ++
    [(0%nat, Call RLOwned); (0%nat, Go); (0%nat, Go)])); vm_compute; reflexivity|].
  split; [done|]. intros t o H. repeat (apply elem_of_cons in H as [H|H]; [done|]). by apply elem_of_nil in H.
Qed.
Example C37_recursive_ex : exists w tr, play rl_step (rl_initial 2) [] (rl_take 0 ++ rl_take 0 ++ rl_give 0) = Some (w, tr) /\
  rl_held tr 0 = 1%nat /\ rl_mutex w = Some (0%nat, 1%nat).
Proof. do 2 eexists. vm_compute. repeat split. Qed.

(** ** C37: semaphores *)

(** Grants never exceed the initial count plus the successful releases. *)
Theorem C37_semaphore_grants n initial max w0 tr w : ps_make n initial max = Some w0 ->
  run ps_step w0 tr w ->
  Z.of_nat (number is_grant tr) <= initial + Z.of_nat (number is_release_ok tr).
Proof. intros Hm Hr. pose proof (ps_inv_run _ _ _ _ _ _ Hm Hr) as [? ?]. lia. Qed.
(** And nothing is lost: what is neither granted nor left never was. *)
Theorem C37_semaphore_exact n initial max w0 tr w : ps_make n initial max = Some w0 ->
  run ps_step w0 tr w ->
  ps_value w = initial + Z.of_nat (number is_release_ok tr) - Z.of_nat (number is_grant tr).
Proof. intros Hm Hr. pose proof (ps_inv_run _ _ _ _ _ _ Hm Hr) as [? ?]. lia. Qed.
(** The same for the version without POSIX semaphores.  A release counts when it is
    called, since it takes effect before it returns. *)
Theorem C37_emulated_grants n initial max tr w : 0 <= initial <= max ->
  run es_step (es_make n initial max) tr w ->
  Z.of_nat (number is_grant tr) <= initial + Z.of_nat (number is_release_call tr).
Proof.
  intros Hi Hr. destruct (es_inv_run _ _ _ _ _ Hi Hr) as [_ _ _ _ _ H1 H2 H3].
  assert (Hg : (total (fun u => given (es_threads w !! u)) n <= total (fun u => releasing (es_threads w !! u)) n)%nat).
  { clear. induction n as [|n IH]; [done|]. cbn. destruct (es_threads w !! n) as [[|[] []]|]; cbn; lia. }
  pose proof (number_le is_release_ok is_release_ret tr) as Hle.
  assert (forall x : event sem_op, is_release_ok x = true -> is_release_ret x = true) as Himp by (intros [|? [] []]; done).
  specialize (Hle Himp). lia.
Qed.
Theorem C37_emulated_max n initial max tr w : 0 <= initial <= max ->
  run es_step (es_make n initial max) tr w -> 0 <= es_count w <= max.
Proof. intros Hi Hr. by destruct (es_inv_run _ _ _ _ _ Hi Hr). Qed.

(** The maximum is not enforced by the version with POSIX semaphores, neither
    by [release] nor when the semaphore is made. *)
Theorem C37_semaphore_max_refuted :
  (exists w0 tr w, ps_make 1 1 1 = Some w0 /\ run ps_step w0 tr w /\
    1 < ps_value w /\ number is_release_ok tr = 1%nat /\ tr = [ECall 0 SemRelease; ERet 0 SemRelease RTrue]) /\
  exists w0, ps_make 1 5 1 = Some w0 /\ ps_value w0 = 5.
Proof.
  split; [|by eexists]. eexists _, _, _. split; [reflexivity|].
  split; [apply (play_run _ _ [(0%nat, Call SemRelease); (0%nat, Go)]); vm_compute; reflexivity|]. done.
Qed.

(** The other version enforces it, but a refused release leaves the mutex of the
    semaphore locked: no call on it by any thread ever returns again. *)
Theorem C37_emulated_deadlock_refuted n : (0 < n)%nat -> exists w,
  run es_step (es_make n 1 1) [ECall 0 SemRelease; ERet 0 SemRelease RError] w /\
  forall tr w', run es_step w tr w' -> forall t o r, ~ ERet t o r ∈ tr.
Proof.
  intros Hn.
  assert (H0 : replicate n (@Idle sem_op es_point) !! 0%nat = Some Idle) by (by apply lookup_replicate).
  set (w := ES (Some 0%nat) [] 1 1 (replicate n (@Idle sem_op es_point))).
  assert (Hid : forall x y, <[0%nat := Idle]> (<[0%nat := x]> (<[0%nat := y]> (replicate n (@Idle sem_op es_point)))) = replicate n Idle).
  { intros x y. rewrite !list_insert_insert. by apply list_insert_id. }
  exists w. split.
  - change [ECall 0 SemRelease; ERet 0 SemRelease RError] with
      (([] ++ [ECall 0%nat SemRelease] ++ []) ++ [ERet 0%nat SemRelease RError]).
    eapply run_step; [eapply (run_step _ _ ([] ++ [ECall 0%nat SemRelease]) _ 0%nat Go _ []);
      [eapply (run_step _ _ [] _ 0%nat (Call SemRelease)); [constructor|]|]|].
    + unfold es_step. cbn [es_make es_threads]. rewrite H0. reflexivity.
    + unfold es_step. cbn [es_threads]. rewrite list_lookup_insert by (rewrite replicate_length; lia). reflexivity.
    + instantiate (1 := Go). instantiate (1 := 0%nat). unfold es_step. cbn [es_threads es_at es_with_mutex es_make].
      rewrite list_lookup_insert by (rewrite insert_length, replicate_length; lia). cbn.
      unfold es_ret, w. cbn. by rewrite Hid.
  - intros tr w' Hr. eapply (stuck_run 0); [|exact Hr]. split; [done|]. cbn.
    intros t th E. apply lookup_replicate in E as [-> _]. by left.
Qed.
Example C37_semaphore_ex : exists w0 w tr, ps_make 2 1 3 = Some w0 /\
  play ps_step w0 [] [(0%nat, Call (SemWait false)); (0%nat, Go); (1%nat, Call (SemWait true)); (1%nat, Timeout);
    (0%nat, Call SemRelease); (0%nat, Go); (1%nat, Call (SemWait false)); (1%nat, Go)] = Some (w, tr) /\
  number is_grant tr = 2%nat /\ number is_release_ok tr = 1%nat.
Proof. do 3 eexists. split; [reflexivity|]. split; [vm_compute; reflexivity|]. done. Qed.

Print Assumptions C36_exclusion.
Print Assumptions C36_no_errors.
Print Assumptions C36_owned.
Print Assumptions C36_owned_for_reading_partial.
Print Assumptions C36_owned_for_reading_refuted.
Print Assumptions C36_undisciplined_refuted.
Print Assumptions C46_no_lost_wakeup.
Print Assumptions C46_emulated_semaphore_refuted.
Print Assumptions C46_semaphore.
Print Assumptions C37_simple_exclusive.
Print Assumptions C37_simple_results.
Print Assumptions C37_notification.
Print Assumptions C37_notification_sleeps.
Print Assumptions C37_owned_partial.
Print Assumptions C37_owned_notification_refuted.
Print Assumptions C37_owned_release_refuted.
Print Assumptions C37_recursive_exclusive.
Print Assumptions C37_recursive_balanced.
Print Assumptions C37_recursive_results.
Print Assumptions C37_recursive_owned_refuted.
Print Assumptions C37_semaphore_grants.
Print Assumptions C37_semaphore_exact.
Print Assumptions C37_emulated_grants.
Print Assumptions C37_emulated_max.
Print Assumptions C37_semaphore_max_refuted.
Print Assumptions C37_emulated_deadlock_refuted.
