(** Non-local exits (C41). *)
From Verif Require Import Base NlxModel NlxSpec NlxProofs.
From Coq Require Import ZifyBool ZifyNat.
Local Open Scope nat_scope.
Local Open Scope outcome_scope.

(** Programs that end run as the language says, unless an exit ends inside a cleanup
    clause that another exit runs, leaves a cleanup clause whose body has returned, or
    is abandoned for another one after replacing one to the same block. *)
Theorem C41_exits_partial p vs t n :
  meaning [] 0 p = (Normal vs, t, n) -> calm [] 0 false [] p -> finishes p vs t.
Proof.
  intros Hm Hc. destruct (program_runs p vs t n Hm Hc) as (m & S & A & St & C & T).
  exists m. repeat split; auto. intros m' S'. eapply steps_final; [exact S| |exact S'].
  unfold step. rewrite A, St. done.
Qed.
Print Assumptions C41_exits_partial.

Lemma exit_free_normal p : exit_free p -> forall live n, exists vs t n', meaning live n p = (Normal vs, t, n').
Proof.
  induction p as [vs0|e|p IHp k IHk|f IHf|b0 vs0|body IHb c IHc]; cbn; intros H live n; eauto.
  - destruct H as [H1 H2]. destruct (IHp H1 live n) as (vs & t & n' & ->).
    destruct (IHk vs (H2 vs) live n') as (vs' & t' & n'' & ->). eauto.
  - destruct (IHf n (H n) (n :: live) (S n)) as (vs & t & n' & ->). eauto.
  - done.
  - destruct H as [H1 H2]. destruct (IHb H1 live n) as (vs & t & n' & ->).
    destruct (IHc H2 live n') as (vs' & t' & n'' & ->). eauto.
Qed.
Lemma exit_free_calm p : exit_free p -> forall live n unw busy, calm live n unw busy p.
Proof.
  induction p as [vs0|e|p IHp k IHk|f IHf|b0 vs0|body IHb c IHc]; cbn; intros H live n unw busy; eauto.
  - destruct H as [H1 H2]. destruct (exit_free_normal p H1 live n) as (vs & t & n' & ->). auto.
  - destruct (exit_free_normal (f n) (H n) (n :: live) (S n)) as (vs & t & n' & ->). auto.
  - destruct H as [H1 H2]. destruct (exit_free_normal body H1 live n) as (vs & t & n' & ->).
    destruct (exit_free_normal c H2 live n') as (vs' & t' & n'' & ->). auto.
Qed.
Lemma tidy_calm p : tidy p -> forall live n busy, calm live n false busy p.
Proof.
  induction p as [vs0|e|p IHp k IHk|f IHf|b0 vs0|body IHb c IHc]; cbn; intros H live n busy; eauto.
  - destruct H as [H1 H2]. split; [auto|]. destruct (meaning live n p) as [[[] ?] ?]; auto.
  - split; [auto|]. destruct (meaning (n :: live) (S n) (f n)) as [[[] ?] ?]; auto.
  - destruct H as [H1 H2]. split; [auto|]. destruct (meaning live n body) as [[[] ?] n'].
    + destruct (exit_free_normal c H2 live n') as (vs' & t' & n'' & ->). split; [|done]. by apply exit_free_calm.
    + destruct (exit_free_normal c H2 live n') as (vs' & t' & n'' & ->). split; [|done]. by apply exit_free_calm.
    + done.
Qed.

(** In particular all programs whose cleanup clauses make no exits. *)
Theorem C41_tidy_exits_partial p vs t n :
  meaning [] 0 p = (Normal vs, t, n) -> tidy p -> finishes p vs t.
Proof. intros Hm Ht. eapply C41_exits_partial; [exact Hm|]. by apply tidy_calm. Qed.
Print Assumptions C41_tidy_exits_partial.

(** An exit through any number of cleanup clauses runs each of them once, innermost
    first, skips what follows, and delivers its values; and so does a return. *)
Lemma protected_exit cs b vs live n : b ∈ live ->
  meaning live n (protected_by cs (Exit b vs)) = (Exiting b vs, rev cs, n).
Proof.
  intros Hb. induction cs as [|c cs IH]; cbn.
  - by rewrite decide_True.
  - unfold protected_by in IH. rewrite IH. done.
Qed.
Lemma protected_return cs vs live n :
  meaning live n (protected_by cs (Return vs)) = (Normal vs, rev cs, n).
Proof. induction cs as [|c cs IH]; cbn; [done|]. unfold protected_by in IH. rewrite IH. done. Qed.
Lemma protected_tidy cs p : tidy p -> tidy (protected_by cs p).
Proof. induction cs; cbn; auto. Qed.

Theorem C41_cleanups_once_in_order cs vs rest ws :
  finishes (Block (fun b => Bind (protected_by cs (Exit b vs)) (fun _ => Bind (Emit rest) (fun _ => Return ws))))
    vs (rev cs).
Proof.
  eapply C41_tidy_exits_partial.
  - cbn. rewrite protected_exit by left. cbn. done.
  - cbn. intros b. split; [by apply protected_tidy|auto].
Qed.
Print Assumptions C41_cleanups_once_in_order.

Theorem C41_cleanups_after_return cs vs :
  finishes (Block (fun _ => protected_by cs (Return vs))) vs (rev cs).
Proof.
  eapply C41_tidy_exits_partial.
  - cbn. rewrite protected_return. done.
  - cbn. intros b. by apply protected_tidy.
Qed.
Print Assumptions C41_cleanups_after_return.

(** An exit from between blocks and cleanup clauses: only the inner clauses run
    before the block returns, the outer ones when the rest is done. *)
Theorem C41_cleanups_inside_only outer inner vs rest ws :
  finishes (protected_by outer (Bind (Block (fun b => protected_by inner (Exit b vs)))
                                  (fun us => Bind (Emit rest) (fun _ => Return (us ++ ws)))))
    (vs ++ ws) (rev inner ++ [rest] ++ rev outer).
Proof.
  assert (Hm : forall live n, meaning live n (Bind (Block (fun b => protected_by inner (Exit b vs)))
     (fun us => Bind (Emit rest) (fun _ => Return (us ++ ws)))) = (Normal (vs ++ ws), rev inner ++ [rest], S n)).
  { intros live n. cbn. rewrite protected_exit by left. rewrite Nat.eqb_refl. done. }
  eapply (C41_tidy_exits_partial _ _ _ 1).
  - generalize (@nil nat) at 1. intros live. set (p := Bind _ _) in *. clearbody p. induction outer as [|c cs IH]; cbn [protected_by fold_right rev].
    + rewrite Hm. done.
    + cbn [meaning]. unfold protected_by in IH. rewrite IH. cbn. rewrite <- !app_assoc. done.
  - apply protected_tidy. cbn. split; [intros b; by apply protected_tidy|auto].
Qed.
Print Assumptions C41_cleanups_inside_only.

(** ** Where the code differs from the language *)

Fixpoint run (fuel : nat) (m : machine) : outcome machine :=
  match fuel with
  | 0 => Val m
  | S fuel => match step m with Val m' => run fuel m' | Signal s => Signal s | UB => UB | NoFuel => NoFuel end
  end.
Lemma run_steps fuel : forall m m', run fuel m = Val m' -> steps m m'.
Proof.
  induction fuel as [|fuel IH]; cbn; intros m m' H; [inversion H; constructor|].
  destruct (step m) eqn:E; try done. econstructor; eauto.
Qed.
Lemma ends_once p m1 m2 vs1 vs2 : steps (start p) m1 -> steps (start p) m2 ->
  at_ m1 = Values vs1 -> stack m1 = [] -> at_ m2 = Values vs2 -> stack m2 = [] -> m1 = m2.
Proof.
  intros S1 S2 A1 K1 A2 K2.
  assert (F1 : step m1 = Val m1) by (unfold step; rewrite A1, K1; done).
  assert (F2 : step m2 = Val m2) by (unfold step; rewrite A2, K2; done).
  destruct (steps_linear _ _ _ S1 S2) as [H|H].
  - symmetry. by apply steps_fixed.
  - by apply steps_fixed.
Qed.

(** block (b) block () b(1) cleanup block (c) c() end end; 9 end: the exit in the
    cleanup clause cancels the one that runs the clause: what follows is executed, and
    the thread's last unwind-protect frame is gone. *)
Definition exit_in_cleanup : prog :=
  Block (fun b => Bind (Protect (Exit b [1]) (Block (fun c => Exit c []))) (fun _ => Bind (Emit 9) (fun _ => Return [2]))).
Theorem C41_exit_in_cleanup_refuted :
  (exists n, meaning [] 0 exit_in_cleanup = (Normal [1], [], n)) /\
  ~ finishes exit_in_cleanup [1] [] /\
  exists m, steps (start exit_in_cleanup) m /\ at_ m = Values [2] /\ stack m = [] /\ trace m = [9] /\ current m = None.
Proof.
  assert (R : exists m, run 20 (start exit_in_cleanup) = Val m /\ at_ m = Values [2] /\ stack m = [] /\ trace m = [9] /\ current m = None).
  { eexists. split; [vm_compute; reflexivity|]. done. }
  destruct R as (m & R & A & K & T & C). apply run_steps in R.
  split; [eexists; vm_compute; reflexivity|]. split; [|eauto 10].
  intros (m' & S' & A' & K' & T' & _). pose proof (ends_once _ _ _ _ _ R S' A K A' K') as <-. congruence.
Qed.
Print Assumptions C41_exit_in_cleanup_refuted.

(** After that the next exit through a cleanup clause follows a null pointer. *)
Theorem C41_exit_in_cleanup_crash_refuted :
  exists m, steps (start (Bind exit_in_cleanup (fun _ => Block (fun b => Exit b [])))) m /\ step m = UB.
Proof.
  assert (R : exists m, run 19 (start (Bind exit_in_cleanup (fun _ => Block (fun b => Exit b [])))) = Val m /\ step m = UB).
  { eexists. split; [vm_compute; reflexivity|]. vm_compute. reflexivity. }
  destruct R as (m & R & E). exists m. split; [by eapply run_steps|done].
Qed.
Print Assumptions C41_exit_in_cleanup_crash_refuted.

(** block (b) block () #f cleanup 5; b(1) end end: the cleanup clause runs twice. *)
Definition exit_from_cleanup : prog :=
  Block (fun b => Protect (Return []) (Bind (Emit 5) (fun _ => Exit b [1]))).
Theorem C41_cleanup_twice_refuted :
  (exists n, meaning [] 0 exit_from_cleanup = (Normal [1], [5], n)) /\
  ~ finishes exit_from_cleanup [1] [5] /\
  exists m, steps (start exit_from_cleanup) m /\ at_ m = Values [1] /\ stack m = [] /\ trace m = [5; 5].
Proof.
  assert (R : exists m, run 20 (start exit_from_cleanup) = Val m /\ at_ m = Values [1] /\ stack m = [] /\ trace m = [5; 5]).
  { eexists. split; [vm_compute; reflexivity|]. done. }
  destruct R as (m & R & A & K & T). apply run_steps in R.
  split; [eexists; vm_compute; reflexivity|]. split; [|eauto 10].
  intros (m' & S' & A' & K' & T' & _). pose proof (ends_once _ _ _ _ _ R S' A K A' K') as <-. congruence.
Qed.
Print Assumptions C41_cleanup_twice_refuted.

(** An exit to [b] with 2 that a cleanup clause gives up for one to [d], while an exit
    to [b] with 1 is on its way: 2 is delivered. *)
Definition abandoned_exit : prog :=
  Block (fun b => Protect (Exit b [1])
    (Protect (Block (fun d => Protect (Exit b [2]) (Exit d []))) (Return []))).
Theorem C41_abandoned_values_refuted :
  (exists n, meaning [] 0 abandoned_exit = (Normal [1], [], n)) /\
  ~ finishes abandoned_exit [1] [] /\
  exists m, steps (start abandoned_exit) m /\ at_ m = Values [2] /\ stack m = [] /\ trace m = [].
Proof.
  assert (R : exists m, run 30 (start abandoned_exit) = Val m /\ at_ m = Values [2] /\ stack m = [] /\ trace m = []).
  { eexists. split; [vm_compute; reflexivity|]. done. }
  destruct R as (m & R & A & K & T). apply run_steps in R.
  split; [eexists; vm_compute; reflexivity|]. split; [|eauto 10].
  intros (m' & S' & A' & K' & T' & _). pose proof (ends_once _ _ _ _ _ R S' A K A' K') as <-. congruence.
Qed.
Print Assumptions C41_abandoned_values_refuted.

(** An exit procedure called after its block has been left. *)
Theorem C41_dead_exit_refuted :
  exists m, steps (start (Bind (Block (fun b => Return [b])) (fun bs => Exit (default 0 (head bs)) []))) m /\ step m = UB.
Proof.
  assert (R : exists m, run 6 (start (Bind (Block (fun b => Return [b])) (fun bs => Exit (default 0 (head bs)) []))) = Val m /\ step m = UB).
  { eexists. split; [vm_compute; reflexivity|]. vm_compute. reflexivity. }
  destruct R as (m & R & E). exists m. split; [by eapply run_steps|done].
Qed.
Print Assumptions C41_dead_exit_refuted.

(** ** The hypotheses are met *)

(** Two blocks, three cleanup clauses, the middle one with a block of its own that is
    exited inside an unwind-protect, and a clause that replaces the exit. *)
Definition calm_program : prog :=
  Block (fun a =>
    Bind (Block (fun b =>
      Protect (Protect (Bind (Emit 1) (fun _ => Exit a [7; 8]))
                (Protect (Block (fun c => Bind (Emit 2) (fun _ => Exit c []))) (Emit 3)))
        (Bind (Emit 4) (fun _ => Exit b [9]))))
      (fun vs => Bind (Emit 5) (fun _ => Exit a vs))).
Example calm_hypotheses :
  meaning [] 0 calm_program = (Normal [9], [1; 2; 3; 4; 5], 3) /\ calm [] 0 false [] calm_program /\ ~ tidy calm_program.
Proof.
  split; [vm_compute; reflexivity|]. split.
  - vm_compute. repeat split; try done; try (intros; done). intros _ H. inversion H.
  - intros H. cbn in H. specialize (H 0) as [H _]. destruct (H 1) as [[_ [H1 _]] _]. destruct (H1 0) as [_ H2]. exact (H2 []).
Qed.
Example calm_finishes : finishes calm_program [9] [1; 2; 3; 4; 5].
Proof. destruct calm_hypotheses as (H1 & H2 & _). by eapply C41_exits_partial. Qed.
Example tidy_hypotheses :
  let p := Block (fun a => Bind (Protect (Protect (Exit a [3]) (Emit 1)) (Protect (Emit 2) (Emit 4))) (fun _ => Emit 9)) in
  meaning [] 0 p = (Normal [3], [1; 2; 4], 1) /\ tidy p.
Proof. split; [vm_compute; reflexivity|]. cbn. tauto. Qed.
