(** Invariants of read-write locks. *)
From Verif Require Import Base LockModel LockSpec LockProofs.
From Coq Require Import ZifyBool ZifyNat.
Open Scope Z_scope.

Lemma rw_holding_snoc tr e t : rw_holding (tr ++ [e]) t = rw_hold1 t (rw_holding tr t) e.
Proof. unfold rw_holding. by rewrite fold_left_app. Qed.
Lemma rw_other tr e u : ev_thread e <> u -> rw_holding (tr ++ [e]) u = rw_holding tr u.
Proof.
  intros H. rewrite rw_holding_snoc. apply Nat.eqb_neq in H.
  destruct e as [t o|t o r]; cbn in *; rewrite H; [by destruct o|]. destruct o as [[] |], r; done.
Qed.
Lemma disciplined_prefix tr es : disciplined (tr ++ es) -> disciplined tr.
Proof. intros H pre t post ->. apply (H pre t (post ++ es)). by rewrite <- app_assoc. Qed.

Definition in_lock (th : thread rw_op rw_point) : bool :=
  match th with
  | Run _ (WTest | WSleep | WGet | WSet _ | WBroadcast | WLeave _) => true
  | _ => false
  end.
Definition extra (m : mode) (th : option (thread rw_op rw_point)) (h : holding) : nat :=
  match th with
  | Some (Run (RWWait m' _) (WLeave RTrue)) =>
    match m, m' with Read, Read | Write, Write => 1%nat | _, _ => 0%nat end
  | Some (Run RWRelease (WEnter | WTest | WSet _)) =>
    match m, released h with Read, Read | Write, Write => 1%nat | _, _ => 0%nat end
  | _ => 0%nat
  end.
Definition nreads (th : option (thread rw_op rw_point)) (h : holding) : nat := (reads h + extra Read th h)%nat.
Definition nwrites (th : option (thread rw_op rw_point)) (h : holding) : nat := (writes h + extra Write th h)%nat.

Definition blocked (m : mode) (s : lock_state) : bool :=
  match m with Write => negb (lock_is_free s) | Read => negb (lock_is_free_for_reading s) end.

Definition rw_local (th : thread rw_op rw_point) (t : nat) (s : lock_state) (h : holding) : Prop :=
  match th with
  | Run (RWWait m _) WSleep => blocked m s = true
  | Run (RWWait Write _) (WSet s') => s' = Writer t /\ s = Count 0
  | Run (RWWait Read _) WGet => exists n, s = Count n
  | Run (RWWait Read _) (WSet s') => exists n, s = Count n /\ s' = Count (n + 1)
  | Run (RWWait Write _) WGet => False
  | Run (RWWait _ _) WBroadcast => False
  | Run RWRelease (WSet s') =>
    released h = Write /\ s = Writer t /\ s' = Count 0 \/
    released h = Read /\ exists n, 0 < n /\ s = Count n /\ s' = Count (n - 1)
  | Run RWRelease (WSleep | WParked | WRelock _ | WGet) => False
  | Run _ (WLeave r) => r <> RError
  | _ => True
  end.

Definition rw_nreads (w : rw_world) (tr : list (event rw_op)) (t : nat) : nat := nreads (rw_threads w !! t) (rw_holding tr t).
Definition rw_nwrites (w : rw_world) (tr : list (event rw_op)) (t : nat) : nat := nwrites (rw_threads w !! t) (rw_holding tr t).

Definition rw_global (n : nat) (s : lock_state) (nr nw : nat -> nat) : Prop :=
  match s with
  | Writer u => nw u = 1%nat /\ (forall v, v <> u -> nw v = 0%nat) /\ forall v, nr v = 0%nat
  | Count k => (forall v, nw v = 0%nat) /\ k = Z.of_nat (total nr n)
  end.

Record rw_inv (n : nat) (w : rw_world) (tr : list (event rw_op)) : Prop := {
  wi_len : length (rw_threads w) = n;
  wi_none : forall t, rw_threads w !! t = None -> rw_holding tr t = Holding 0 0 Read;
  wi_inner : forall t th, rw_threads w !! t = Some th -> in_lock th = true <-> rw_inner w = Some t;
  wi_local : forall t th, rw_threads w !! t = Some th -> rw_local th t (rw_state w) (rw_holding tr t);
  wi_global : rw_global n (rw_state w) (rw_nreads w tr) (rw_nwrites w tr);
  wi_asleep : forall t, t ∈ rw_asleep w ->
    exists m b, rw_threads w !! t = Some (Run (RWWait m b) WParked) /\
      (blocked m (rw_state w) = true \/ exists u o, rw_threads w !! u = Some (Run o WBroadcast)) }.

Lemma lock_is_free_0 s : lock_is_free s = true -> s = Count 0.
Proof. destruct s as [n|]; cbn; [|done]. intros E. f_equal. lia. Qed.

(** A thread at [WLeave RTrue] after [wait-for], and releases before [WSet], count. *)
Lemma rw_step_ok n w t c w' es tr :
  rw_inv n w tr -> disciplined (tr ++ es) -> rw_step w t c = Some (w', es) -> rw_inv n w' (tr ++ es).
Proof.
  intros [Hn Hno Hin Hl Hg Ha] Hd Hs.
  assert (H : exists th th0, rw_threads w !! t = Some th0 /\ rw_threads w' = <[t := th]> (rw_threads w) /\
    (es = [] \/ exists e, es = [e] /\ ev_thread e = t) /\
    (in_lock th = true <-> rw_inner w' = Some t) /\
    (forall u, u <> t -> rw_inner w = Some u <-> rw_inner w' = Some u) /\
    rw_local th t (rw_state w') (rw_holding (tr ++ es) t) /\
    (forall v, v ∈ rw_asleep w' -> v ∈ rw_asleep w /\ v <> t \/
       v = t /\ exists m b, th0 = Run (RWWait m b) WSleep /\ th = Run (RWWait m b) WParked /\ rw_state w' = rw_state w) /\
    (forall o, th0 = Run o WBroadcast -> rw_asleep w' = []) /\
    (rw_state w' = rw_state w /\
       nreads (Some th) (rw_holding (tr ++ es) t) = nreads (Some th0) (rw_holding tr t) /\
       nwrites (Some th) (rw_holding (tr ++ es) t) = nwrites (Some th0) (rw_holding tr t) \/
     rw_inner w = Some t /\
     ((rw_state w = Count 0 /\ rw_state w' = Writer t /\ rw_asleep w' = rw_asleep w /\
        nreads (Some th) (rw_holding (tr ++ es) t) = nreads (Some th0) (rw_holding tr t) /\
        nwrites (Some th) (rw_holding (tr ++ es) t) = S (nwrites (Some th0) (rw_holding tr t))) \/
      (exists k, rw_state w = Count k /\ rw_state w' = Count (k + 1) /\
        nreads (Some th) (rw_holding (tr ++ es) t) = S (nreads (Some th0) (rw_holding tr t)) /\
        nwrites (Some th) (rw_holding (tr ++ es) t) = nwrites (Some th0) (rw_holding tr t)) \/
      (rw_state w = Writer t /\ rw_state w' = Count 0 /\ th = Run RWRelease WBroadcast /\
        nreads (Some th) (rw_holding (tr ++ es) t) = nreads (Some th0) (rw_holding tr t) /\
        S (nwrites (Some th) (rw_holding (tr ++ es) t)) = nwrites (Some th0) (rw_holding tr t)) \/
      (exists k, 0 < k /\ rw_state w = Count k /\ rw_state w' = Count (k - 1) /\
        (k = 1 -> th = Run RWRelease WBroadcast) /\ (th0 = Run RWRelease (WSet (Count (k - 1)))) /\
        S (nreads (Some th) (rw_holding (tr ++ es) t)) = nreads (Some th0) (rw_holding tr t) /\
        nwrites (Some th) (rw_holding (tr ++ es) t) = nwrites (Some th0) (rw_holding tr t))))).
  { unfold rw_step in Hs. destruct (rw_threads w !! t) as [th0|] eqn:Et; [|done].
    pose proof (Hin _ _ Et) as Hint. pose proof (Hl _ _ Et) as Hlt.
    assert (Hat : forall v, v ∈ rw_asleep w -> v = t -> exists m b, th0 = Run (RWWait m b) WParked).
    { intros v Hv ->. destruct (Ha t Hv) as (m & b & E & _). exists m, b. congruence. }
    assert (Hsl : forall ws, ws = rw_asleep w -> (forall m b, th0 <> Run (RWWait m b) WParked) ->
       forall v, v ∈ ws -> v ∈ rw_asleep w /\ v <> t).
    { intros ws -> Hne v Hv. split; [done|]. intros ->. destruct (Hat t Hv eq_refl) as (m & b & E). by eapply Hne. }
    destruct th0 as [|o p].
    - destruct c as [|o| | |]; try done. injection Hs as <- <-. exists (Run o WEnter), Idle.
      cbn [rw_threads rw_inner rw_state rw_asleep].
      split; [done|]. split; [done|]. split; [right; by eexists|]. split; [done|]. split; [done|]. split; [by destruct o as [[]|]|].
      split; [left; by eapply Hsl|]. split; [done|]. left. split; [done|]. rewrite rw_holding_snoc.
      destruct o as [m b|]; [done|]. unfold nreads, nwrites. cbn. rewrite Nat.eqb_refl.
      pose proof (Hd tr t [] eq_refl) as Hdt. unfold rw_reads, rw_writes in Hdt.
      destruct (writes (rw_holding tr t)) as [|k] eqn:Ew; cbn; [|lia].
      destruct (reads (rw_holding tr t)); cbn; lia.
    - assert (HW : (0 < nwrites (Some (Run o p)) (rw_holding tr t))%nat -> rw_state w = Writer t).
      { intros Hp. unfold rw_global, rw_nwrites in Hg. destruct (rw_state w) as [k|u].
        - destruct Hg as [H _]. specialize (H t). rewrite Et in H. lia.
        - destruct Hg as (_ & H & _). destruct (decide (t = u)) as [-> |Hne]; [done|].
          specialize (H t Hne). rewrite Et in H. lia. }
      assert (HR : (0 < nreads (Some (Run o p)) (rw_holding tr t))%nat -> exists k, 0 < k /\ rw_state w = Count k).
      { intros Hp. unfold rw_global in Hg. destruct (rw_state w) as [k|u].
        - exists k. split; [|done]. destruct Hg as [_ ->].
          assert (Hlt' : (t < n)%nat) by (apply lookup_lt_Some in Et; lia).
          pose proof (total_ge (rw_nreads w tr) n t Hlt') as H. unfold rw_nreads at 1 in H. rewrite Et in H. lia.
        - destruct Hg as (_ & _ & H). specialize (H t). unfold rw_nreads in H. rewrite Et in H. lia. }
      clear Hg. unfold rw_local in Hlt. unfold rw_wait, rw_release, rw_enter, rw_leave in Hs.
      assert (Hown : in_lock (Run o p) = true -> rw_inner w = Some t) by tauto.
      destruct o as [m b|]; destruct p as [| | | |to| |s| |r], c; try done.
      + (* WEnter *)
        destruct (rw_inner w) as [u|] eqn:Ei.
        { destruct (Nat.eqb_spec u t) as [-> |]; [|done]. pose proof (proj2 Hint eq_refl) as Hf. discriminate Hf. }
        injection Hs as <- <-. rewrite app_nil_r. eexists _, _. cbn [rw_threads rw_inner rw_state rw_asleep rw_with_inner].
        split_and!; try reflexivity; try (by left); try (by intros); try (by destruct m).
        * intros u Hu. split; [done|congruence].
        * left. by eapply Hsl.
      + (* WTest *)
        specialize (Hown eq_refl).
        assert (exists q, rw_at w t (RWWait m b) q = Some (w', es) /\ in_lock (Run (RWWait m b) q) = true /\
          rw_local (Run (RWWait m b) q) t (rw_state w) (rw_holding tr t) /\ (forall r, q <> WLeave r)) as (q & Hq & Hq1 & Hq2 & Hq3).
        { destruct m.
          - exists (if lock_is_free_for_reading (rw_state w) then WGet else WSleep). split; [done|].
            destruct (rw_state w) as [k|u]; cbn; split_and!; try done. by exists k.
          - exists (if lock_is_free (rw_state w) then WSet (Writer t) else WSleep). split; [done|].
            destruct (lock_is_free (rw_state w)) eqn:Ef; cbn; split_and!; try done.
            + by apply lock_is_free_0.
            + by rewrite Ef. }
        injection Hq as <- <-. rewrite app_nil_r. eexists _, _. cbn [rw_threads rw_inner rw_state rw_asleep].
        split_and!; try reflexivity; try (by left); try (by intros); try done.
        * left. by eapply Hsl.
        * left. split; [done|]. unfold nreads, nwrites. destruct q; cbn; try done. by destruct (Hq3 r).
      + (* WSleep *)
        specialize (Hown eq_refl). rewrite Hown, Nat.eqb_refl in Hs. injection Hs as <- <-. rewrite app_nil_r. eexists _, _.
        cbn [rw_threads rw_inner rw_state rw_asleep rw_with_inner rw_with_asleep].
        split_and!; try reflexivity; try (by left); try (by intros); try (by destruct m).
        * intros u Hu. rewrite Hown. split; [intros [= ->]|]; done.
        * intros v Hv. apply elem_of_app in Hv as [Hv|Hv]; [left; by eapply Hsl|].
          apply elem_of_list_singleton in Hv as ->. right. split; [done|]. by exists m, b.
      + (* WParked, Go *)
        destruct (waiting t (rw_asleep w)) eqn:Ew; [done|]. injection Hs as <- <-. rewrite app_nil_r. eexists _, _.
        cbn [rw_threads rw_inner rw_state rw_asleep].
        split_and!; try reflexivity; try (by left); try (by intros); try (by destruct m); try done.
        * left. split; [done|]. intros ->. apply waiting_in in H. congruence.
      + destruct b; [|done]. injection Hs as <- <-. rewrite app_nil_r. eexists _, _.
        cbn [rw_threads rw_inner rw_state rw_asleep rw_with_asleep].
        split_and!; try reflexivity; try (by left); try (by intros); try (by destruct m); try done.
        * intros v Hv. left. by apply remove_waiter_in in Hv.
      + injection Hs as <- <-. rewrite app_nil_r. eexists _, _.
        cbn [rw_threads rw_inner rw_state rw_asleep rw_with_asleep].
        split_and!; try reflexivity; try (by left); try (by intros); try (by destruct m); try done.
        * intros v Hv. left. by apply remove_waiter_in in Hv.
      + (* WRelock *)
        destruct (rw_inner w) as [u|] eqn:Ei; [done|]. injection Hs as <- <-. rewrite app_nil_r. eexists _, _.
        cbn [rw_threads rw_inner rw_state rw_asleep rw_with_inner].
        split_and!; try reflexivity; try (by left); try (by intros).
        * by destruct to.
        * intros u Hu. split; [done|congruence].
        * by destruct to, m.
        * left. by eapply Hsl.
        * left. split; [done|]. unfold nreads, nwrites. by destruct to.
      + (* WGet *)
        destruct m; [|done]. destruct Hlt as [k Hk]. rewrite Hk in Hs. injection Hs as <- <-. rewrite app_nil_r. eexists _, _.
        cbn [rw_threads rw_inner rw_state rw_asleep].
        split_and!; try reflexivity; try (by left); try (by intros); try done.
        * exists k. done.
        * left. by eapply Hsl.
      + (* WSet *)
        specialize (Hown eq_refl). injection Hs as <- <-. rewrite app_nil_r. eexists _, _.
        cbn [rw_threads rw_inner rw_state rw_asleep rw_with_state].
        split_and!; try reflexivity; try (by left); try (by intros); try (by destruct m).
        * left. by eapply Hsl.
        * right. split; [done|]. unfold nreads, nwrites. destruct m; cbn.
          { right; left. destruct Hlt as (k & Hk & ->). exists k. split_and!; try done; lia. }
          { left. destruct Hlt as [-> Hk]. split_and!; try done; lia. }
      + (* WLeave *)
        specialize (Hown eq_refl). rewrite Hown, Nat.eqb_refl in Hs. injection Hs as <- <-. eexists _, _.
        cbn [rw_threads rw_inner rw_state rw_asleep rw_with_inner].
        split_and!; try reflexivity; try (by intros).
        * right. by eexists.
        * intros u Hu. rewrite Hown. split; [intros [= ->]|]; done.
        * left. by eapply Hsl.
        * left. split; [done|]. rewrite rw_holding_snoc. unfold nreads, nwrites.
          destruct m, r; cbn; rewrite ?Nat.eqb_refl; cbn; lia.
      + (* release: WEnter *)
        destruct (rw_inner w) as [u|] eqn:Ei.
        { destruct (Nat.eqb_spec u t) as [-> |]; [|done]. pose proof (proj2 Hint eq_refl) as Hf. discriminate Hf. }
        injection Hs as <- <-. rewrite app_nil_r. eexists _, _. cbn [rw_threads rw_inner rw_state rw_asleep rw_with_inner].
        split_and!; try reflexivity; try (by left); try (by intros).
        * intros u Hu. split; [done|congruence].
        * left. by eapply Hsl.
      + (* WTest *)
        specialize (Hown eq_refl).
        assert (exists s, rw_at w t RWRelease (WSet s) = Some (w', es) /\
          rw_local (Run RWRelease (WSet s)) t (rw_state w) (rw_holding tr t)) as (s & Hq & Hq2).
        { unfold nreads, nwrites in HW, HR. cbn in HW, HR. destruct (released (rw_holding tr t)) eqn:Er.
          - destruct HR as (k & Hk & Hst); [lia|]. rewrite Hst in Hs |- *. cbn in Hs.
            destruct (Z.ltb_spec 0 k); [|lia]. exists (Count (k - 1)). split; [done|]. cbn. right. split; [done|]. by exists k.
          - rewrite HW in Hs |- * by lia. cbn in Hs. rewrite Nat.eqb_refl in Hs. exists (Count 0). split; [done|].
            cbn. by left. }
        injection Hq as <- <-. rewrite app_nil_r. eexists _, _. cbn [rw_threads rw_inner rw_state rw_asleep].
        split_and!; try reflexivity; try (by left); try (by intros); try done.
        * left. by eapply Hsl.
      + (* WSet *)
        specialize (Hown eq_refl). injection Hs as <- <-. rewrite app_nil_r. eexists _, _.
        cbn [rw_threads rw_inner rw_state rw_asleep rw_with_state].
        split_and!; try reflexivity; try (by left); try (by intros); try (by destruct (lock_is_free s)).
        * left. by eapply Hsl.
        * right. split; [done|]. unfold nreads, nwrites. right; right.
          destruct Hlt as [(Hr & Hst & ->)|(Hr & k & Hk & Hst & ->)].
          { left. cbn. rewrite Hr. cbn. split_and!; try done; lia. }
          { right. exists k. split; [done|]. split; [done|]. split; [done|]. cbn [lock_is_free extra].
            split; [intros ->; done|]. split; [done|]. rewrite Hr. destruct (k - 1 =? 0); cbn; lia. }
      + (* WBroadcast *)
        specialize (Hown eq_refl). injection Hs as <- <-. rewrite app_nil_r. eexists _, _.
        cbn [rw_threads rw_inner rw_state rw_asleep rw_with_asleep].
        split_and!; try reflexivity; try (by left); try (by intros); try done.
        * intros v Hv. by apply elem_of_nil in Hv.
      + (* WLeave *)
        specialize (Hown eq_refl). rewrite Hown, Nat.eqb_refl in Hs. injection Hs as <- <-. eexists _, _.
        cbn [rw_threads rw_inner rw_state rw_asleep rw_with_inner].
        split_and!; try reflexivity; try (by intros).
        * right. by eexists.
        * intros u Hu. rewrite Hown. split; [intros [= ->]|]; done.
        * left. by eapply Hsl.
        * left. split; [done|]. rewrite rw_holding_snoc. done. }
  destruct H as (th & th0 & Et & Et' & He & Hin' & Hio & Hl' & Ha' & Hb' & Hc').
  assert (Hlt : (t < length (rw_threads w))%nat) by (by apply lookup_lt_Some in Et).
  assert (Hwt : rw_threads w' !! t = Some th) by (rewrite Et'; by apply list_lookup_insert).
  assert (Hoth : forall u, u <> t -> rw_holding (tr ++ es) u = rw_holding tr u /\ rw_threads w' !! u = rw_threads w !! u).
  { intros u Hu. rewrite Et', list_lookup_insert_ne by done.
    destruct He as [-> |(e & -> & He)]; [by rewrite app_nil_r|].
    rewrite (rw_other tr e u); [done|congruence]. }
  assert (Hnr : forall u, u <> t -> rw_nreads w' (tr ++ es) u = rw_nreads w tr u).
  { intros u Hu. unfold rw_nreads. by destruct (Hoth u Hu) as [-> ->]. }
  assert (Hnw : forall u, u <> t -> rw_nwrites w' (tr ++ es) u = rw_nwrites w tr u).
  { intros u Hu. unfold rw_nwrites. by destruct (Hoth u Hu) as [-> ->]. }
  assert (Hlt2 : (t < n)%nat) by lia.
  pose proof (total_update (rw_nreads w tr) (rw_nreads w' (tr ++ es)) n t Hlt2) as Htot.
  assert (forall u, u <> t -> rw_nreads w tr u = rw_nreads w' (tr ++ es) u) as Hsym by (intros; by rewrite Hnr).
  specialize (Htot Hsym). clear Hsym.
  assert (Er : nreads (Some th) (rw_holding (tr ++ es) t) = rw_nreads w' (tr ++ es) t) by (unfold rw_nreads; by rewrite Hwt).
  assert (Ew : nwrites (Some th) (rw_holding (tr ++ es) t) = rw_nwrites w' (tr ++ es) t) by (unfold rw_nwrites; by rewrite Hwt).
  assert (Er0 : nreads (Some th0) (rw_holding tr t) = rw_nreads w tr t) by (unfold rw_nreads; by rewrite Et).
  assert (Ew0 : nwrites (Some th0) (rw_holding tr t) = rw_nwrites w tr t) by (unfold rw_nwrites; by rewrite Et).
  rewrite Er, Ew, Er0, Ew0 in Hc'. clear Er Ew Er0 Ew0.
  assert (Hinner : forall u x, rw_threads w !! u = Some x -> in_lock x = true -> rw_inner w = Some t -> u = t).
  { intros u x Hu Hx Hit. pose proof (proj1 (Hin _ _ Hu) Hx). congruence. }
  split.
  - by rewrite Et', insert_length.
  - intros u Hu. destruct (decide (u = t)) as [-> |Hne]; [congruence|].
    destruct (Hoth u Hne) as [-> E]. apply Hno. congruence.
  - intros u x Hu. destruct (decide (u = t)) as [-> |Hne].
    + rewrite Hwt in Hu. injection Hu as <-. done.
    + destruct (Hoth u Hne) as [_ E]. rewrite E in Hu. rewrite <- Hio by done. by apply Hin.
  - intros u x Hu. destruct (decide (u = t)) as [-> |Hne].
    + rewrite Hwt in Hu. injection Hu as <-. done.
    + destruct (Hoth u Hne) as [-> E]. rewrite E in Hu. pose proof (Hl _ _ Hu) as Hlu.
      destruct Hc' as [[-> _]|[Hit _]]; [done|].
      destruct (in_lock x) eqn:Ex; [by destruct (Hne (Hinner _ _ Hu Ex Hit))|].
      by destruct x as [|[[] |] []].
  - destruct Hc' as [(-> & H1 & H2)|(Hit & [(Hs1 & -> & _ & H1 & H2)|[(k & Hs1 & -> & H1 & H2)|
      [(Hs1 & -> & _ & H1 & H2)|(k & Hk & Hs1 & -> & _ & _ & H1 & H2)]]])].
    + unfold rw_global in *. destruct (rw_state w) as [k|u].
      * destruct Hg as [G1 G2]. split; [|rewrite G2; f_equal; lia].
        intros v. destruct (decide (v = t)) as [-> |Hne]; [by rewrite H2|by rewrite Hnw].
      * destruct Hg as (G1 & G2 & G3). split_and!.
        { destruct (decide (u = t)) as [-> |Hne]; [by rewrite H2|by rewrite Hnw]. }
        { intros v Hv. destruct (decide (v = t)) as [-> |Hne]; [rewrite H2; auto|rewrite Hnw; auto]. }
        { intros v. destruct (decide (v = t)) as [-> |Hne]; [rewrite H1; auto|rewrite Hnr; auto]. }
    + rewrite Hs1 in Hg. destruct Hg as [G1 G2]. cbn. split_and!.
      * rewrite H2, G1. done.
      * intros v Hv. by rewrite Hnw.
      * intros v. assert (E : rw_nreads w tr v = 0%nat).
        { destruct (decide (v < n)%nat) as [Hvn|Hvn]; [pose proof (total_ge (rw_nreads w tr) n v Hvn); lia|].
          assert (En : rw_threads w !! v = None) by (apply lookup_ge_None; lia).
          unfold rw_nreads. rewrite En, (Hno _ En). done. }
        destruct (decide (v = t)) as [-> |Hne]; [by rewrite H1|by rewrite Hnr].
    + rewrite Hs1 in Hg. destruct Hg as [G1 G2]. cbn. split; [|lia].
      intros v. destruct (decide (v = t)) as [-> |Hne]; [by rewrite H2|by rewrite Hnw].
    + rewrite Hs1 in Hg. destruct Hg as (G1 & G2 & G3). cbn. split.
      * intros v. destruct (decide (v = t)) as [-> |Hne]; [lia|]. rewrite Hnw by done. auto.
      * rewrite total_zero; [done|]. intros v _.
        destruct (decide (v = t)) as [-> |Hne]; [rewrite H1; auto|rewrite Hnr; auto].
    + rewrite Hs1 in Hg. destruct Hg as [G1 G2]. cbn. split; [|lia].
      intros v. destruct (decide (v = t)) as [-> |Hne]; [by rewrite H2|by rewrite Hnw].
  - intros v Hv. destruct (Ha' v Hv) as [[Hv1 Hne]|(-> & m & b & -> & -> & Hst)].
    + destruct (Ha v Hv1) as (m & b & E & Hbl). exists m, b. destruct (Hoth v Hne) as [_ ->]. split; [done|].
      assert (Hbr : forall u o, rw_threads w !! u = Some (Run o WBroadcast) -> u <> t).
      { intros u o Hu ->. rewrite Et in Hu. injection Hu as ->. rewrite (Hb' o eq_refl) in Hv. by apply elem_of_nil in Hv. }
      assert (Hnb : rw_inner w = Some t -> blocked m (rw_state w) = true).
      { intros Hit. destruct Hbl as [H|(u & o & Hu)]; [done|].
        assert (u = t) by (by eapply Hinner). by destruct (Hbr u o Hu). }
      destruct Hc' as [(-> & _)|(Hit & [(Hs1 & -> & _)|[(k & Hs1 & -> & _)|[(Hs1 & -> & -> & _)|(k & Hk & Hs1 & -> & Hk1 & _)]]])].
      * destruct Hbl as [H|(u & o & Hu)]; [by left|]. right. exists u, o.
        destruct (Hoth u (Hbr u o Hu)) as [_ ->]. done.
      * left. by destruct m.
      * left. specialize (Hnb Hit). rewrite Hs1 in Hnb, Hg. destruct m; [done|]. destruct Hg as [_ G2]. cbn. lia.
      * right. by exists t, RWRelease.
      * destruct (decide (k = 1)) as [Ek|Ek]; [right; exists t, RWRelease; by rewrite Hwt, Hk1|].
        left. specialize (Hnb Hit). rewrite Hs1 in Hnb. destruct m; [done|]. cbn. lia.
    + exists m, b. split; [done|]. left. rewrite Hst. pose proof (Hl _ _ Et) as H. by destruct m.
Qed.

Lemma rw_inv_run n tr w : run rw_step (rw_initial n) tr w -> disciplined tr -> rw_inv n w tr.
Proof.
  induction 1 as [|tr w t c w' es Hr IH Hs]; intros Hd.
  - assert (Hn : forall t x, replicate n (@Idle rw_op rw_point) !! t = Some x -> x = Idle).
    { intros t x E. by apply lookup_replicate in E as [-> _]. }
    split; cbn; try done.
    + apply replicate_length.
    + intros t th E. by rewrite (Hn _ _ E).
    + intros t th E. by rewrite (Hn _ _ E).
    + split.
      * intros v. unfold rw_nwrites. cbn. destruct (replicate n Idle !! v) as [x|] eqn:E; [|done]. by rewrite (Hn _ _ E).
      * rewrite total_zero; [done|]. intros v _. unfold rw_nreads. cbn.
        destruct (replicate n Idle !! v) as [x|] eqn:E; [|done]. by rewrite (Hn _ _ E).
    + intros t Ht. by apply elem_of_nil in Ht.
  - eapply rw_step_ok; [|exact Hd|exact Hs]. apply IH. by eapply disciplined_prefix.
Qed.
