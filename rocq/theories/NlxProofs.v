(** The exit code against the meaning of block (C41). *)
From Verif Require Import Base NlxModel NlxSpec.
From Coq Require Import ZifyBool ZifyNat.
Local Open Scope nat_scope.
Local Open Scope outcome_scope.

Lemma steps_trans m1 m2 m3 : steps m1 m2 -> steps m2 m3 -> steps m1 m3.
Proof. induction 1; [done|]. intros. econstructor; eauto. Qed.
Lemma steps_one m m' : step m = Val m' -> steps m m'.
Proof. intros. econstructor; [done|constructor]. Qed.

(** ** Determinism *)
Lemma steps_linear m m1 m2 : steps m m1 -> steps m m2 -> steps m1 m2 \/ steps m2 m1.
Proof.
  intros H1. revert m2. induction H1 as [m|m m' m1 Hs H1 IH]; intros m2 H2; [by left|].
  inversion H2 as [|? m'' ? Hs' H2']; subst.
  - right. econstructor; eauto.
  - rewrite Hs in Hs'. inversion Hs'; subst. auto.
Qed.
Lemma steps_fixed m m' : step m = Val m -> steps m m' -> m' = m.
Proof.
  intros Hf H. remember m as m0 eqn:E. revert Hf. rewrite E in *. clear E.
  induction H as [m|m m1 m2 Hs H IH]; [done|]. intros Hf.
  rewrite Hf in Hs. inversion Hs; subst. auto.
Qed.
Lemma steps_final m m1 m2 : steps m m1 -> step m1 = Val m1 -> steps m m2 -> steps m2 m1.
Proof.
  intros H1 Hf H2. destruct (steps_linear _ _ _ H1 H2) as [H|H]; [|done].
  rewrite (steps_fixed _ _ Hf H). constructor.
Qed.

(** ** Exits go to live blocks *)
Lemma exiting_live p : forall live n b vs t n',
  meaning live n p = (Exiting b vs, t, n') -> b ∈ live.
Proof.
  induction p as [vs0|e|p IHp k IHk|f IHf|b0 vs0|body IHb c IHc]; intros live n b vs t n' H; cbn in H.
  - done.
  - done.
  - destruct (meaning live n p) as [[r t1] n1] eqn:E. destruct r as [ws|b1 ws|].
    + destruct (meaning live n1 (k ws)) as [[r' t'] n2] eqn:E'. inversion H; subst. eauto.
    + inversion H; subst. eauto.
    + done.
  - destruct (meaning (n :: live) (S n) (f n)) as [[r t1] n1] eqn:E. destruct r as [ws|b1 ws|].
    + done.
    + destruct (b1 =? n) eqn:Eb; [done|]. inversion H; subst. apply IHf in E.
      apply elem_of_cons in E as [->|E]; [lia|done].
    + done.
  - destruct (decide (b0 ∈ live)); inversion H; subst; done.
  - destruct (meaning live n body) as [[r t1] n1] eqn:E. destruct r as [ws|b1 ws|].
    + destruct (meaning live n1 c) as [[r' t'] n2] eqn:E'. destruct r'; inversion H; subst; eauto.
    + destruct (meaning live n1 c) as [[r' t'] n2] eqn:E'. destruct r'; inversion H; subst; eauto.
    + done.
Qed.

(** ** What a program leaves alone *)
Definition kept (P : nat -> Prop) (u : nat) (m m' : machine) : Prop :=
  length (exits m) <= length (exits m') /\ length (unwinds m) <= length (unwinds m') /\
  (forall i f, exits m !! i = Some f -> exists f', exits m' !! i = Some f' /\
      present f' = present f /\ (P i -> exit_values f' = exit_values f)) /\
  (forall i f, unwinds m !! i = Some f -> i <> u -> unwinds m' !! i = Some f) /\
  (forall f, unwinds m !! u = Some f -> exists x,
      unwinds m' !! u = Some (UnwindFrame (saved_values f) x (previous f))).

Lemma kept_refl P u m : kept P u m m.
Proof. repeat split; eauto. intros [s x p] H. eauto. Qed.
Lemma kept_weak (P Q : nat -> Prop) u m m' : (forall i, Q i -> P i) -> kept P u m m' -> kept Q u m m'.
Proof.
  intros HPQ (H1 & H2 & H3 & H4 & H5). repeat split; auto.
  intros i f Hf. destruct (H3 i f Hf) as (f' & ? & ? & ?). exists f'. eauto.
Qed.
Lemma kept_trans P u m1 m2 m3 : kept P u m1 m2 -> kept P u m2 m3 -> kept P u m1 m3.
Proof.
  intros (A1 & A2 & A3 & A4 & A5) (B1 & B2 & B3 & B4 & B5). split; [lia|]. split; [lia|].
  split; [|split].
  - intros i f Hf. destruct (A3 i f Hf) as (f1 & Hf1 & E1 & V1). destruct (B3 i f1 Hf1) as (f2 & Hf2 & E2 & V2).
    exists f2. repeat split; auto; [congruence|]. intros HP. rewrite V2, V1; auto.
  - auto.
  - intros f Hf. destruct (A5 f Hf) as [x Hx]. destruct (B5 _ Hx) as [y Hy]. eauto.
Qed.

Lemma kept_same P u m m' : exits m' = exits m -> unwinds m' = unwinds m -> kept P u m m'.
Proof.
  intros H1 H2. unfold kept. rewrite H1, H2. repeat split; eauto. intros [s x p] H. eauto.
Qed.

Definition ready (live : list nat) (m : machine) : Prop :=
  forall b, b ∈ live -> exists f up, exits m !! b = Some f /\ present f = Some up /\ up < length (unwinds m).
Lemma ready_kept live P u m m' : ready live m -> kept P u m m' -> ready live m'.
Proof.
  intros Hr (H1 & H2 & H3 & H4 & H5) b Hb. destruct (Hr b Hb) as (f & up & Hf & Hp & Hl).
  destruct (H3 b f Hf) as (f' & Hf' & E & _). exists f', up. repeat split; [done|congruence|lia].
Qed.

(** ** The stack above a program has only its own frames *)
Definition own (nb nu : nat) (k : control) : Prop :=
  match k with
  | AfterBind _ => True
  | InBlock b => nb <= b
  | InProtected u _ | InCleanup u _ => nu <= u
  end.
Lemma own_weak nb nu nb' nu' K : nb' <= nb -> nu' <= nu -> Forall (own nb nu) K -> Forall (own nb' nu') K.
Proof. intros H1 H2 H. eapply Forall_impl; [exact H|]. intros [|b|u|u]; cbn; lia. Qed.
Lemma to_block_own b nu K K' : Forall (own (S b) nu) K -> to_block b (K ++ InBlock b :: K') = Val K'.
Proof.
  induction 1 as [|k K Hk H IH]; cbn.
  - rewrite Nat.eqb_refl. done.
  - destruct k as [|b'|u|u]; cbn in *; auto. destruct (Nat.eqb_spec b b'); [lia|done].
Qed.
Lemma to_protect_own nb u c K K' : Forall (own nb (S u)) K ->
  to_protect u (K ++ InProtected u c :: K') = Val (c, K').
Proof.
  induction 1 as [|k K Hk H IH]; cbn.
  - rewrite Nat.eqb_refl. done.
  - destruct k as [|b'|u'|u']; cbn in *; auto; (destruct (Nat.eqb_spec u u'); [lia|done]).
Qed.

Lemma lookup_set_ultimate l u b f : l !! u = Some f ->
  set_ultimate l u b = <[u := UnwindFrame (saved_values f) b (previous f)]> l.
Proof. intros H. unfold set_ultimate. rewrite H. done. Qed.

Definition reaches (live busy : list nat) (u : nat) (fu : unwind_protect_frame) (m : machine)
    (r : ending) (t : list nat) (n : nat) : Prop :=
  match r with
  | TooLate => True
  | Normal vs => exists m', steps m m' /\ at_ m' = Values vs /\ stack m' = stack m /\ current m' = Some u /\
      trace m' = trace m ++ t /\ n = length (exits m') /\ unwinds m' !! u = Some fu /\
      kept (fun i => i ∈ busy) u m m'
  | Exiting b vs => exists m' K, steps m m' /\ at_ m' = Step b /\ stack m' = K ++ stack m /\ current m' = Some u /\
      trace m' = trace m ++ t /\ n = length (exits m') /\
      Forall (own (length (exits m)) (length (unwinds m))) K /\
      (exists f, exits m' !! b = Some f /\ exit_values f = vs) /\
      kept (fun i => i ∈ busy /\ i <> b) u m m'
  end.

Lemma simulates p : forall live busy unwinding m u fu r t n,
  at_ m = Run p -> current m = Some u -> unwinds m !! u = Some fu ->
  (unwinding = false -> ultimate fu = None) -> ready live m ->
  meaning live (length (exits m)) p = (r, t, n) -> calm live (length (exits m)) unwinding busy p ->
  reaches live busy u fu m r t n.
Proof.
  induction p as [vs0|e|p IHp k IHk|f IHf|b0 vs0|body IHb c IHc];
    intros live busy unw m u fu r t n Hat Hcur Hu Hunw Hready Hm Hcalm; cbn in Hm, Hcalm.
  - (* Return *)
    inversion Hm; subst. eexists. split; [apply steps_one; unfold step; rewrite Hat; reflexivity|].
    split; [done|]. split; [done|]. split; [done|]. split; [cbn; by rewrite app_nil_r|].
    split; [done|]. split; [done|]. by apply kept_same.
  - (* Emit *)
    inversion Hm; subst. eexists. split; [apply steps_one; unfold step; rewrite Hat; reflexivity|].
    split; [done|]. split; [done|]. split; [done|]. split; [done|].
    split; [done|]. split; [done|]. by apply kept_same.
  - (* Bind *)
    destruct Hcalm as [Hc1 Hc2].
    set (m1 := Machine (Run p) (AfterBind k :: stack m) (current m) (exits m) (unwinds m) (trace m)).
    assert (S1 : steps m m1) by (apply steps_one; unfold step; rewrite Hat; reflexivity).
    destruct (meaning live (length (exits m)) p) as [[r1 t1] n1] eqn:E.
    specialize (IHp live busy unw m1 u fu r1 t1 n1 eq_refl Hcur Hu Hunw Hready E Hc1).
    destruct r1 as [ws|b1 ws|].
    + destruct IHp as (m2 & S2 & At2 & St2 & Cu2 & Tr2 & N2 & U2 & K2).
      set (m3 := Machine (Run (k ws)) (stack m) (current m2) (exits m2) (unwinds m2) (trace m2)).
      assert (S3 : step m2 = Val m3) by (unfold step; rewrite At2, St2; reflexivity).
      destruct (meaning live n1 (k ws)) as [[r2 t2] n2] eqn:E2. inversion Hm; subst r t n; clear Hm.
      subst n1.
      assert (Hready3 : ready live m3) by (eapply (ready_kept _ _ u m m3); [exact Hready|exact K2]).
      specialize (IHk ws live busy unw m3 u fu r2 t2 n2 eq_refl Cu2 U2 Hunw Hready3 E2 Hc2).
      assert (S13 : steps m m3) by (eapply steps_trans; [exact S1|]; eapply steps_trans; [exact S2|]; apply steps_one; exact S3).
      assert (Kept13 : kept (fun i => i ∈ busy) u m m3) by exact K2.
      assert (HL : length (exits m) <= length (exits m3) /\ length (unwinds m) <= length (unwinds m3)) by (destruct K2 as (? & ? & _); auto).
      destruct r2 as [xs|b2 xs|]; [| |done].
      * destruct IHk as (m4 & S4 & At4 & St4 & Cu4 & Tr4 & N4 & U4 & K4).
        exists m4. split; [eapply steps_trans; eauto|]. split; [done|]. split; [done|]. split; [done|].
        split. { rewrite Tr4. change (trace m3) with (trace m2). rewrite Tr2. cbn. rewrite <- app_assoc. done. }
        split; [done|]. split; [done|]. eapply kept_trans; [exact Kept13|exact K4].
      * destruct IHk as (m4 & K & S4 & At4 & St4 & Cu4 & Tr4 & N4 & Ow4 & V4 & K4).
        exists m4, K. split; [eapply steps_trans; eauto|]. split; [done|]. split; [done|]. split; [done|].
        split. { rewrite Tr4. change (trace m3) with (trace m2). rewrite Tr2. cbn. rewrite <- app_assoc. done. }
        split; [done|]. split; [eapply own_weak; [..|exact Ow4]; apply HL|]. split; [done|].
        eapply kept_trans; [|exact K4]. eapply kept_weak; [|exact Kept13]. cbn; tauto.
    + inversion Hm; subst r t n; clear Hm.
      destruct IHp as (m2 & K & S2 & At2 & St2 & Cu2 & Tr2 & N2 & Ow2 & V2 & K2).
      exists m2, (K ++ [AfterBind k]). split; [eapply steps_trans; eauto|]. split; [done|].
      split. { rewrite St2. cbn. rewrite <- app_assoc. done. } split; [done|]. split; [done|]. split; [done|].
      split. { apply Forall_app. split; [exact Ow2|]. repeat constructor. } split; [done|exact K2].
    + inversion Hm; subst. done.
  - (* Block *)
    destruct Hcalm as [Hc1 Hc2]. set (b := length (exits m)) in *.
    set (m1 := Machine (Run (f b)) (InBlock b :: stack m) (current m)
           (exits m ++ [BindExitFrame [] (current m)]) (unwinds m) (trace m)).
    assert (S1 : steps m m1) by (apply steps_one; unfold step; rewrite Hat; reflexivity).
    assert (HL1 : length (exits m1) = S b) by (cbn; rewrite app_length; cbn; lia).
    assert (Kept1 : forall P, kept P u m m1).
    { intros P. repeat split; auto; [cbn; rewrite app_length; cbn; lia| |].
      - intros i g Hg. exists g. repeat split; auto. cbn. apply lookup_app_l_Some. done.
      - intros [s x pr] H; eauto. }
    assert (Hready1 : ready (b :: live) m1).
    { intros i Hi. apply elem_of_cons in Hi as [->|Hi].
      - exists (BindExitFrame [] (current m)), u. cbn. rewrite lookup_app_r by lia.
        unfold b. rewrite Nat.sub_diag. repeat split; auto. by eapply lookup_lt_Some.
      - eapply (ready_kept live (fun _ => True) u); [exact Hready|apply Kept1|done]. }
    destruct (meaning (b :: live) (S b) (f b)) as [[r1 t1] n1] eqn:E.
    specialize (IHf b (b :: live) busy unw m1 u fu r1 t1 n1 eq_refl Hcur Hu Hunw Hready1).
    rewrite HL1 in IHf. specialize (IHf E Hc1).
    destruct r1 as [ws|b1 ws|].
    + inversion Hm; subst r t n; clear Hm.
      destruct IHf as (m2 & S2 & At2 & St2 & Cu2 & Tr2 & N2 & U2 & K2).
      set (m3 := Machine (Values ws) (stack m) (current m2) (exits m2) (unwinds m2) (trace m2)).
      assert (S3 : step m2 = Val m3) by (unfold step; rewrite At2, St2; reflexivity).
      exists m3. split. { eapply steps_trans; [exact S1|]. eapply steps_trans; [exact S2|]. apply steps_one, S3. }
      split; [done|]. split; [done|]. split; [done|]. split; [done|]. split; [done|]. split; [done|].
      eapply kept_trans; [apply Kept1|exact K2].
    + destruct IHf as (m2 & K & S2 & At2 & St2 & Cu2 & Tr2 & N2 & Ow2 & (g & Hg & Vg) & K2).
      destruct (Nat.eqb_spec b1 b) as [->|Hne].
      * (* the exit ends here *)
        inversion Hm; subst r t n; clear Hm. specialize (Hc2 eq_refl).
        assert (Hpg : present g = Some u).
        { destruct K2 as (_ & _ & K3 & _). destruct (K3 b (BindExitFrame [] (current m))) as (g' & Hg' & Pg' & _).
          - cbn. rewrite lookup_app_r by lia. unfold b. rewrite Nat.sub_diag. done.
          - rewrite Hg in Hg'. inversion Hg'; subst g'. rewrite Pg'. done. }
        destruct (K2) as (KL1 & KL2 & KE & KU & KF). destruct (KF fu Hu) as [x Hx].
        set (m3 := Machine (Values ws) (stack m) (Some u) (exits m2)
                     (<[u := UnwindFrame (saved_values fu) None (previous fu)]> (unwinds m2)) (trace m2)).
        assert (S3 : step m2 = Val m3).
        { unfold step. rewrite At2. unfold nlx_step, exit_of. rewrite Hg. cbn [obind].
          rewrite decide_True by congruence. unfold unwind_of. rewrite Cu2, Hx. cbn [obind].
          rewrite St2. cbn [stack m1].
          rewrite (to_block_own b (length (unwinds m))) by (rewrite <- HL1; exact Ow2). cbn [obind].
          erewrite lookup_set_ultimate by exact Hx. cbn. unfold m3. subst ws. done. }
        assert (Hfu : UnwindFrame (saved_values fu) None (previous fu) = fu).
        { destruct fu as [s x0 pr]. cbn in *. rewrite Hunw by done. done. }
        exists m3. split. { eapply steps_trans; [exact S1|]. eapply steps_trans; [exact S2|]. apply steps_one, S3. }
        split; [done|]. split; [done|]. split; [done|]. split; [done|]. split; [done|].
        assert (Hlt : u < length (unwinds m2)) by (by eapply lookup_lt_Some).
        split. { cbn. rewrite list_lookup_insert by done. congruence. }
        split; [|split; [|split; [|split]]].
        -- cbn. cbn in KL1. rewrite app_length in KL1. cbn in KL1. lia.
        -- cbn. rewrite insert_length. exact KL2.
        -- intros i fi Hfi. destruct (KE i fi) as (f' & Hf' & Pf' & Vf').
           { cbn. apply lookup_app_l_Some. done. }
           exists f'. repeat split; auto. intros Hb. apply Vf'. split; [done|].
           apply lookup_lt_Some in Hfi. lia.
        -- intros i fi Hfi Hi. cbn. rewrite list_lookup_insert_ne by done. apply KU; done.
        -- intros fi Hfi. rewrite Hu in Hfi. inversion Hfi; subst fi. exists None. cbn.
           rewrite list_lookup_insert by done. done.
      * inversion Hm; subst r t n; clear Hm. exists m2, (K ++ [InBlock b]).
        split; [eapply steps_trans; eauto|]. split; [done|].
        split. { rewrite St2. cbn. rewrite <- app_assoc. done. } split; [done|]. split; [done|]. split; [done|].
        split. { apply Forall_app. split; [|repeat constructor; cbn; lia].
          eapply own_weak; [..|exact Ow2]; [rewrite HL1; lia|cbn; lia]. }
        split; [exists g; done|]. eapply kept_trans; [apply Kept1|exact K2].
    + inversion Hm; subst. done.
  - (* Exit *)
    destruct (decide (b0 ∈ live)) as [Hin|]; inversion Hm; subst; [|done].
    destruct (Hready b0 Hin) as (g & up & Hg & Hp & Hl).
    eexists. exists []. split. { apply steps_one. unfold step. rewrite Hat. unfold exit_of. rewrite Hg. cbn. reflexivity. }
    cbn. rewrite app_nil_r. split; [done|]. split; [done|]. split; [done|]. split; [done|].
    split; [by rewrite insert_length|]. split; [constructor|].
    split. { eexists. split; [apply list_lookup_insert; by eapply lookup_lt_Some|]. done. }
    split; [cbn; by rewrite insert_length|]. split; [done|]. split; [|split].
    + intros i fi Hi. cbn. destruct (decide (i = b0)) as [->|Hne].
      * rewrite list_lookup_insert by (by eapply lookup_lt_Some). eexists. split; [done|]. cbn.
        split; [congruence|tauto].
      * rewrite list_lookup_insert_ne by done. eauto.
    + intros; done.
    + intros [s x pr] H; eauto.
  - (* Protect *)
    destruct Hcalm as [Hc1 Hc2]. set (v := length (unwinds m)) in *.
    set (m1 := Machine (Run body) (InProtected v c :: stack m) (Some v) (exits m)
           (unwinds m ++ [UnwindFrame [] None (current m)]) (trace m)).
    assert (S1 : steps m m1) by (apply steps_one; unfold step; rewrite Hat; reflexivity).
    assert (HL1 : length (unwinds m1) = S v) by (cbn; rewrite app_length; cbn; lia).
    assert (Hv : unwinds m1 !! v = Some (UnwindFrame [] None (Some u))).
    { cbn. rewrite lookup_app_r by lia. unfold v. rewrite Nat.sub_diag, Hcur. done. }
    assert (Huv : u < v) by (by eapply lookup_lt_Some).
    assert (Hready1 : ready live m1).
    { intros i Hi. destruct (Hready i Hi) as (g & up & ? & ? & ?). exists g, up. repeat split; auto. lia. }
    assert (Hold : forall i fi, unwinds m !! i = Some fi -> unwinds m1 !! i = Some fi /\ i <> v).
    { intros i fi Hi. split; [cbn; by apply lookup_app_l_Some|]. apply lookup_lt_Some in Hi. lia. }
    destruct (meaning live (length (exits m)) body) as [[r1 t1] n1] eqn:E.
    specialize (IHb live busy false m1 v _ r1 t1 n1 eq_refl eq_refl Hv (fun _ => eq_refl) Hready1 E Hc1).
    destruct r1 as [ws|b1 ws|].
    + (* the body returns *)
      destruct IHb as (m2 & S2 & At2 & St2 & Cu2 & Tr2 & N2 & U2 & K2). subst n1.
      destruct Hc2 as [Hc2 Hc3].
      set (m3 := Machine (Run c) (InCleanup v c :: stack m) (Some v) (exits m2)
                   (<[v := UnwindFrame ws None (Some u)]> (unwinds m2)) (trace m2)).
      assert (S3 : step m2 = Val m3).
      { unfold step. rewrite At2, St2. cbn [stack m1]. unfold fall_through_unwind, unwind_of.
        rewrite Cu2, U2. cbn [obind]. done. }
      assert (Hlt : v < length (unwinds m2)) by (by eapply lookup_lt_Some).
      assert (Hv3 : unwinds m3 !! v = Some (UnwindFrame ws None (Some u))) by (cbn; by rewrite list_lookup_insert).
      assert (Hready3 : ready live m3).
      { pose proof (ready_kept _ _ _ _ _ Hready1 K2) as H. intros i Hi. destruct (H i Hi) as (g & up & ? & ? & ?).
        exists g, up. cbn. rewrite insert_length. done. }
      destruct (meaning live (length (exits m2)) c) as [[r2 t2] n2] eqn:E2.
      specialize (IHc live busy false m3 v _ r2 t2 n2 eq_refl eq_refl Hv3 (fun _ => eq_refl) Hready3 E2 Hc2).
      destruct r2 as [xs|b2 xs|]; [|done|inversion Hm; subst; done].
      inversion Hm; subst r t n; clear Hm.
      destruct IHc as (m4 & S4 & At4 & St4 & Cu4 & Tr4 & N4 & U4 & K4).
      set (m5 := Machine (Values ws) (stack m) (Some u) (exits m4) (unwinds m4) (trace m4)).
      assert (S5 : step m4 = Val m5).
      { unfold step. rewrite At4, St4. cbn [stack m3]. unfold continue_unwind, unwind_of. rewrite Cu4, U4. cbn. done. }
      assert (HU : forall i fi, unwinds m !! i = Some fi -> unwinds m4 !! i = Some fi).
      { intros i fi Hi. destruct (Hold i fi Hi) as [Hi1 Hne]. destruct K2 as (_ & _ & _ & K2 & _). destruct K4 as (_ & _ & _ & K4 & _).
        apply K4; [|done]. cbn. rewrite list_lookup_insert_ne by done. apply K2; done. }
      exists m5. split.
      { eapply steps_trans; [exact S1|]. eapply steps_trans; [exact S2|]. econstructor; [exact S3|].
        eapply steps_trans; [exact S4|]. apply steps_one, S5. }
      split; [done|]. split; [done|]. split; [done|].
      split. { cbn. rewrite Tr4. cbn. rewrite Tr2. cbn. rewrite <- app_assoc. done. }
      split; [done|]. split; [cbn; by apply HU|].
      destruct K2 as (KL1 & KL2 & KE & _). destruct K4 as (KL1' & KL2' & KE' & _).
      split; [cbn in *; lia|]. split; [cbn in *; rewrite insert_length in KL2'; rewrite app_length in KL2; cbn in KL2; lia|].
      split; [|split].
      * intros i fi Hi. destruct (KE i fi Hi) as (f1 & Hf1 & P1 & V1). destruct (KE' i f1 Hf1) as (f2 & Hf2 & P2 & V2).
        exists f2. repeat split; [done|congruence|]. intros HB. rewrite V2, V1; auto.
      * intros i fi Hi _. by apply HU.
      * intros fi Hi. exists (ultimate fi). destruct fi. cbn. by apply HU.
    + (* the body exits *)
      destruct IHb as (m2 & K & S2 & At2 & St2 & Cu2 & Tr2 & N2 & Ow2 & (g & Hg & Vg) & K2). subst n1.
      destruct Hc2 as [Hc2 Hc3].
      assert (Hin : b1 ∈ live) by (by eapply exiting_live).
      assert (Hpg : exists up, present g = Some up /\ up < v).
      { destruct (Hready b1 Hin) as (g0 & up & Hg0 & Hp0 & Hl0). exists up. split; [|done].
        destruct K2 as (_ & _ & K3 & _). destruct (K3 b1 g0 Hg0) as (g' & Hg' & Pg' & _). congruence. }
      destruct Hpg as (up & Hpg & Hup).
      assert (Hv2 : exists x, unwinds m2 !! v = Some (UnwindFrame [] x (Some u))).
      { destruct K2 as (_ & _ & _ & _ & K3). apply (K3 _ Hv). }
      destruct Hv2 as [x Hv2].
      assert (Hu2 : unwinds m2 !! u = Some fu).
      { destruct K2 as (_ & _ & _ & K3 & _). apply K3; [by apply Hold|lia]. }
      assert (Hlt : u < length (unwinds m2)) by (by eapply lookup_lt_Some).
      set (fu3 := UnwindFrame (saved_values fu) (Some b1) (previous fu)).
      set (m3 := Machine (Run c) (InCleanup v c :: stack m) (Some u) (exits m2) (<[u := fu3]> (unwinds m2)) (trace m2)).
      assert (S3 : step m2 = Val m3).
      { unfold step. rewrite At2. unfold nlx_step, exit_of. rewrite Hg. cbn [obind].
        rewrite decide_False by (rewrite Cu2, Hpg; intros [=]; lia). rewrite Cu2.
        unfold unwind_of. rewrite Hv2. cbn [obind previous]. rewrite Hu2. cbn [obind].
        rewrite St2. cbn [stack m1].
        rewrite (to_protect_own (length (exits m))) by (rewrite <- HL1; exact Ow2). cbn [obind].
        erewrite lookup_set_ultimate by exact Hu2. done. }
      assert (Hu3 : unwinds m3 !! u = Some fu3) by (cbn; by rewrite list_lookup_insert).
      assert (Hready3 : ready live m3).
      { pose proof (ready_kept _ _ _ _ _ Hready1 K2) as H. intros i Hi. destruct (H i Hi) as (g' & up' & ? & ? & ?).
        exists g', up'. cbn. rewrite insert_length. done. }
      destruct (meaning live (length (exits m2)) c) as [[r2 t2] n2] eqn:E2.
      specialize (IHc live (b1 :: busy) true m3 u fu3 r2 t2 n2 eq_refl eq_refl Hu3 ltac:(done) Hready3 E2 Hc2).
      assert (S13 : steps m m3).
      { eapply steps_trans; [exact S1|]. eapply steps_trans; [exact S2|]. apply steps_one, S3. }
      assert (Kept3 : kept (fun i => i ∈ busy /\ i <> b1) u m m3).
      { destruct K2 as (KL1 & KL2 & KE & KU & KF). split; [exact KL1|]. split.
        { cbn. rewrite insert_length. lia. } split; [exact KE|]. split.
        - intros i fi Hi Hne. cbn. rewrite list_lookup_insert_ne by done. destruct (Hold i fi Hi). by apply KU.
        - intros fi Hi. exists (Some b1). rewrite Hu3. unfold fu3. congruence. }
      assert (HL3 : length (exits m) <= length (exits m3) /\ v <= length (unwinds m3)) by (destruct Kept3 as (? & ? & _); auto).
      destruct r2 as [xs|b2 xs|]; [| |inversion Hm; subst; done].
      * inversion Hm; subst r t n; clear Hm.
        destruct IHc as (m4 & S4 & At4 & St4 & Cu4 & Tr4 & N4 & U4 & K4).
        set (m5 := Machine (Step b1) (stack m) (Some u) (exits m4) (unwinds m4) (trace m4)).
        assert (S5 : step m4 = Val m5).
        { unfold step. rewrite At4, St4. cbn [stack m3]. unfold continue_unwind, unwind_of. rewrite Cu4, U4. cbn. done. }
        exists m5, []. split. { eapply steps_trans; [exact S13|]. eapply steps_trans; [exact S4|]. apply steps_one, S5. }
        split; [done|]. split; [done|]. split; [done|].
        split. { cbn. rewrite Tr4. cbn. rewrite Tr2. cbn. rewrite <- app_assoc. done. }
        split; [done|]. split; [constructor|]. split.
        { destruct K4 as (_ & _ & KE & _). destruct (KE b1 g Hg) as (g' & Hg' & _ & Vg'). exists g'. split; [done|].
          rewrite Vg' by (left). done. }
        eapply kept_trans; [exact Kept3|]. apply (kept_weak (fun i => i ∈ b1 :: busy)); [|exact K4].
        intros i [Hi _]. by right.
      * inversion Hm; subst r t n; clear Hm.
        destruct IHc as (m4 & K' & S4 & At4 & St4 & Cu4 & Tr4 & N4 & Ow4 & V4 & K4).
        exists m4, (K' ++ [InCleanup v c]). split; [eapply steps_trans; eauto|]. split; [done|].
        split. { rewrite St4. cbn. rewrite <- app_assoc. done. } split; [done|].
        split. { rewrite Tr4. cbn. rewrite Tr2. cbn. rewrite <- app_assoc. done. } split; [done|].
        split. { apply Forall_app. split; [|repeat constructor; cbn; lia]. eapply own_weak; [..|exact Ow4]; apply HL3. }
        split; [done|]. eapply kept_trans.
        { eapply kept_weak; [|exact Kept3]. cbn. intros i [Hi Hne]. split; [done|]. intros ->. apply Hc3; [|done]. congruence. }
        eapply kept_weak; [|exact K4]. intros i [Hi Hne]. split; [by right|done].
    + inversion Hm; subst. done.
Qed.

Lemma program_runs p vs t n : meaning [] 0 p = (Normal vs, t, n) -> calm [] 0 false [] p ->
  exists m, steps (start p) m /\ at_ m = Values vs /\ stack m = [] /\ current m = Some 0 /\ trace m = t.
Proof.
  intros Hm Hc. destruct (simulates p [] [] false (start p) 0 (UnwindFrame [] None None) _ _ _ eq_refl eq_refl eq_refl (fun _ => eq_refl)
    ltac:(intros b Hb; by apply elem_of_nil in Hb) Hm Hc) as (m' & S & A & St & C & T & _). exists m'. auto.
Qed.
