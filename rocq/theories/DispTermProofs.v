(** The terminal of a dispatch. *)
From Verif Require Import Base ClassModel ClassSpec ClassProofs TypeModel TypeSpec TypeProofs
  DispModel DispSpec DispProofs DispSortProofs.
From Coq Require Import ZifyBool ZifyNat.
Local Open Scope outcome_scope.
Local Open Scope nat_scope.

Lemma chain_plain_reachable ordered sub ambig :
  ch_methods (chain_plain ordered sub ambig) = reachable sub /\
  (ch_ambiguous (chain_plain ordered sub ambig) = None \/
   ch_ambiguous (chain_plain ordered sub ambig) = Some (ordered, ambig)) /\
  (sub = [] -> ambig <> [] -> ch_ambiguous (chain_plain ordered sub ambig) = Some (ordered, ambig)).
Proof.
  induction sub as [|m sub (IH1 & IH2 & IH3)]; cbn.
  - destruct ambig; cbn; repeat split; auto; done.
  - destruct (m_next m); cbn.
    + split; [by rewrite IH1|]. split; [done|]. done.
    + split; [done|]. split; [by left|]. done.
Qed.

Section world.
Context (W : world) (HW : wf_world W).

Lemma chain_kludge_ok args ordered amb l' amb' : forall sub,
  (amb <> [] -> sort_desperately W amb args = Val (l', amb')) ->
  exists next ws, chain_kludge W args ordered sub amb = Val (next, ws) /\
    ((amb = [] \/ Exists (fun m' => m_next m' = false) sub) ->
       ch_methods next = reachable sub /\ ch_ambiguous next = None /\ ws = []) /\
    (amb <> [] -> Forall (fun m' => m_next m' = true) sub ->
       ch_methods next = sub ++ reachable l' /\
       (ch_ambiguous next = None \/ ch_ambiguous next = Some (ordered, amb')) /\
       (l' = [] -> amb' <> [] -> ch_ambiguous next = Some (ordered, amb')) /\
       ws = if l' then [] else [Warning ordered amb]).
Proof.
  intros sub Hs. induction sub as [|m sub IH].
  - cbn. destruct amb as [|a amb].
    + eexists _, _. split; [reflexivity|]. split; [done|]. done.
    + rewrite Hs by done. cbn [obind].
      destruct (chain_plain_reachable ordered l' amb') as (C1 & C2 & C3).
      eexists _, _. split; [reflexivity|]. split.
      { intros [?|H]; [done|]. by apply Exists_nil in H. }
      intros _ _. split; [done|]. split; [done|]. split; [done|]. by destruct l'.
  - cbn [chain_kludge]. destruct (m_next m) eqn:Hm.
    + destruct IH as (next & ws & -> & I1 & I2). cbn [obind]. eexists _, _. split; [reflexivity|].
      cbn. rewrite Hm. split.
      * intros H. destruct I1 as (-> & -> & ->); [|done]. destruct H as [?|H]; [auto|].
        apply Exists_cons in H as [H|H]; [congruence|auto].
      * intros Ha HF. apply Forall_cons in HF as [_ HF]. destruct (I2 Ha HF) as (-> & J2 & J3 & J4). done.
    + cbn [obind]. eexists _, _. split; [reflexivity|]. cbn. rewrite Hm. split; [done|].
      intros _ HF. apply Forall_cons in HF as [HF _]. congruence.
Qed.

Lemma sorted_order_nil args l amb : sorted_order W args [] l amb -> l = [] /\ amb = [].
Proof.
  intros [S1 _ _ _]. split.
  - destruct l as [|m l]; [done|]. exfalso. assert (m ∈ @nil meth) as H; [|by apply elem_of_nil in H].
    apply S1. cbn. apply elem_of_cons. auto.
  - destruct amb as [|m l']; [done|]. exfalso. assert (m ∈ @nil meth) as H; [|by apply elem_of_nil in H].
    apply S1. rewrite elem_of_app, elem_of_cons. auto.
Qed.

Theorem compute_terminal_ok g args ms :
  (forall a b, a ∈ ms -> b ∈ ms -> ready_methods W args a b) -> NoDup ms ->
  exists t ws, compute_terminal W g ms args = Val (t, ws) /\ runs W args ms (call_keywords g ms) t ws /\
    (t = None <-> ms = []).
Proof.
  intros Hr Hnd. unfold compute_terminal.
  destruct (sort_applicable_ok W HW args ms Hr Hnd) as (l & amb & -> & HS & Hnd'). cbn [obind].
  assert (Hne : l = [] -> amb = [] -> ms = []).
  { intros -> ->. destruct ms as [|m ms]; [done|]. exfalso. destruct HS as [_ S2 _ _].
    destruct (S2 m) as [H|(x & H & _)]; [apply elem_of_cons; auto|..]; by apply elem_of_nil in H. }
  assert (Hdesp : exists l' amb', (amb <> [] -> sort_desperately W amb args = Val (l', amb')) /\
    (amb <> [] -> emergency_order W args amb l' amb')).
  { destruct (sort_desperately_ok W HW args amb) as (l' & amb' & Hs & _ & E1 & E2 & E3).
    - intros a b Ha Hb. apply Hr; apply HS; rewrite elem_of_app; auto.
    - by apply NoDup_app in Hnd' as (_ & _ & ?).
    - exists l', amb'. split; [done|]. intros Ha. by constructor; [| apply E2|]. }
  destruct Hdesp as (l' & amb' & Hdesp & Hemer).
  destruct l as [|m rest].
  - destruct amb as [|a amb].
    + cbn. exists None, []. split; [done|]. split; [|by rewrite Hne]. constructor. by apply Hne.
    + assert (Ha : a :: amb <> []) by done. set (AMB := a :: amb) in *.
      assert (Hms : ms <> []). { intros ->. by destruct (sorted_order_nil _ _ _ HS). }
      assert (terminal_kludge W args [] AMB (call_keywords g ms) =
        (do ' (nordered, nambig) <- sort_desperately W AMB args ;
          Val (terminal_plain nordered nambig (call_keywords g ms),
               match nordered with [] => [] | _ => [Warning [] AMB] end))) as -> by done.
      rewrite (Hdesp Ha). cbn [obind].
      destruct l' as [|m rest].
      * assert (Ha' : amb' <> []). { intros ->. by destruct (eo_not_all _ _ _ _ _ (Hemer Ha)). }
        exists (Some (TAmbiguous [] amb')), []. split; [by destruct amb'|]. split; [|by split].
        eapply runs_error; [done..|]. by apply Hemer.
      * eexists _, _. split; [reflexivity|]. split; [|by split].
        eapply runs_group; [done..|by apply Hemer|].
        cbn. destruct (m_next m); [|done]. f_equal. apply chain_plain_reachable.
  - assert (Hms : ms <> []). { intros ->. by destruct (sorted_order_nil _ _ _ HS). }
    cbn [terminal_kludge]. destruct (m_next m) eqn:Hm.
    + destruct (chain_kludge_ok args (m :: rest) amb l' amb' rest Hdesp) as (next & ws & -> & K1 & K2).
      cbn [obind]. eexists _, _. split; [reflexivity|]. split; [|by split].
      destruct (decide (amb = [])) as [->|Ha].
      { destruct K1 as (K1 & K1' & ->); [by left|]. eapply runs_ordered; [done|by left| |done].
        cbn. rewrite Hm. by rewrite K1. }
      destruct (decide (Exists (fun m' => m_next m' = false) rest)) as [He|He].
      { destruct K1 as (K1 & K1' & ->); [by right|]. eapply runs_ordered; [done| | |done].
        - right. by apply Exists_cons; right.
        - cbn. rewrite Hm. by rewrite K1. }
      assert (HF : Forall (fun m' => m_next m' = true) rest).
      { apply Forall_forall. intros x Hx. destruct (m_next x) eqn:Ex; [done|]. exfalso. apply He.
        apply Exists_exists. by exists x. }
      destruct (K2 Ha HF) as (J1 & J2 & J3 & ->).
      eapply runs_then_group; [done|done| |by apply Hemer| |done|].
      * by apply Forall_cons.
      * cbn. by rewrite J1.
      * intros ->. apply J3; [done|]. intros ->. by destruct (eo_not_all _ _ _ _ _ (Hemer Ha)).
    + cbn [obind]. eexists _, _. split; [reflexivity|]. split; [|by split].
      eapply runs_ordered; [done| | |done].
      * right. apply Exists_cons. by left.
      * cbn. by rewrite Hm.
Qed.

(** ** Equal comparisons give equal terminals *)

Section ext.
Context (cmp cmp' : meth -> meth -> outcome order) (U : meth -> Prop).
Context (Hext : forall a b, U a -> U b -> cmp a b = cmp' a b).

Lemma precedes_all_ext m l : U m -> (forall x, x ∈ l -> U x) -> precedes_all cmp m l = precedes_all cmp' m l.
Proof.
  intros Hm. induction l as [|y l IH]; intros Hl; [done|]. cbn.
  rewrite Hext; [|done|apply Hl, elem_of_cons; auto]. destruct (cmp' m y); cbn; try done.
  case_bool_decide; [|done]. apply IH. intros x Hx. apply Hl, elem_of_cons. auto.
Qed.
Lemma insert_method_ext m osub ambig : U m -> (forall x, x ∈ osub ++ ambig -> U x) ->
  insert_method cmp m osub ambig = insert_method cmp' m osub ambig.
Proof.
  intros Hm. induction osub as [|y osub IH]; intros Hl.
  - cbn. unfold check_subsequent. cbn. by rewrite (precedes_all_ext m ambig).
  - cbn [insert_method]. rewrite Hext; [|done|apply Hl; cbn; apply elem_of_cons; auto].
    destruct (cmp' m y) as [[]| | |]; cbn [obind]; try done.
    + unfold check_subsequent. rewrite !(precedes_all_ext m); [done|done| |done|].
      * intros x Hx. apply Hl. rewrite elem_of_app. auto.
      * intros x Hx. apply Hl. rewrite elem_of_app. auto.
    + rewrite IH; [done|]. intros x Hx. apply Hl. cbn. apply elem_of_cons. auto.
Qed.
Lemma check_subsequent_in m rest ambig o a : check_subsequent cmp m rest ambig = Val (o, a) ->
  forall x, x ∈ o ++ a -> x = m \/ x ∈ rest ++ ambig.
Proof.
  unfold check_subsequent. intros H x Hx.
  assert (Hmk : forall b : bool, Val (if b then (m :: rest, ambig) else make_ambiguous m rest ambig) = Val (o, a) ->
    x = m \/ x ∈ rest ++ ambig).
  { intros [] [= <- <-]; cbn in Hx; apply elem_of_cons in Hx as [?|Hx]; auto.
    right. rewrite elem_of_app in *. destruct Hx as [Hx|Hx]; [|auto]. left.
    by apply elem_of_list_In, in_rev, elem_of_list_In in Hx. }
  destruct (precedes_all cmp m rest) as [[]| | |]; cbn [obind] in H; try done.
  - destruct (precedes_all cmp m ambig) as [b| | |]; cbn [obind] in H; try done. by apply (Hmk b).
  - by apply (Hmk false).
Qed.
Lemma insert_method_in m osub : forall ambig o a, insert_method cmp m osub ambig = Val (o, a) ->
  forall x, x ∈ o ++ a -> x = m \/ x ∈ osub ++ ambig.
Proof.
  induction osub as [|y osub IH]; intros ambig o a H x Hx.
  - by eapply check_subsequent_in.
  - cbn [insert_method] in H. destruct (cmp m y) as [[]| | |]; cbn [obind] in H; try done.
    + by eapply check_subsequent_in.
    + destruct (insert_method cmp m osub ambig) as [[o' a']| | |] eqn:E; cbn [obind] in H; try done.
      injection H as <- <-. cbn in Hx. cbn. rewrite elem_of_cons in *. destruct Hx as [?|Hx]; [auto|].
      destruct (IH _ _ _ E x Hx); auto.
    + injection H as <- <-. auto.
    + injection H as <- <-. cbn in Hx. apply elem_of_cons in Hx as [?|Hx]; [auto|]. right.
      change (y :: osub ++ ambig) with ((y :: osub) ++ ambig) . rewrite elem_of_app in *.
      destruct Hx as [Hx|Hx]; [|auto]. left.
      by apply elem_of_list_In, (in_rev (y :: osub)), elem_of_list_In in Hx.
Qed.
Lemma sort_methods_ext ms : forall o a, (forall x, x ∈ ms -> U x) -> (forall x, x ∈ o ++ a -> U x) ->
  sort_methods cmp ms o a = sort_methods cmp' ms o a.
Proof.
  induction ms as [|m ms IH]; intros o a Hms Hoa; [done|]. cbn.
  assert (Um : U m) by (apply Hms, elem_of_cons; auto).
  rewrite <- insert_method_ext by done. destruct (insert_method cmp m o a) as [[o' a']| | |] eqn:E; cbn; try done.
  apply IH.
  - intros x Hx. apply Hms, elem_of_cons. auto.
  - intros x Hx. destruct (insert_method_in _ _ _ _ _ E x Hx) as [->|?]; auto.
Qed.
Lemma sort_methods_in ms : forall o a o' a', sort_methods cmp ms o a = Val (o', a') ->
  forall x, x ∈ o' ++ a' -> x ∈ ms ++ o ++ a.
Proof.
  induction ms as [|m ms IH]; intros o a o' a' H x Hx; cbn in H.
  - injection H as <- <-. done.
  - destruct (insert_method cmp m o a) as [[o1 a1]| | |] eqn:E; cbn in H; try done.
    specialize (IH _ _ _ _ H x Hx). cbn. rewrite elem_of_cons, elem_of_app in *.
    destruct IH as [?|Hin]; [auto|]. destruct (insert_method_in _ _ _ _ _ E x Hin); auto.
Qed.
End ext.

Lemma compute_terminal_ext g args args' ms :
  (forall a b, a ∈ ms -> b ∈ ms -> order_methods W a b args = order_methods W a b args' /\
     order_methods_desperately W a b args = order_methods_desperately W a b args') ->
  compute_terminal W g ms args = compute_terminal W g ms args'.
Proof.
  intros H. unfold compute_terminal, sort_applicable.
  rewrite <- (sort_methods_ext (fun m1 m2 => order_methods W m1 m2 args) (fun m1 m2 => order_methods W m1 m2 args')
    (fun m => m ∈ ms)); [|by intros; apply H|done|intros x Hx; by apply elem_of_nil in Hx].
  destruct (sort_methods _ ms [] []) as [[l amb]| | |] eqn:E; cbn [obind]; try done.
  assert (Hin : forall x, x ∈ l ++ amb -> x ∈ ms).
  { intros x Hx. pose proof (sort_methods_in _ _ _ _ _ _ E x Hx) as Hi. rewrite app_nil_r in Hi. done. }
  assert (Hd : sort_desperately W amb args = sort_desperately W amb args').
  { unfold sort_desperately. apply (sort_methods_ext _ _ (fun m => m ∈ ms)).
    - intros. by apply H.
    - intros x Hx. apply Hin. rewrite elem_of_app. auto.
    - intros x Hx. by apply elem_of_nil in Hx. }
  assert (Hck : forall ordered sub, chain_kludge W args ordered sub amb = chain_kludge W args' ordered sub amb).
  { intros ordered. induction sub as [|m sub IH]; cbn.
    - by rewrite Hd.
    - destruct (m_next m); [by rewrite IH|done]. }
  destruct l as [|m rest]; cbn.
  - by rewrite Hd.
  - destruct (m_next m); [by rewrite Hck|done].
Qed.

(** ** Applicable methods *)

Lemma Forall2_lookup_iff (R : obj -> ty -> Prop) args specs : length args = length specs ->
  (Forall2 R args specs <-> forall i x t, args !! i = Some x -> specs !! i = Some t -> R x t).
Proof.
  intros Hl. split.
  - intros H i x t Hx Ht. by eapply Forall2_lookup_lr.
  - intros H. apply Forall2_same_length_lookup. done.
Qed.

Lemma Forall3_of_lookup {A B C} (R : A -> B -> C -> Prop) : forall l k k',
  length l = length k -> length l = length k' ->
  (forall i x y z, l !! i = Some x -> k !! i = Some y -> k' !! i = Some z -> R x y z) -> Forall3 R l k k'.
Proof.
  induction l as [|x l IH]; intros [|y k] [|z k'] H1 H2 H; try done; constructor.
  - by apply (H 0).
  - apply IH; [cbn in *; lia..|]. intros i. apply (H (S i)).
Qed.

Lemma ready_of nreq ms args m1 m2 : wf_methods W nreq ms -> length args = nreq -> Forall (wf_obj W) args ->
  m1 ∈ ms -> m2 ∈ ms -> applicable W m1 args -> applicable W m2 args -> ready_methods W args m1 m2.
Proof.
  intros [Hm Hun] Hl Hargs H1 H2 A1 A2.
  rewrite Forall_forall in Hm. destruct (Hm m1 H1) as [L1 S1], (Hm m2 H2) as [L2 S2].
  apply Forall3_of_lookup; [by rewrite L1|by rewrite L2|]. intros i x t1 t2 Hx Ht1 Ht2.
  split; [by eapply Forall_lookup_1|]. split; [|split; [by apply (Forall2_lookup_lr _ _ _ i x t1 A1)|by apply (Forall2_lookup_lr _ _ _ i x t2 A2)]].
  split; [by apply (Forall_lookup_1 _ _ i t1 S1)|]. split; [by apply (Forall_lookup_1 _ _ i t2 S2)|].
  destruct (Hun i) as [H|H]; [left|right]; split; apply H; first [exists m1; done|exists m2; done].
Qed.

Lemma applicable_loop_ok args : forall specs, length args = length specs -> Forall (wf_obj W) args ->
  Forall (wf_specializer W) specs -> tells (applicable_loop W specs args) (Forall2 (Inst W) args specs).
Proof.
  induction args as [|x args IH]; intros [|t specs] Hl Ha Hs; try done.
  - exists true. done.
  - apply Forall_cons in Ha as [Hx Ha], Hs as [Ht Hs]. cbn.
    destruct (instance_ok W HW x t Hx (proj1 Ht)) as (b & -> & Hb). cbn [obind].
    destruct b.
    + destruct (IH specs) as (b' & -> & Hb'); [cbn in Hl; lia|done|done|]. exists b'. split; [done|].
      rewrite Forall2_cons, <- Hb'. tauto.
    + exists false. split; [done|]. rewrite Forall2_cons, <- Hb. split; [done|]. by intros [? _].
Qed.

Lemma applicable_methods_ok nreq args : forall ms ans, Forall (wf_method W nreq) ms -> length args = nreq ->
  Forall (wf_obj W) args -> NoDup (ms ++ ans) ->
  exists app, applicable_methods W ms args ans = Val app /\ NoDup app /\
    forall m, m ∈ app <-> m ∈ ans \/ (m ∈ ms /\ applicable W m args).
Proof.
  induction ms as [|m ms IH]; intros ans Hms Hl Ha Hnd.
  - exists ans. split; [done|]. split; [done|]. intros m. split; [auto|]. intros [?|[H _]]; [done|]. by apply elem_of_nil in H.
  - apply Forall_cons in Hms as [[Lm Sm] Hms]. cbn [applicable_methods].
    destruct (applicable_loop_ok args (m_specs m)) as (b & Hb & Hiff); [congruence|done|done|].
    unfold method_applicable. rewrite Hb. cbn [obind].
    assert (Hnd' : NoDup (ms ++ (if b then m :: ans else ans))).
    { destruct b; [|cbn in Hnd; by apply NoDup_cons in Hnd as [_ ?]]. rewrite <- Permutation_middle. done. }
    destruct (IH _ Hms Hl Ha Hnd') as (app & -> & Hn & Happ).
    exists app. split; [done|]. split; [done|]. intros m'. rewrite Happ, elem_of_cons.
    unfold applicable in *. destruct b.
    + rewrite elem_of_cons. assert (Forall2 (Inst W) args (m_specs m)) by (by apply Hiff).
      split; [intros [[->|?]|[? ?]]; auto|]. intros [?|[[->|?] ?]]; auto.
    + split; [intros [?|[? ?]]; auto|]. intros [?|[[->|?] ?]]; auto. exfalso.
      assert (false = true) by (by apply Hiff). done.
Qed.
End world.
