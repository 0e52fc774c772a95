(** C43: calling a generic function. *)
From Verif Require Import Base ClassModel ClassSpec ClassProofs TypeModel TypeSpec TypeProofs TypeProps
  DispModel DispSpec DispProofs DispSortProofs DispTermProofs DispCheck
  DispEngineProofs DispRunProofs DispCallProofs DispHistoryProofs.
From Coq Require Import ZifyBool ZifyNat.
Local Open Scope nat_scope.

(** sorted-applicable-methods: for any arguments, each of the methods in the first list is
    applicable and more specific than all those after it and than the second list, the
    second list has no most specific method, and only duplicates are left out. *)
Theorem C43_sorted_methods W nreq ms args :
  wf_world W -> wf_methods W nreq ms -> NoDup ms -> length args = nreq -> Forall (wf_obj W) args ->
  exists app l amb, sorted_applicable_methods W ms args = Val (l, amb) /\
    applicable_of W ms args app /\ sorted_order W args app l amb /\ NoDup (l ++ amb).
Proof.
  intros HW Hms Hnd Hl Ha. unfold sorted_applicable_methods.
  destruct (applicable_methods_ok W HW nreq args ms [] (proj1 Hms) Hl Ha) as (app & -> & Hn & Happ);
    [by rewrite app_nil_r|]. cbn [obind].
  assert (Hof : applicable_of W ms args app).
  { intros m. rewrite Happ. split; [intros [H|H]; [by apply elem_of_nil in H|done]|auto]. }
  destruct (sort_applicable_ok W HW args app) as (l & amb & -> & HS & HN); [|done|].
  { intros a b H1%Hof H2%Hof. eapply (ready_of W nreq ms); tauto. }
  by exists app, l, amb.
Qed.
Print Assumptions C43_sorted_methods.

(** The first method of the answer is most specific among all applicable methods. *)
Theorem C43_first_most_specific W nreq ms args m l amb :
  wf_world W -> wf_methods W nreq ms -> NoDup ms -> length args = nreq -> Forall (wf_obj W) args ->
  sorted_applicable_methods W ms args = Val (m :: l, amb) ->
  m ∈ ms /\ applicable W m args /\
  forall m', m' ∈ ms -> applicable W m' args -> m' <> m ->
    precedes W args m m' \/ exists m'', m'' ∈ m :: l ++ amb /\ duplicates W args m' m'' /\ (m'' = m \/ precedes W args m m'').
Proof.
  intros HW Hms Hnd Hl Ha Hs.
  destruct (C43_sorted_methods W nreq ms args HW Hms Hnd Hl Ha) as (app & l' & amb' & Hs' & Hof & [S1 S2 S3 S4] & _).
  rewrite Hs in Hs'. injection Hs' as <- <-.
  assert (Hin : m ∈ app) by (apply S1; cbn; apply elem_of_cons; auto).
  apply Hof in Hin as [H1 H2]. split; [done|]. split; [done|]. intros m' H1' H2' Hne.
  destruct (S2 m') as [H|(m'' & H & Hd)]; [by apply Hof|..].
  - cbn in H. apply elem_of_cons in H as [?|H]; [done|]. left. by apply (S3 [] m l).
  - right. exists m''. split; [done|]. split; [done|]. cbn in H. apply elem_of_cons in H as [?|H]; [auto|].
    right. by apply (S3 [] m l).
Qed.
Print Assumptions C43_first_most_specific.

(** The answer does not depend on the order in which the methods were added, unless two
    applicable methods are duplicates for these arguments. *)
Theorem C43_sorted_order_independent W nreq ms ms' args l amb l' amb' :
  wf_world W -> wf_methods W nreq ms -> NoDup ms -> length args = nreq -> Forall (wf_obj W) args ->
  ms' ≡ₚ ms ->
  (forall a b, a ∈ ms -> b ∈ ms -> applicable W a args -> applicable W b args -> duplicates W args a b -> a = b) ->
  sorted_applicable_methods W ms args = Val (l, amb) -> sorted_applicable_methods W ms' args = Val (l', amb') ->
  l = l' /\ amb ≡ₚ amb'.
Proof.
  intros HW Hms Hnd Hl Ha Hp Hdup Hs Hs'.
  assert (Hms' : wf_methods W nreq ms').
  { destruct Hms as [H1 H2]. split; [by rewrite Hp|]. intros i. destruct (H2 i) as [H|H]; [left|right];
    intros t (m & Hm & Ht); apply H; exists m; by rewrite <- Hp. }
  assert (Hnd' : NoDup ms') by (by rewrite Hp).
  destruct (C43_sorted_methods W nreq ms args HW Hms Hnd Hl Ha) as (app & l1 & amb1 & E & Hof & HS & HN).
  rewrite Hs in E. injection E as <- <-.
  destruct (C43_sorted_methods W nreq ms' args HW Hms' Hnd' Hl Ha) as (app' & l1 & amb1 & E & Hof' & HS' & HN').
  rewrite Hs' in E. injection E as <- <-.
  assert (Happ : forall m, m ∈ app' <-> m ∈ app).
  { intros m. unfold applicable_of in *. rewrite Hof, Hof', Hp. done. }
  eapply (sorted_order_unique W HW args app); try done.
  - intros a b H1%Hof H2%Hof. eapply (ready_of W nreq ms); tauto.
  - intros a b H1%Hof H2%Hof. apply Hdup; tauto.
  - destruct HS' as [S1 S2 S3 S4]. constructor; try done.
    + intros m Hm. by apply Happ, S1.
    + intros m Hm. by apply S2, Happ.
Qed.
Print Assumptions C43_sorted_order_independent.

(** The method that a terminal node of the engine runs for its applicable methods [ms]. *)
Theorem C43_terminal W g args ms :
  wf_world W -> wf_methods W (g_nreq g) (g_methods g) -> wf_args W g args ->
  NoDup ms -> applicable_of W (g_methods g) args ms ->
  exists t ws, compute_terminal W g ms args = Val (t, ws) /\ runs W args ms (call_keywords g ms) t ws.
Proof.
  intros HW Hms [Hl Ha] Hnd Hof.
  destruct (compute_terminal_ok W HW g args ms) as (t & ws & H1 & H2 & _); [|done|by eauto].
  intros a b H1%Hof H2%Hof. eapply (ready_of W (g_nreq g) (g_methods g)); tauto.
Qed.
Print Assumptions C43_terminal.

(** ** Calls after any history *)

(** The results of the calls of a history that starts with an empty dispatch cache. *)
Definition results (W : world) (g : gfun) (evs : list event) : list (list obj * outcome call_result) :=
  (run_history W g EAbsent evs).1.1.

Definition last_result (W : world) (g : gfun) (evs : list event) : option (list obj * outcome call_result) :=
  last (results W g evs).
Definition definitions (evs : list event) : list event := List.map AddMethod (added evs).

Lemma runs_rev W args ms keys t ws : runs W args ms keys t ws -> rev ws = ws.
Proof. by intros [| | ? ? ? [|? ?] | |]. Qed.
Lemma added_app evs evs' : added (evs ++ evs') = added evs ++ added evs'.
Proof. unfold added. by rewrite omap_app. Qed.
Lemma added_definitions evs : added (definitions evs) = added evs.
Proof. unfold definitions. induction (added evs) as [|m l IH]; [done|]. cbn. f_equal. exact IH. Qed.
Lemma last_call W g evs args :
  let '(l, g', e') := run_history W g EAbsent evs in
  forall r e'', call call_fuel W g' e' args = Val (r, e'') -> last_result W g (evs ++ [Call args]) = Some (args, Val r).
Proof.
  destruct (run_history W g EAbsent evs) as [[l g'] e'] eqn:E. intros r e'' H. unfold last_result, results.
  rewrite run_history_app, E. cbn [run_history]. rewrite H. cbn. by rewrite last_snoc.
Qed.

Lemma dispatch W g evs args :
  wf_world W -> plain_history W g evs -> wf_args W g args ->
  let ms := final_methods W [] (added evs) in
  exists app t ws0 ws, in_force W (added evs) ms /\ NoDup app /\ applicable_of W ms args app /\
    compute_terminal W (gf_with g ms) app args = Val (t, ws0) /\
    app = rem W (gf_with g ms) (seq 0 (g_nreq g)) args /\
    runs W args app (call_keywords g app) t ws0 /\ (t = None <-> app = []) /\
    last_result W g (evs ++ [Call args]) = Some (args, Val (Called ws t)) /\ (ws = [] \/ ws = ws0) /\
    (forall evs' m, evs = evs' ++ [AddMethod m] -> ws = ws0).
Proof.
  intros HW [P1 P2 P3 P4] Ha ms.
  assert (Hg : g = gf_with g []) by (destruct g; cbn in *; by subst).
  destruct (history_ok W HW (g_nreq g) (added evs) P3 g evs [] [] EAbsent) as (l & e' & E & HF & He & Hlast); try done.
  { apply in_force_nil. }
  { apply engine_ok_start. }
  fold ms in E, HF, He. cbn [app] in HF.
  assert (HP : plain_gf W (gf_with g ms)).
  { eapply (plain_gf_sub W (g_nreq g) (added evs)); try done; apply HF. }
  assert (Ha' : wf_args W (gf_with g ms) args) by done.
  destruct (call_ok W HW (gf_with g ms) HP 6 args e' Ha' He) as (t & ws0 & ws & e2 & Hc & _ & Ht & Hws & Hfr & _).
  destruct (term_ok W HW (gf_with g ms) HP args Ha') as (t' & ws' & Ht' & Hr & Hn).
  rewrite Ht in Ht'. injection Ht' as <- <-.
  pose proof (runs_rev _ _ _ _ _ _ Hr) as Hrev. rewrite Hrev in Hws, Hfr.
  exists (rem W (gf_with g ms) (seq 0 (g_nreq g)) args), t, ws0, ws.
  split; [done|]. split; [apply rem_nodup, HP|]. split; [intros m; by apply (rem_all_applicable W HW (gf_with g ms) HP)|].
  split; [exact Ht|]. split; [done|]. split; [exact Hr|]. split; [exact Hn|]. split.
  { pose proof (last_call W g evs args) as HL. rewrite Hg, E, <- Hg in HL. by eapply HL. }
  split; [done|]. intros evs' m Hevs. by eapply Hfr, Hlast.
Qed.

(** The whole way through the cache: after any history of definitions of methods and
    calls, a call runs what the methods now in force say, although the cache was built
    by earlier calls with other arguments.  The warnings come only with the call that
    fills the cache.  Missing: the specializers that [plain_history] excludes (refuted
    below), removal of methods, sealed domains, profiling dispatch. *)
Theorem C43_dispatch_partial W g evs args :
  wf_world W -> plain_history W g evs -> wf_args W g args ->
  exists ms app t ws0 ws,
    in_force W (added evs) ms /\ NoDup app /\ applicable_of W ms args app /\
    runs W args app (call_keywords g app) t ws0 /\
    last_result W g (evs ++ [Call args]) = Some (args, Val (Called ws t)) /\
    (ws = [] \/ ws = ws0) /\ (forall evs' m, evs = evs' ++ [AddMethod m] -> ws = ws0).
Proof.
  intros HW HP Ha. destruct (dispatch W g evs args HW HP Ha) as (app & t & ws0 & ws & H1 & H2 & H3 & _ & _ & H4 & _ & H5 & H6 & H7).
  by eexists _, app, t, ws0, ws.
Qed.
Print Assumptions C43_dispatch_partial.

(** No call signals no-applicable-method unless none of the methods ever defined is
    applicable, and a method that is called is applicable. *)
Theorem C43_applicable_partial W g evs args :
  wf_world W -> plain_history W g evs -> wf_args W g args ->
  exists ws t, last_result W g (evs ++ [Call args]) = Some (args, Val (Called ws t)) /\
    (t = None <-> forall m, m ∈ added evs -> ~ applicable W m args) /\
    (forall m next keys, t = Some (TMethod m next keys) -> m ∈ added evs /\ applicable W m args).
Proof.
  intros HW HP Ha.
  destruct (dispatch W g evs args HW HP Ha) as (app & t & ws0 & ws & H1 & H2 & H3 & _ & _ & H4 & Hn & H5 & _).
  exists ws, t. split; [done|]. split.
  - rewrite Hn. split.
    + intros -> m Hm Hm'. destruct (if_all _ _ _ H1 m Hm) as [Hin|(m' & Hin & _ & He)].
      * assert (m ∈ []) as H%elem_of_nil; [|done]. by apply H3.
      * assert (m' ∈ []) as H%elem_of_nil; [|done]. apply H3. split; [done|]. apply He; [apply Ha|done].
    + intros H. destruct app as [|m app]; [done|]. exfalso.
      assert (m ∈ m :: app) as [Hm Hm']%H3 by (apply elem_of_cons; auto). apply (H m); [by apply (if_from _ _ _ H1)|done].
  - intros m next keys ->. assert (Hm : m ∈ app).
    { inversion H4 as [|? ? ? ? HS|? ? ? ? ? ? HS|? ? ? ? ? HS ? HE|]; subst.
      - apply (so_from _ _ _ _ _ HS). apply elem_of_cons. auto.
      - apply (so_from _ _ _ _ _ HS). apply elem_of_cons. auto.
      - apply (so_from _ _ _ _ _ HS). cbn. apply (eo_from _ _ _ _ _ HE). apply elem_of_cons. auto. }
    apply H3 in Hm as [Hm Hm']. split; [by apply (if_from _ _ _ H1)|done].
Qed.
Print Assumptions C43_applicable_partial.

(** The cache cannot be seen in which method runs: the same one as if no call had been
    made before. *)
Theorem C43_cache_transparent_partial W g evs args :
  wf_world W -> plain_history W g evs -> wf_args W g args ->
  exists ws ws' t,
    last_result W g (evs ++ [Call args]) = Some (args, Val (Called ws t)) /\
    last_result W g (definitions evs ++ [Call args]) = Some (args, Val (Called ws' t)).
Proof.
  intros HW HP Ha.
  assert (HP' : plain_history W g (definitions evs)).
  { destruct HP as [P1 P2 P3 P4]. constructor; try done; [by rewrite added_definitions|].
    intros a H. unfold definitions in H. apply elem_of_list_fmap in H as (m & ? & _). done. }
  destruct (dispatch W g evs args HW HP Ha) as (app & t & ws0 & ws & _ & _ & _ & T1 & A1 & _ & _ & L1 & _).
  destruct (dispatch W g (definitions evs) args HW HP' Ha) as (app' & t' & ws0' & ws' & _ & _ & _ & T2 & A2 & _ & _ & L2 & _).
  rewrite added_definitions in T2, A2. exists ws, ws', t. split; [done|]. rewrite L2. congruence.
Qed.
Print Assumptions C43_cache_transparent_partial.

(** ** Where dispatch goes wrong *)

Definition one_arg (ms : list meth) : gfun := Gf 1 ms NoKeys [].
Definition plain_method (i : nat) (specs : list ty) : meth := Meth i specs false None.
Lemma instance_inst W x t b : wf_world W -> wf_obj W x -> wf_ty W t -> instance W x t = Val b -> (b = true <-> Inst W x t).
Proof. intros HW Hx Ht H. destruct (instance_ok W HW x t Hx Ht) as (b' & H' & Hb). rewrite H in H'. by injection H' as <-. Qed.
Lemma not_applicable_one W m x t : m_specs m = [t] -> wf_world W -> wf_obj W x -> wf_ty W t ->
  instance W x t = Val false -> ~ applicable W m [x].
Proof.
  intros Hm HW Hx Ht Hi H. unfold applicable in H. rewrite Hm in H. apply Forall2_cons in H as [H _].
  apply (instance_inst W x t false) in Hi; try done. by apply Hi in H.
Qed.
Lemma methods_wf W n ms : forallb (wf_methodb W n) ms = true -> Forall (wf_method W n) ms.
Proof.
  rewrite forallb_forall. intros H. apply Forall_forall. intros m Hm. apply wf_methodb_ok, H. by apply elem_of_list_In.
Qed.
Local Ltac wf_demo :=
  lazymatch goal with
  | |- wf_args _ _ _ => apply wf_argsb_ok
  | |- wf_methods _ _ _ => apply wf_methodsb_ok
  | |- Forall _ _ => apply methods_wf
  | |- wf_obj _ _ => apply wf_objb_ok
  | |- wf_ty _ _ => apply wf_tyb_ok
  end; vm_compute; reflexivity.

(** A call may run a method that is not applicable: limited(<integer>, min: 0, max: 10)
    inside limited(<integer>, min: 0), the function called with 5 and then with 100.  The
    else-branch of the second test is taken to be the one for the first. *)
Definition nested_methods : list meth :=
  [plain_method 2 [TLimInt (Some 0%Z) (Some 10%Z)]; plain_method 1 [TLimInt (Some 0%Z) None]].
Theorem C43_nested_limited_integers_refuted :
  exists W g evs args m next keys ws,
    wf_world W /\ wf_args W g args /\ Forall (wf_method W (g_nreq g)) (g_methods g) /\
    (args, Val (Called ws (Some (TMethod m next keys)))) ∈ results W g evs /\ ~ applicable W m args.
Proof.
  exists demo, (one_arg nested_methods), [Call [OInt 5]; Call [OInt 100]], [OInt 100],
    (plain_method 2 [TLimInt (Some 0%Z) (Some 10%Z)]), (Chain [] None), None, [].
  pose proof demo_wf as [HW _]. split; [done|]. split; [|split; [|split]].
  - wf_demo.
  - wf_demo.
  - vm_compute. repeat constructor.
  - eapply not_applicable_one; [reflexivity|done|wf_demo|wf_demo|vm_compute; reflexivity].
Qed.
Print Assumptions C43_nested_limited_integers_refuted.

(** The same with singleton(5) beside limited(<integer>, min: 0). *)
Definition single_limited_methods : list meth :=
  [plain_method 1 [TSing (OInt 5)]; plain_method 2 [TLimInt (Some 0%Z) None]; plain_method 3 [TClass 0]].
Theorem C43_singleton_and_limited_refuted :
  exists W g evs args m next keys ws,
    wf_world W /\ wf_args W g args /\ Forall (wf_method W (g_nreq g)) (g_methods g) /\
    (args, Val (Called ws (Some (TMethod m next keys)))) ∈ results W g evs /\ ~ applicable W m args.
Proof.
  exists demo, (one_arg single_limited_methods), [Call [OInt 5]; Call [OInt 100]; Call [OInt (-1)]], [OInt (-1)],
    (plain_method 2 [TLimInt (Some 0%Z) None]), (Chain [] None), None, [].
  pose proof demo_wf as [HW _]. split; [done|]. split; [|split; [|split]].
  - wf_demo.
  - wf_demo.
  - vm_compute. repeat constructor.
  - eapply not_applicable_one; [reflexivity|done|wf_demo|wf_demo|vm_compute; reflexivity].
Qed.
Print Assumptions C43_singleton_and_limited_refuted.

(** A subclass type in a union: the call fails with a type error although a method is
    applicable. *)
Definition union_subclass_methods : list meth :=
  [plain_method 1 [TUnion (TSubclass 5) (TClass 1)]; plain_method 2 [TSing (OInt 5)]].
Theorem C43_subclass_in_union_refuted :
  exists W g evs args m,
    wf_world W /\ wf_args W g args /\ wf_methods W (g_nreq g) (g_methods g) /\
    (args, Signal "type-error") ∈ results W g evs /\ m ∈ g_methods g /\ applicable W m args.
Proof.
  exists demo, (one_arg union_subclass_methods), [Call [OInt 7]], [OInt 7],
    (plain_method 1 [TUnion (TSubclass 5) (TClass 1)]).
  pose proof demo_wf as [HW _]. split; [done|]. split; [|split; [|split; [|split]]].
  - wf_demo.
  - wf_demo.
  - vm_compute. repeat constructor.
  - apply elem_of_cons. auto.
  - constructor; [|constructor]. eapply (instance_inst demo (OInt 7) _ true); [done|wf_demo|wf_demo|vm_compute; reflexivity|done].
Qed.
Print Assumptions C43_subclass_in_union_refuted.

(** Singletons of objects with content equality (strings): [instance?] compares by [=],
    the cache by identity.  After a call with an equal string, all other strings run the
    method on the singleton. *)
Definition string_methods : list meth :=
  [plain_method 1 [TSing (OOther 3 1 (Some 7))]; plain_method 2 [TClass 3]].
Theorem C43_content_singleton_refuted :
  exists W g evs args m next keys ws,
    wf_world W /\ wf_args W g args /\ (forall m t, m ∈ g_methods g -> t ∈ m_specs m -> wf_ty W t) /\
    (args, Val (Called ws (Some (TMethod m next keys)))) ∈ results W g evs /\ ~ applicable W m args.
Proof.
  exists demo, (one_arg string_methods), [Call [OOther 3 2 (Some 7)]; Call [OOther 3 3 (Some 9)]], [OOther 3 3 (Some 9)],
    (plain_method 1 [TSing (OOther 3 1 (Some 7))]), (Chain [] None), None, [].
  pose proof demo_wf as [HW _]. split; [done|]. split; [|split; [|split]].
  - wf_demo.
  - intros m t Hm Ht. unfold one_arg, g_methods, string_methods in Hm. rewrite !elem_of_cons, elem_of_nil in Hm.
    destruct Hm as [->|[->|[]]]; unfold plain_method, m_specs in Ht; rewrite elem_of_list_singleton in Ht; subst t; wf_demo.
  - vm_compute. repeat constructor.
  - eapply not_applicable_one; [reflexivity|done|wf_demo|wf_demo|vm_compute; reflexivity].
Qed.
Print Assumptions C43_content_singleton_refuted.

(** The warning about ambiguous methods comes only with the call that fills the cache. *)
Definition ambiguous_gf : gfun :=
  Gf 2 [plain_method 1 [TClass 5; TClass 0]; plain_method 2 [TClass 0; TClass 5]] NoKeys [].
Definition ambiguous_args : list obj := [OOther 6 1 None; OOther 7 2 None].
Theorem C43_ambiguous_called_silently_refuted :
  exists W g evs args m next keys amb r,
    wf_world W /\ wf_args W g args /\ wf_methods W (g_nreq g) (g_methods g) /\
    results W g evs = r ++ [(args, Val (Called [] (Some (TMethod m next keys))))] /\
    sorted_applicable_methods W (g_methods g) args = Val ([], amb) /\ m ∈ amb.
Proof.
  eexists demo, ambiguous_gf, [Call ambiguous_args; Call ambiguous_args], ambiguous_args,
    _, (Chain [] None), None, _, [_].
  pose proof demo_wf as [HW _]. split; [done|]. split; [|split; [|split; [|split]]].
  - wf_demo.
  - wf_demo.
  - vm_compute. reflexivity.
  - vm_compute. reflexivity.
  - vm_compute. repeat constructor.
Qed.
Print Assumptions C43_ambiguous_called_silently_refuted.

(** An applicable method may be left out altogether: subclass(<object>) and <class> are
    taken for the same specializer by the order of methods, not by add-method. *)
Definition dropping_methods : list meth :=
  [Meth 1 [TSubclass 0] true None; Meth 2 [TClass 2] true None].
Theorem C43_method_dropped_refuted :
  exists W g evs args m keys ws m',
    wf_world W /\ wf_args W g args /\ wf_methods W (g_nreq g) (g_methods g) /\
    results W g evs = [(args, Val (Called ws (Some (TMethod m (Chain [] None) keys))))] /\ m_next m = true /\
    m' ∈ g_methods g /\ applicable W m' args /\ m' <> m /\ add_method W g m' = Val g.
Proof.
  eexists demo, (one_arg dropping_methods), [Call [OClass 5]], [OClass 5],
    _, None, _, _.
  pose proof demo_wf as [HW _]. split; [done|]. split; [|split; [|split; [|split; [|split; [|split; [|split]]]]]].
  - wf_demo.
  - wf_demo.
  - vm_compute. reflexivity.
  - reflexivity.
  - cbn. apply elem_of_cons. right. apply elem_of_cons. left. reflexivity.
  - constructor; [|constructor]. eapply (instance_inst demo (OClass 5) _ true); [done|wf_demo|wf_demo|vm_compute; reflexivity|done].
  - done.
  - vm_compute. reflexivity.
Qed.
Print Assumptions C43_method_dropped_refuted.

(** A new definition on the same specializers need not replace the old one: add-method
    compares <c> with type-union(<c>, <d>), <d> a subclass, in one direction only, takes
    the new method on <c> for a new version of the one on the union, and leaves two
    methods on <c>. *)
Theorem C43_redefinition_refuted :
  exists W g evs m m',
    wf_world W /\ plain_history W g evs /\ m ∈ g_methods (run_history W g EAbsent evs).1.2 /\
    later (added evs) m m' /\ same_specs W m m'.
Proof.
  set (m1 := plain_method 1 [TClass 5]). set (m3 := plain_method 3 [TClass 5]).
  set (m2 := plain_method 2 [TUnion (TClass 5) (TClass 6)]).
  exists demo, (one_arg []), [AddMethod m1; AddMethod m2; AddMethod m3], m1, m3.
  pose proof demo_wf as [HW _]. split; [done|]. split; [apply plain_historyb_ok; vm_compute; reflexivity|]. split; [|split].
  - vm_compute. repeat constructor.
  - exists [], [m2; m3]. split; [done|]. vm_compute. repeat constructor.
  - repeat constructor.
Qed.
Print Assumptions C43_redefinition_refuted.

(** ** The hypotheses are met *)
Definition sample_methods : list meth :=
  [Meth 1 [TClass 0; TClass 0] true None; Meth 2 [TClass 5; TClass 0] true None;
   Meth 3 [TUnion (TClass 5) (TSing (OInt 7)); TClass 1] true None; Meth 4 [TClass 6; TLimInt (Some 0%Z) None] true None;
   Meth 5 [TClass 6; TSing (OInt 9)] true None].
Definition sample_gf : gfun := Gf 2 sample_methods NoKeys [].
Definition sample_args : list obj := [OOther 6 1 None; OInt 9].
Example C43_sample_hypotheses :
  wf_world demo /\ wf_methods demo 2 sample_methods /\ wf_args demo sample_gf sample_args /\
  List.map (fun p => List.map m_id p) (match sorted_applicable_methods demo sample_methods sample_args with
    Val (l, amb) => [l; amb] | _ => [] end) = [[5; 4]; [1; 2; 3]].
Proof. split; [apply demo_wf|]. split; [wf_demo|]. split; [wf_demo|]. vm_compute. reflexivity. Qed.

(** A history of calls and definitions with several kinds of specializers. *)
Definition sample_history : list event :=
  [AddMethod (Meth 1 [TClass 0; TClass 0] true None); Call [OInt 1; OInt 2];
   AddMethod (Meth 2 [TClass 5; TClass 0] true None); Call [OOther 6 1 None; OInt 9];
   AddMethod (Meth 3 [TUnion (TClass 5) (TSing (OInt 7)); TClass 1] true None);
   Call [OInt 7; OInt 9]; Call [OInt 8; OInt 9]; Call [OInt 7; OInt (-1)];
   AddMethod (Meth 4 [TClass 6; TLimInt (Some 0%Z) None] true None);
   AddMethod (Meth 5 [TSing (OInt 8); TClass 5] true None);
   AddMethod (Meth 6 [TSubclass 5; TClass 0] true None);
   Call [OInt 7; OInt 9]; Call [OClass 6; OInt 3]; Call [OClass 5; OInt 3];
   AddMethod (Meth 7 [TClass 6; TLimInt (Some 0%Z) None] false None); Call [OOther 6 1 None; OInt (-9)]].
Definition empty_gf : gfun := Gf 2 [] NoKeys [1].
Example C43_history_hypotheses :
  plain_history demo empty_gf sample_history /\ wf_args demo empty_gf sample_args /\
  match last_result demo empty_gf (sample_history ++ [Call sample_args]) with
  | Some (_, Val (Called [] (Some (TMethod m next _)))) => (m_id m, List.map m_id (ch_methods next)) = (7, [])
  | _ => False
  end.
Proof. split; [apply plain_historyb_ok; vm_compute; reflexivity|]. split; [wf_demo|]. vm_compute. reflexivity. Qed.
