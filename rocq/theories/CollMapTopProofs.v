(** map-into: putting the loops together. *)
From stdpp Require Import list_numbers.
From Verif Require Import Base CollModel CollSpec CollProofs CollAgree CollIterProofs CollAlignProofs CollSourceProofs CollMapProofs CollDequeProofs.
From Coq Require Import ZArith ZifyBool ZifyNat.
Local Open Scope outcome_scope.
Local Open Scope Z_scope.

Lemma method_called m ms : m ∈ ms -> existsb (fun m' => match m, m' with
          | RArrayColl, RArrayColl | RArraySeq, RArraySeq | RArrayArray, RArrayArray | RSeqSeq, RSeqSeq
          | RSeqArray, RSeqArray | RSeqColl, RSeqColl | SDefault, SDefault | SArrayColl, SArrayColl
          | SArraySeq, SArraySeq | SSeqColl, SSeqColl | SSeqSeq, SSeqSeq => true | _, _ => false end) ms = true.
Proof. intros H. apply existsb_exists. exists m. split; [by apply elem_of_list_In|]. by destruct m. Qed.

Lemma sequence_key_test c : is_sequence c = true -> coll_key_test c = 0%nat.
Proof. by destruct c. Qed.

Lemma source_kind h a more cs src : Forall2 (fun a c => h !! a = Some c) (a :: more) cs -> multiple_collection h a more = Val src ->
  src_is_sequence h src = Val (forallb is_sequence cs) /\
  (forall kt, Forall (fun s => coll_key_test s = kt) cs -> src_key_test h src = Val kt) /\
  match src with One s => s = a /\ more = [] | _ => more <> [] end.
Proof.
  intros H Hm. inversion H as [|? c ? cs' Ha Hmore]; subst. destruct more as [|b more]; unfold multiple_collection in Hm.
  - injection Hm as <-. inversion Hmore; subst. cbn. rewrite (at_val _ _ _ Ha). cbn. rewrite andb_true_r. split; [done|]. split; [|done].
    intros kt Hk. inversion Hk; subst. done.
  - rewrite (at_val _ _ _ Ha) in Hm. cbn [obind] in Hm. rewrite (all_val _ _ _ Hmore) in Hm. cbn [obind] in Hm.
    destruct (negb (forallb _ cs')) in Hm; [done|]. destruct (forallb (fun c' => eqb (is_sequence c') (is_sequence c)) cs') eqn:E1; cbn [negb] in Hm.
    + assert (Hcs : Forall (fun c' => is_sequence c' = is_sequence c) cs').
      { apply Forall_forall. intros x Hx. rewrite forallb_forall in E1. apply eqb_prop, E1. by apply elem_of_list_In. }
      destruct (is_sequence c) eqn:E2; injection Hm as <-; cbn [src_is_sequence src_key_test].
      * split; [|split; [|done]].
        -- f_equal. cbn. rewrite E2. symmetry. apply forallb_forall. intros x Hx. rewrite Forall_forall in Hcs. apply Hcs. by apply elem_of_list_In.
        -- intros kt Hk. inversion Hk; subst. by rewrite sequence_key_test.
      * split; [|split; [|done]].
        -- cbn. by rewrite E2.
        -- intros kt Hk. rewrite (all_val h (a :: b :: more) (c :: cs')) by done. cbn. by inversion Hk; subst.
    + destruct (split_mixed 0 (combine (a :: b :: more) (c :: cs'))) as [[[sas smap] eas] emap] eqn:Es in Hm. injection Hm as <-.
      cbn [src_is_sequence src_key_test]. apply not_true_iff_false in E1 as E1'. rewrite forallb_forall in E1'.
      assert (Hdiff : exists x, x ∈ cs' /\ is_sequence x <> is_sequence c).
      { apply not_true_iff_false in E1 as E3. clear -E3. induction cs' as [|x cs' IH]; [done|]. cbn in E3. destruct (eqb (is_sequence x) (is_sequence c)) eqn:E.
        - destruct (IH E3) as (y & H1 & H2). exists y. split; [by right|done].
        - exists x. split; [left|]. intros Hx. rewrite Hx, eqb_reflx in E. done. }
      destruct Hdiff as (x & Hx & Hd). split; [|split; [|done]].
      * f_equal. symmetry. apply not_true_iff_false. rewrite forallb_forall. intros Hall'. apply Hd. rewrite !Hall'; [done|left; done|right; by apply elem_of_list_In].
      * intros kt Hk. f_equal. inversion Hk as [|? ? H1 H2]; subst. rewrite Forall_forall in H2. specialize (H2 _ Hx).
        destruct (is_sequence c) eqn:E4; [by rewrite sequence_key_test|]. destruct (is_sequence x) eqn:E5; [|done]. rewrite <- H2. by rewrite sequence_key_test.
Qed.

Lemma call_args_keys out : (call_args out).*1 = out.*1.
Proof. unfold call_args. induction out as [|e out IH]; [done|]. cbn. by rewrite IH. Qed.

Lemma call_args_in cs out k v : visits cs out -> (k, v) ∈ call_args out <-> source_at cs k = Some v.
Proof.
  intros Hv. unfold call_args, source_at. rewrite elem_of_list_fmap. split.
  - intros ([k' vs] & [= -> ->] & Hin). apply Hv in Hin. cbn. by rewrite Hin.
  - destruct (aligned cs k) as [vs|] eqn:E; [|done]. intros [= <-]. exists (k, vs). split; [done|]. by apply Hv.
Qed.

Lemma call_args_key_in cs out k : visits cs out -> k ∈ (call_args out).*1 <-> aligned cs k <> None.
Proof.
  intros Hv. rewrite call_args_keys. rewrite elem_of_list_fmap. split.
  - intros ([k' vs] & -> & Hin). apply Hv in Hin. cbn. by rewrite Hin.
  - destruct (aligned cs k) as [vs|] eqn:E; [|done]. intros _. exists (k, vs). split; [done|]. by apply Hv.
Qed.

(** When all sources are sequences, the keys visited are 0, 1, 2, ... *)
Lemma sequence_keys cs out : forallb is_sequence cs = true -> cs <> [] -> visits cs out -> keys_from 0 (call_args out).
Proof.
  intros Hseq Hne Hv. assert (Hall : Forall (fun c => is_sequence c = true) cs).
  { apply Forall_forall. intros x Hx. rewrite forallb_forall in Hseq. apply Hseq. by apply elem_of_list_In. }
  assert (Hex : existsb is_sequence cs = true). { destruct cs; [done|]. cbn in *. by apply andb_true_iff in Hseq as [-> _]. }
  assert (Hout : forall j k vs, out !! j = Some (k, vs) -> k = KInt (Z.of_nat j)).
  { induction j as [j IH] using lt_wf_ind. intros k vs Hj.
    assert (Hin : aligned cs k = Some vs). { apply Hv. by eapply elem_of_list_lookup_2. }
    destruct (aligned_below cs k vs Hall Hne Hin) as (z & -> & Hb).
    destruct (decide (z = j)) as [->|Hzj]; [done|]. exfalso. destruct (decide (z < j)%nat) as [Hlt|Hge].
    - destruct (lookup_lt_is_Some_2 out z) as [[k2 vs2] Hz]. { apply lookup_lt_Some in Hj. lia. }
      pose proof (IH z Hlt _ _ Hz) as ->. destruct (visits_order _ _ Hv Hex z j _ _ _ _ Hlt Hz Hj) as (z1 & z2 & [= <-] & [= <-] & ?). lia.
    - assert (Hbj : all_below j cs). { eapply Forall_impl; [exact Hb|]. intros x. cbn. unfold below. destruct (slen x); [lia|done]. }
      destruct (proj1 (below_aligned cs j Hall) Hbj) as [ws Hws]. apply (visits_all _ _ Hv) in Hws. apply elem_of_list_lookup in Hws as [p Hp].
      destruct (decide (p = j)) as [->|Hpj]. { rewrite Hj in Hp. injection Hp as Hp _. lia. }
      destruct (decide (p < j)%nat) as [Hlt|Hge'].
      + pose proof (IH p Hlt _ _ Hp) as E. injection E as E. lia.
      + destruct (visits_order _ _ Hv Hex j p _ _ _ _ ltac:(lia) Hj Hp) as (z1 & z2 & [= <-] & [= <-] & ?). lia. }
  intros j k v Hj. unfold call_args in Hj. rewrite list_lookup_fmap in Hj. destruct (out !! j) as [[k2 vs]|] eqn:E; [|done]. injection Hj as <- <-. cbn.
  by apply (Hout j) in E.
Qed.

(** From the invariant at the end to the specification. *)
Lemma stored_mapped fn c cs out c' : visits cs out -> stored fn c (rev (call_args out) ++ []) c' -> mapped_into fn (source_at cs) c c'.
Proof.
  intros Hv [H1 H2 H3 H4]. rewrite app_nil_r in *. split; [done|]. split; [done|]. split.
  - intros k v Hk Hs. apply H3; [|done]. apply elem_of_list_In. rewrite <- in_rev. apply elem_of_list_In. by apply (call_args_in cs).
  - assert (Hkeys : forall k, k ∈ (rev (call_args out)).*1 <-> aligned cs k <> None).
    { intros k. rewrite <- (call_args_key_in cs out k Hv). rewrite !elem_of_list_fmap. split; intros (x & -> & Hx); exists x; (split; [done|]);
        apply elem_of_list_In; apply elem_of_list_In in Hx; [by apply in_rev|by apply in_rev in Hx]. }
    intros k Hk. destruct (H4 k) as [E|(E1 & E2 & E3 & E4 & z & z' & -> & Hz & Hin)].
    + destruct Hk as [Hk|Hk]; [|by right]. left. rewrite Hkeys. unfold source_at in Hk. destruct (aligned cs k); [done|]. auto.
    + by left.
    + right. split; [done|]. split; [done|]. split; [done|]. split; [done|]. exists z, z'. split; [done|]. split; [done|].
      apply Hkeys in Hin. unfold source_at. by destruct (aligned cs (KInt z')).
Qed.

Lemma accepts_stretchy c : is_stretchy c = true -> is_sequence c = true -> forall k, accepts c k <-> exists z, k = KInt z /\ 0 <= z.
Proof. intros H1 H2 k. unfold accepts. by rewrite H1, H2. Qed.

Lemma accepts_vec vk l : is_stretchy (CVec vk l) = false -> forall k, accepts (CVec vk l) k <-> exists z, k = KInt z /\ 0 <= z < Z.of_nat (length l).
Proof.
  intros H1 k. unfold accepts. rewrite H1. destruct k as [z| |]; cbn; [|split; [done|naive_solver]..].
  destruct (decide (0 <= z)) as [Hz|Hz].
  - rewrite not_eq_None_Some, lookup_lt_is_Some. split; [intros; exists z; split; [done|lia]|intros (? & [= <-] & ?); lia].
  - split; [done|]. intros (? & [= <-] & ?). lia.
Qed.

Lemma aligned_one s k : aligned [s] k = match value_at s k with Some v => Some [v] | None => None end.
Proof. unfold aligned. cbn. by destruct (value_at s k). Qed.

Lemma source_at_one s k : source_at [s] k = value_at s k.
Proof. unfold source_at. rewrite aligned_one. by destruct (value_at s k). Qed.

Lemma lookup_key_value kt tab k : lookup_key k tab = value_at (CTab kt tab) k.
Proof.
  cbn. induction tab as [|[x v] tab IH]; [done|]. cbn. destruct (decide (x = k)) as [->|Hx].
  - by rewrite bool_decide_true.
  - rewrite bool_decide_false by done. rewrite IH. by destruct (list_find _ tab).
Qed.

(** The list a deque ends up with, and the specification. *)
Lemma deque_list_mapped fn s first l vals first' : is_sequence s = true -> (forall z, 0 <= z -> value_at s (KInt z) = vals !! Z.to_nat z) -> (forall k, match k with KInt z => z < 0 | _ => True end -> value_at s k = None) ->
  mapped_into fn (source_at [s]) (CDeq first l) (CDeq first' (map fn vals ++ drop (length vals) l)).
Proof.
  intros Hs Hv Hn. split; [done|]. split; [done|]. split.
  - intros k v (z & -> & Hz) Hsv. rewrite source_at_one, Hv in Hsv by done. cbn. rewrite decide_True by done.
    rewrite lookup_app_l by (rewrite map_length; by eapply lookup_lt_Some). rewrite list_lookup_fmap, Hsv. done.
  - intros k [Hk|Hk]; left.
    + rewrite source_at_one in Hk. destruct k as [z| |]; [|done..]. cbn. destruct (decide (0 <= z)) as [Hz|]; [|done]. rewrite Hv in Hk by done.
      apply lookup_ge_None in Hk. rewrite lookup_app_r by (by rewrite map_length). rewrite map_length, lookup_drop. f_equal. lia.
    + destruct k as [z| |]; [|done..]. cbn. destruct (decide (0 <= z)); [|done]. destruct Hk. exists z. done.
Qed.

Lemma table_max tab : forall r, let m := fold_left (fun r (e : key * value) => match e.1 with KInt z => Z.max z r | _ => r end) tab r in
  r <= m /\ (forall z v, (KInt z, v) ∈ tab -> z <= m) /\ (m = r \/ exists v, (KInt m, v) ∈ tab).
Proof.
  induction tab as [|[k v] tab IH]; intros r; cbn.
  - split; [lia|]. split; [|by left]. intros z v H. by apply elem_of_nil in H.
  - set (r' := match k with KInt z => Z.max z r | _ => r end). destruct (IH r') as (H1 & H2 & H3). cbn in H1, H2, H3.
    assert (r <= r') by (unfold r'; destruct k; lia). split; [lia|]. split.
    + intros z w [E|Hin]%elem_of_cons; [|by eapply H2]. injection E as <- <-. unfold r' in *. lia.
    + destruct H3 as [H3|[w H3]]; [|right; exists w; by right]. rewrite H3. unfold r'. destruct k as [z| |]; [|by left..].
      destruct (Z.max_spec z r) as [[_ ->]|[_ ->]]; [by left|]. right. exists v. left.
Qed.

Lemma deque_table_mapped fn kt tab first l M first' : NoDup tab.*1 ->
  (forall z v, (KInt z, v) ∈ tab -> z < Z.of_nat M) -> (M = 0%nat \/ exists v, (KInt (Z.of_nat M - 1), v) ∈ tab) ->
  mapped_into fn (source_at [CTab kt tab]) (CDeq first l) (CDeq first' (upd_upto fn tab M (if (length l <? M)%nat then grown l M else l))).
Proof.
  intros Hnd HM Hlast.
  set (l1 := if (length l <? M)%nat then grown l M else l).
  assert (Hl1 : (M <= length l1)%nat). { unfold l1. destruct (length l <? M)%nat eqn:E; [rewrite grown_length by lia; lia|lia]. }
  assert (Hat : forall z, 0 <= z -> at_nat tab (Z.to_nat z) = source_at [CTab kt tab] (KInt z)).
  { intros z Hz. unfold at_nat. rewrite Z2Nat.id by done. rewrite source_at_one. apply lookup_key_value. }
  split; [done|]. split; [done|]. split.
  - intros k v (z & -> & Hz) Hsv. cbn. rewrite decide_True by done. rewrite upd_upto_lookup. rewrite Hat, Hsv by done.
    rewrite source_at_one in Hsv. apply value_at_tab in Hsv; [|done]. apply HM in Hsv.
    destruct (lookup_lt_is_Some_2 l1 (Z.to_nat z)) as [x ->]; [lia|]. cbn [fmap option_fmap option_map]. by rewrite (proj2 (Nat.ltb_lt _ _)) by lia.
  - intros k Hk. destruct k as [z| |]; [|by left..]. cbn [value_at]. destruct (decide (0 <= z)) as [Hz|Hz]; [|by left].
    destruct Hk as [Hk|Hk]; [|destruct Hk; by exists z]. rewrite upd_upto_lookup. rewrite Hat, Hk by done. cbn [from_option].
    assert (E : (fun x : value => if (Z.to_nat z <? M)%nat then x else x) <$> l1 !! Z.to_nat z = l1 !! Z.to_nat z).
    { destruct (l1 !! Z.to_nat z), (Z.to_nat z <? M)%nat; done. }
    rewrite E. unfold l1. destruct (length l <? M)%nat eqn:El; [|by left].
    rewrite grown_lookup by lia. destruct (decide (Z.to_nat z < length l)%nat) as [|Hzl]; [by left|].
    rewrite (lookup_ge_None_2 l) by lia. destruct (decide (Z.to_nat z < M)%nat) as [HzM|]; [|by left]. right. split; [done|]. split; [done|].
    split; [done|]. split; [done|]. exists z, (Z.of_nat M - 1). split; [done|]. destruct Hlast as [->|[v Hv]]; [lia|].
    apply (value_at_tab kt tab) in Hv; [|done]. rewrite <- source_at_one in Hv. split; [|by rewrite Hv].
    destruct (decide (z = Z.of_nat M - 1)) as [->|]; [by rewrite Hv in Hk|lia].
Qed.

Lemma fold_no_stop' {R} (step : R -> key -> value -> R) out r :
  fold_stop no_stop step r out = fold_left (fun r e => step r e.1 e.2) out r.
Proof. revert r. induction out as [|[k v] out IH]; intros r; [done|]. cbn. apply IH. Qed.

Section Top.
  Context (place : Z -> nat -> Z) (fn : value -> value) (h : heap) (t : nat) (c : coll) (a : nat) (more : list nat) (cs : list coll) (src : source).
  Context (Hheap : Forall2 (fun a c => h !! a = Some c) (a :: more) cs) (Hwfs : Forall wf_coll cs) (Hb : bounded cs).
  Context (Hsrc : multiple_collection h a more = Val src) (Ht : h !! t = Some c) (Hm : is_mutable c = true) (Hwf : wf_coll c).
  Context (Hkt : Forall (fun s => coll_key_test s = coll_key_test c) cs) (Hfit : results_fit fn cs c).

  Lemma target_key k : t ∈ a :: more -> aligned cs k <> None -> value_at c k <> None.
  Proof.
    intros Hin Hal Hn. apply Hal. apply elem_of_list_lookup in Hin as [i Hi]. destruct (Forall2_lookup_l _ _ _ _ _ Hheap Hi) as (c2 & Hc2 & E).
    rewrite Ht in E. injection E as <-. eapply aligned_none_of; [by eapply elem_of_list_lookup_2|done].
  Qed.

  Definition keep : Prop := t ∈ a :: more \/ is_stretchy c = false \/ no_growth cs c.

  Lemma fits_start out : visits cs out -> fits keep fn c [] (call_args out).
  Proof.
    intros Hv. split.
    - rewrite call_args_keys. by apply visits_once in Hv.
    - intros k _ Hk. by apply elem_of_nil in Hk.
    - intros k v Hin. apply (call_args_in cs) in Hin; [|done]. unfold source_at in Hin. destruct (aligned cs k) as [vs|] eqn:E; [|done]. injection Hin as <-.
      unfold storable_in, results_fit in *. destruct c as [[]| | | | |]; try done. cbn. by eapply Hfit.
    - intros Hk k Hin Hac. apply (call_args_key_in cs) in Hin; [|done]. destruct Hk as [Hk|[Hk|Hk]]; [by apply target_key| |by apply Hk].
      unfold accepts in Hac. by rewrite Hk in Hac.
  Qed.

  Theorem map_into_ok m : covered cs c -> m ∈ methods_for c (match more with [] => h !! a | _ => None end) (forallb is_sequence cs) ->
    exists F, forall fuel, (F <= fuel)%nat -> exists c', map_into fuel place m fn h t src = Val (<[t := c']> h) /\ mapped_into fn (source_at cs) c c'.
  Proof.
    intros Hcov Hmeth. destruct (source_yields _ _ _ _ _ Hheap Hwfs Hb Hsrc) as (B & f & st & out & Hs & Hy & Hv).
    destruct (source_kind _ _ _ _ _ Hheap Hsrc) as (K1 & K2 & K3). specialize (K2 _ Hkt).
    pose proof (fits_start out Hv) as Hfits.
    assert (Hkeep : t ∈ a :: more -> keep) by (intros; by left).
    assert (Hstart : forall k, midway k fn h t c [] h c) by (intros; by apply mid_start).
    assert (Hcall : forall fuel, map_into fuel place m fn h t src = run_method m fuel place fn h t src).
    { intros fuel. unfold map_into. rewrite (at_val _ _ _ Ht). cbn [obind]. rewrite Hm. cbn [negb]. rewrite K2. cbn [obind]. rewrite bool_decide_true by done. cbn [negb].
      rewrite K1. cbn [obind]. rewrite method_called; [done|]. destruct src as [s| | |]; [destruct K3 as [-> ->]; exact Hmeth|..]; destruct more; done. }
    assert (Hfin : forall fuel k, (exists h'' c'', run_method m fuel place fn h t src = Val h'' /\ midway k fn h t c (rev (call_args out) ++ []) h'' c'') ->
      exists c', map_into fuel place m fn h t src = Val (<[t := c']> h) /\ mapped_into fn (source_at cs) c c').
    { intros fuel k (h'' & c'' & E & [-> Hst _]). exists c''. rewrite Hcall. split; [done|]. by eapply stored_mapped. }
    assert (Hrun : forall fuel, (B <= fuel)%nat -> run_method m fuel place fn h t src =
      match m with
      | RArrayColl => do n <- coll_size c ; rigid_array_coll fuel place fn h t src f st (Z.of_nat n)
      | RArraySeq => do n <- coll_size c ; rigid_array_seq fuel place fn h t src f st 0 (Z.of_nat n)
      | RSeqSeq => rigid_seq_seq fuel fn h t (fip_of c) (f_init (fip_of c)) src f st
      | SDefault => stretchy_default fuel place fn h t src f st
      | SArrayColl => stretchy_array_coll fuel place fn h t src f st
      | SArraySeq => stretchy_array_seq fuel place fn h t src f st 0
      | SSeqSeq => stretchy_seq_seq fuel place fn h t (fip_of c) (f_init (fip_of c)) src f st 0
      | _ => run_method m fuel place fn h t src
      end).
    { intros fuel Hfu. unfold run_method. rewrite (at_val _ _ _ Ht). cbn [obind]. rewrite (Hs _ Hfu). by destruct m. }
    assert (Hone : more = [] -> exists s, h !! a = Some s /\ cs = [s]).
    { intros Hmore. pose proof Hheap as Hh. rewrite Hmore in Hh. inversion Hh as [|? s ? ? Ha Hnil]. inversion Hnil. by exists s. }
    assert (Hcsne : cs <> []). { intros ->. inversion Hheap. }
    assert (Hkf : forallb is_sequence cs = true -> keys_from 0 (call_args out)). { intros Hsq. by apply (sequence_keys cs). }
    assert (HRAC : forall vk l, c = CVec vk l -> is_stretchy c = false -> m = RArrayColl -> exists F, forall fuel, (F <= fuel)%nat -> exists c', map_into fuel place m fn h t src = Val (<[t := c']> h) /\ mapped_into fn (source_at cs) c c').
    { intros vk l Ec Hrig ->. exists (S (B + length (call_args out))). intros fuel Hfuel. apply (Hfin fuel keep). rewrite Hrun by lia. rewrite Ec. cbn [coll_size obind]. rewrite <- Ec.
      eapply (rigid_array_coll_ok place keep fn h (a :: more) t c src f B); [done|done|done| |exact Hy|apply Hstart|done|lia]. rewrite Ec in *. by apply accepts_vec. }
    assert (HRAS : forall vk l, c = CVec vk l -> is_stretchy c = false -> forallb is_sequence cs = true -> m = RArraySeq -> exists F, forall fuel, (F <= fuel)%nat -> exists c', map_into fuel place m fn h t src = Val (<[t := c']> h) /\ mapped_into fn (source_at cs) c c').
    { intros vk l Ec Hrig Hsq ->. exists (S (B + length (call_args out))). intros fuel Hfuel. apply (Hfin fuel keep). rewrite Hrun by lia. rewrite Ec. cbn [coll_size obind]. rewrite <- Ec.
      eapply (rigid_array_seq_ok place keep fn h (a :: more) t c src f B) with (i := 0%nat); [done|done|done| |exact Hy|auto|apply Hstart|done|lia]. rewrite Ec in *. by apply accepts_vec. }
    assert (HRSS : is_sequence c = true -> is_stretchy c = false -> forallb is_sequence cs = true -> m = RSeqSeq -> exists F, forall fuel, (F <= fuel)%nat -> exists c', map_into fuel place m fn h t src = Val (<[t := c']> h) /\ mapped_into fn (source_at cs) c c').
    { intros Hsc Hrig Hsq ->. exists (S (B + length (call_args out))). intros fuel Hfuel. apply (Hfin fuel keep). rewrite Hrun by lia. rewrite fip_init.
      eapply (rigid_seq_seq_ok place keep fn h (a :: more) t c src f B); [done|done|done|by right; left|done|done|done|exact Hy|lia|auto|apply Hstart|done|lia]. }
    assert (HRAA : forall vk l vk' ls, c = CVec vk l -> is_stretchy c = false -> more = [] -> h !! a = Some (CVec vk' ls) -> m = RArrayArray -> exists F, forall fuel, (F <= fuel)%nat -> exists c', map_into fuel place m fn h t src = Val (<[t := c']> h) /\ mapped_into fn (source_at cs) c c').
    { intros vk l vk' ls Ec Hrig Hmore Ha ->. exists 0%nat. intros fuel _. apply (Hfin fuel keep).
      destruct src as [s| | |]; try done. destruct K3 as [-> _].
      assert (Ecs : cs = [CVec vk' ls]). { rewrite Hmore in Hheap. inversion Hheap as [|? x ? y H1 H2]; subst. inversion H2; subst. rewrite Ha in H1. by injection H1 as <-. }
      assert (Hkeys : keys_from 0 (call_args out)). { apply Hkf. by rewrite Ecs. }
      assert (Hall : forall j, snd <$> call_args out !! j = ls !! j).
      { intros j. destruct (ls !! j) as [v|] eqn:Ej.
        - assert (Hin : (KInt (Z.of_nat j), v) ∈ call_args out).
          { apply (call_args_in cs); [done|]. rewrite Ecs, source_at_one. cbn. rewrite decide_True by lia. by rewrite Nat2Z.id. }
          apply elem_of_list_lookup in Hin as [p Hp]. pose proof (Hkeys _ _ _ Hp) as E. injection E as E. assert (p = j) as -> by lia. by rewrite Hp.
        - destruct (call_args out !! j) as [[k v]|] eqn:Eo; [|done]. exfalso. pose proof (Hkeys _ _ _ Eo) as ->. apply elem_of_list_lookup_2 in Eo.
          apply (call_args_in cs) in Eo; [|done]. rewrite Ecs, source_at_one in Eo. cbn in Eo. rewrite decide_True in Eo by lia. rewrite Nat2Z.id in Eo. congruence. }
      assert (Hlen : length (call_args out) = length ls).
      { apply Nat.le_antisymm; apply Nat.le_ngt; intros Hlt.
        - destruct (lookup_lt_is_Some_2 _ _ Hlt) as [x Hx]. specialize (Hall (length ls)). rewrite Hx in Hall. rewrite lookup_ge_None_2 in Hall by lia. done.
        - destruct (lookup_lt_is_Some_2 _ _ Hlt) as [x Hx]. specialize (Hall (length (call_args out))). rewrite Hx in Hall. rewrite lookup_ge_None_2 in Hall by lia. done. }
      unfold run_method. rewrite (at_val _ _ _ Ht), (at_val _ _ _ Ha). cbn [obind]. rewrite Ec. cbn [coll_size obind].
      rewrite Ec in Hrig, Ht, Hfits, Hstart. rewrite Hmore in Hkeep.
      eapply (rigid_array_array_ok place keep fn h t a vk l vk' ls) with (i := 0%nat); [done|done|done|done|done| |lia|lia|lia|apply Hstart|done].
      intros j e Hj. specialize (Hall j). rewrite Hj in Hall. symmetry. done. }
    destruct c as [vk l|first l|l| | |kt tab] eqn:Ec; try done.
    - (* vectors *) destruct vk.
      3:{ (* stretchy *) cbn in Hmeth. exists (S (B + length (call_args out))). intros fuel Hfuel. apply (Hfin fuel keep). rewrite Hrun by lia.
          destruct (forallb is_sequence cs) eqn:Esq; apply elem_of_list_singleton in Hmeth as ->.
          - eapply (stretchy_array_seq_ok place keep fn h (a :: more) t _ src f B) with (i := 0%nat); [done|done|done|by apply accepts_stretchy|exact Hy|auto|apply Hstart|done|lia].
          - eapply (stretchy_array_coll_ok place keep fn h (a :: more) t _ src f B); [done|done|done|by apply accepts_stretchy|exact Hy|apply Hstart|done|lia]. }
      all: cbn [methods_for is_stretchy] in Hmeth.
      all: destruct more as [|b more']; [|destruct (forallb is_sequence cs) eqn:Esq; apply elem_of_list_singleton in Hmeth; eauto].
      all: destruct (Hone eq_refl) as (s & Ha & Ecs); rewrite Ha in Hmeth.
      all: assert (Hsq : forallb is_sequence cs = is_sequence s) by (rewrite Ecs; cbn; by rewrite andb_true_r); rewrite Hsq in *.
      all: destruct s as [[]| | | | |]; cbn in Hmeth; rewrite ?elem_of_cons, elem_of_nil in Hmeth; destruct_or? Hmeth; try done;
        first [by eapply HRAC|by eapply HRAS|by eapply HRSS|by eapply HRAA].
    - (* deques *) cbn [methods_for is_stretchy] in Hmeth. destruct Hcov as [[Hsq Hng]|(s & Ecs & Hs')].
      + rewrite Hsq in Hmeth. apply elem_of_list_singleton in Hmeth as ->. exists (S (B + length (call_args out))). intros fuel Hfuel. apply (Hfin fuel keep). rewrite Hrun by lia. rewrite fip_init.
        eapply (stretchy_seq_seq_ok place keep fn h (a :: more) t _ src f B); [done|done|done|right; right; by rewrite Ec|done|done|exact Hy| |by auto|apply Hstart|done|lia].
        cbn. apply Nat.le_ngt. intros Hlt. destruct (lookup_lt_is_Some_2 _ _ Hlt) as [[k v] Hx]. pose proof (Hkf Hsq _ _ _ Hx) as ->.
        apply (Hng (KInt (Z.of_nat (0 + length l)))).
        * apply (call_args_key_in cs out); [done|]. apply elem_of_list_fmap. eexists. split; [|by eapply elem_of_list_lookup_2]. done.
        * cbn. rewrite decide_True by lia. rewrite Nat2Z.id. by apply lookup_ge_None_2.
      + assert (Hmore : more = []). { pose proof (Forall2_length _ _ _ Hheap) as E. rewrite Ecs in E. by destruct more. }
        destruct (Hone Hmore) as (s2 & Ha & E). rewrite Ecs in E. injection E as <-.
        destruct src as [x| | |] eqn:Esrc; try done. destruct K3 as [-> _].
        assert (Hne : a <> t). { intros ->. rewrite Ha in Ht. injection Ht as ->. done. }
        assert (Hlt : (t < length h)%nat) by (by eapply lookup_lt_Some).
        assert (Hwfs' : wf_coll s). { rewrite Ecs in Hwfs. by inversion Hwfs. }
        destruct (is_sequence s) eqn:Eseq.
        * assert (Hfs : finite_coll s) by (by destruct s).
          rewrite Ecs in Hmeth. cbn in Hmeth. rewrite Eseq in Hmeth. cbn in Hmeth. apply elem_of_list_singleton in Hmeth as ->.
          destruct (entries_exist s Hwfs' Hfs) as (es & Hes & Hlen). exists (2 * length es + 3)%nat. intros fuel Hfuel. setoid_rewrite Hcall.
          unfold run_method. rewrite (at_val _ _ _ Ht). cbn [obind src_start]. rewrite (at_val _ _ _ Ha). cbn [obind].
          rewrite (fip_init s).
          assert (Hvals : forall i v, es.*2 !! i = Some v -> exists k, entry_at s i = Some (k, v)).
          { intros i v Hi. apply list_lookup_fmap_Some in Hi as ([k w] & Hi & ->). exists k. by rewrite <- Hes. }
          destruct (stretchy_seq_one_ok place fn h t a s es.*2 Hlt Hne Ha Hwfs') with (first := first) (l := l) (r := length es) (i := 0%nat) (fuel := fuel) as (first' & E).
          { by rewrite fmap_length. } { done. } { by destruct s. } { rewrite fmap_length. lia. } { lia. } { rewrite fmap_length. lia. }
          cbn [take map app] in E. rewrite drop_0 in E. unfold upd in E. rewrite (list_insert_id (A:=coll)) in E by done. cbn [fip_of f_init] in E |- *. rewrite Z.add_0_r in E.
          eexists. split; [exact E|]. rewrite Ecs. apply deque_list_mapped; [done|..].
          -- intros z Hz. rewrite list_lookup_fmap, Hes. replace z with (Z.of_nat (Z.to_nat z)) at 1 by lia. unfold entry_at. destruct s; try done; destruct (value_at _ _); done.
          -- intros k Hk. destruct s; try done; destruct k; try done; cbn; rewrite decide_False by lia; done.
        * destruct s as [| | | | |kt tab]; try done. rewrite Ecs in Hmeth. cbn in Hmeth. apply elem_of_list_singleton in Hmeth as ->.
          set (m := fold_left (fun r (e : key * value) => match e.1 with KInt z => Z.max z r | _ => r end) (call_args out) (-1)).
          destruct (table_max (call_args out) (-1)) as (M1 & M2 & M3). fold m in M1, M2, M3.
          set (M := Z.to_nat (m + 1)). exists (S (B + length (call_args out) + M)). intros fuel Hfuel. setoid_rewrite Hcall.
          assert (Hmax : src_max_key fuel h (One a) = Val (Z.of_nat M - 1)).
          { unfold src_max_key. cbn [src_is_sequence]. rewrite (at_val _ _ _ Ha). cbn [obind is_sequence]. unfold for_src. rewrite Hs by lia. cbn [obind].
            erewrite for_in_yields; [|exact Hy|lia]. f_equal. rewrite fold_no_stop'. unfold M. change (fold_left _ _ _) with m. lia. }
          destruct (deque_from_table place fn h t a kt tab Hlt Hne Ha first l M fuel Ht Hmax ltac:(lia)) as (first' & E).
          unfold run_method. rewrite (at_val _ _ _ Ht). cbn [obind]. eexists. split; [exact E|]. rewrite Ecs. apply deque_table_mapped; [done|..].
          -- intros z v Hin. assert (Hin' : (KInt z, v) ∈ call_args out). { apply (call_args_in cs); [done|]. rewrite Ecs, source_at_one. by apply value_at_tab. }
             apply M2 in Hin'. lia.
          -- destruct M3 as [M3|[v M3]]; [left; lia|]. right. exists v. apply (call_args_in cs) in M3; [|done]. rewrite Ecs, source_at_one in M3. apply value_at_tab in M3; [|done].
             by replace (Z.of_nat M - 1) with m by lia.
    - (* lists *) destruct Hcov as [Hsq Hns]. rewrite Hsq in *. cbn [methods_for is_stretchy] in Hmeth.
      assert (m = RSeqSeq) as ->; [|by eauto]. destruct more as [|b more']; [|by apply elem_of_list_singleton in Hmeth].
      destruct (Hone eq_refl) as (s & Ha & Ecs). rewrite Ha in Hmeth. destruct s as [[]| | | | |]; try (by apply elem_of_list_singleton in Hmeth). by destruct (Hns l0).
    - (* tables *) cbn in Hmeth. apply elem_of_list_singleton in Hmeth as ->. exists (S (B + length (call_args out))). intros fuel Hfuel. apply (Hfin fuel keep). rewrite Hrun by lia.
      eapply (stretchy_default_ok place keep fn h (a :: more) t _ src f B); [done|done|done|done|exact Hy|apply Hstart|done|lia].
  Qed.
End Top.
