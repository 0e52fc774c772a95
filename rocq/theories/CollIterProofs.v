(** Iterating over any source visits the entries it should. *)
From Verif Require Import Base CollModel CollSpec CollProofs CollAgree.
From Coq Require Import ZArith ZifyBool ZifyNat.
Local Open Scope outcome_scope.
Local Open Scope Z_scope.

(** [yields B h as_ src f pre st out]: from state [st], with the entries [pre] visited (last one
    first), the iteration gives the entries [out] and ends, when the inner loops have fuel [B];
    whatever happens meanwhile to the elements of the collections [as_] under visited keys. *)
Inductive yields (B : nat) (h : heap) (as_ : list nat) (src : source) (f : sfip) : list (key * value) -> sstate -> list (key * value) -> Prop :=
| yields_nil pre st : (forall h', similar as_ h pre.*1 h' -> src_fin h' src f st = Val true) -> yields B h as_ src f pre st []
| yields_cons pre st st' k v out :
    (forall h', similar as_ h pre.*1 h' -> src_fin h' src f st = Val false /\ src_elt h' src f st = Val v /\ src_key h' src f st = Val k) ->
    (forall h' fuel, similar as_ h (k :: pre.*1) h' -> (B <= fuel)%nat -> src_next fuel h' src f st = Val st') ->
    yields B h as_ src f ((k, v) :: pre) st' out -> yields B h as_ src f pre st ((k, v) :: out).

(** The loop with an early exit. *)
Fixpoint fold_stop {R} (stop : R -> bool) (step : R -> key -> value -> R) (r : R) (out : list (key * value)) : R :=
  match out with
  | [] => r
  | (k, v) :: out => if stop r then r else fold_stop stop step (step r k v) out
  end.

Lemma for_in_yields {R} B h as_ src f pre st out (stop : R -> bool) step : yields B h as_ src f pre st out ->
  forall r fuel, (B + length out < fuel)%nat -> for_in fuel h src f st stop step r = Val (fold_stop stop step r out).
Proof.
  induction 1 as [pre st Hf|pre st st' k v out He Hn _ IH]; intros r fuel Hfuel; destruct fuel as [|fuel]; try lia; cbn [for_in].
  - by rewrite Hf by apply similar_refl.
  - destruct (He h) as (H1 & H2 & H3); [apply similar_refl|]. rewrite H1. cbn. rewrite H2. cbn. rewrite H3. cbn. destruct (stop r) eqn:E; [done|].
    rewrite Hn by (try apply similar_refl; lia). cbn. apply IH. cbn in Hfuel. lia.
Qed.

Lemma yields_pos B h as_ src f (st_at : nat -> sstate) out : NoDup out.*1 ->
  (forall i h', (i <= length out)%nat -> similar as_ h (reverse (take i out)).*1 h' -> src_fin h' src f (st_at i) = Val (bool_decide (i = length out))) ->
  (forall i k v h', out !! i = Some (k, v) -> similar as_ h (reverse (take i out)).*1 h' -> k ∉ (reverse (take i out)).*1 ->
     src_elt h' src f (st_at i) = Val v /\ src_key h' src f (st_at i) = Val k) ->
  (forall i k v h' fuel, out !! i = Some (k, v) -> similar as_ h (k :: (reverse (take i out)).*1) h' -> (B <= fuel)%nat ->
     src_next fuel h' src f (st_at i) = Val (st_at (S i))) ->
  forall i, (i <= length out)%nat -> yields B h as_ src f (reverse (take i out)) (st_at i) (drop i out).
Proof.
  intros Hnd Hf He Hn i Hi. remember (length out - i)%nat as m eqn:Hm. revert i Hi Hm. induction m as [|m IH]; intros i Hi Hm.
  - rewrite drop_ge by lia. constructor. intros h' Hs. rewrite Hf by (try done; lia). f_equal. apply bool_decide_true. lia.
  - destruct (lookup_lt_is_Some_2 out i) as [[k v] Hkv]; [lia|]. rewrite (drop_S _ _ _ Hkv).
    assert (Hk : k ∉ (reverse (take i out)).*1).
    { rewrite fmap_reverse, elem_of_reverse. rewrite <- (take_drop i out), fmap_app, (drop_S _ _ _ Hkv), fmap_cons in Hnd.
      apply NoDup_app in Hnd as (_ & Hd & _). intros Hin. apply (Hd _ Hin). left. }
    apply yields_cons with (st' := st_at (S i)).
    + intros h' Hs. split; [|by apply (He _ _ _ _ Hkv)]. rewrite Hf by (try done; lia). f_equal. apply bool_decide_false. lia.
    + intros h' fuel Hs Hfu. by eapply Hn.
    + replace ((k, v) :: reverse (take i out)) with (reverse (take (S i) out)); [apply IH; lia|].
      by rewrite (take_S_r _ _ _ Hkv), reverse_app.
Qed.

Lemma tabulate {A} (g : nat -> option A) n : (forall i, is_Some (g i) <-> (i < n)%nat) -> exists l, length l = n /\ forall i, l !! i = g i.
Proof.
  intros H. exists (omap g (seq 0 n)).
  assert (forall m s, (s + m <= n)%nat -> length (omap g (seq s m)) = m /\ forall i, (i < m)%nat -> omap g (seq s m) !! i = g (s + i)%nat) as Hm.
  { induction m as [|m IH]; intros s Hs; [split; [done|lia]|]. cbn. destruct (proj2 (H s)) as [a Ha]; [lia|]. rewrite Ha.
    destruct (IH (S s)) as [H1 H2]; [lia|]. split; [cbn; by rewrite H1|].
    intros [|i] Hi; cbn; [by rewrite Nat.add_0_r|]. rewrite H2 by lia. f_equal. lia. }
  destruct (Hm n 0%nat) as [H1 H2]; [lia|]. split; [done|]. intros i. destruct (decide (i < n)%nat); [by apply H2|].
  rewrite lookup_ge_None_2 by lia. symmetry. apply eq_None_not_Some. rewrite H. lia.
Qed.

(** ** One collection *)

Definition entry_values (out : list (key * value)) : list (key * list value) := map (fun e => (e.1, [e.2])) out.

Lemma value_at_tab kt t k v : NoDup t.*1 -> value_at (CTab kt t) k = Some v <-> (k, v) ∈ t.
Proof.
  intros Hnd. cbn. destruct (list_find _ t) as [[i [k' v']]|] eqn:E; cbn.
  - apply list_find_Some in E as (E1 & E2 & _). cbn in E2. subst k'. split.
    + intros [= <-]. by eapply elem_of_list_lookup_2.
    + intros H. apply elem_of_list_lookup in H as [j Hj]. do 2 f_equal.
      assert (i = j) as <-. { eapply NoDup_lookup; [done|rewrite list_lookup_fmap, E1|rewrite list_lookup_fmap, Hj]; done. }
      congruence.
  - split; [done|]. intros H. apply list_find_None in E. rewrite Forall_forall in E. by apply E in H.
Qed.

Lemma entry_value c i k v : wf_coll c -> entry_at c i = Some (k, v) -> value_at c k = Some v.
Proof.
  intros Hwf. destruct (is_sequence c) eqn:Es.
  - intros H. by eapply entry_seq.
  - destruct c; try done. intros H. apply value_at_tab; [done|]. by eapply elem_of_list_lookup_2.
Qed.

Lemma value_entry c k v : wf_coll c -> value_at c k = Some v -> exists i, entry_at c i = Some (k, v).
Proof.
  intros Hwf H. destruct (is_sequence c) eqn:Es.
  - assert (exists i : nat, k = KInt (Z.of_nat i)) as [i ->].
    { destruct c, k; cbn in H; try done; destruct (decide _); try done; exists (Z.to_nat z); f_equal; lia. }
    exists i. unfold entry_at. destruct c; try done; by rewrite H.
  - destruct c; try done. apply value_at_tab in H; [|done]. apply elem_of_list_lookup in H as [i Hi]. by exists i.
Qed.

Lemma entry_key_inj c i j k v w : wf_coll c -> entry_at c i = Some (k, v) -> entry_at c j = Some (k, w) -> i = j.
Proof.
  intros Hwf H1 H2. destruct (is_sequence c) eqn:Es.
  - apply entry_seq in H1 as [-> _], H2 as [E _]; [|done..]. injection E. lia.
  - destruct c; try done. cbn in *. eapply NoDup_lookup; [done|rewrite list_lookup_fmap, H1|rewrite list_lookup_fmap, H2]; done.
Qed.

Lemma visits_of_table cs (out : list (key * list value)) :
  NoDup out.*1 -> (forall k vs, (k, vs) ∈ out <-> aligned cs k = Some vs) ->
  (existsb is_sequence cs = true -> forall i k vs, out !! i = Some (k, vs) -> k = KInt (Z.of_nat i)) -> visits cs out.
Proof.
  intros H1 H2 H3. split; [done|done|]. intros Hs i j k1 k2 v1 v2 Hij E1 E2.
  apply (H3 Hs) in E1, E2. subst. eexists _, _. split; [done|]. split; [done|lia].
Qed.

Lemma entries_exist c : wf_coll c -> finite_coll c -> exists out, (forall i, out !! i = entry_at c i) /\ slen c = Some (length out).
Proof.
  intros Hwf Hfin. destruct (slen c) as [n|] eqn:En; [|by destruct c].
  destruct (tabulate (entry_at c) n) as (out & Hl & H).
  { intros i. rewrite <- entry_below, En. done. }
  exists out. by rewrite Hl.
Qed.

Lemma one_yields h a c : h !! a = Some c -> wf_coll c -> finite_coll c ->
  exists out, src_start 0 h (One a) = Val (F1 (fip_of c), St1 (pos_state c 0)) /\
    yields 0 h [a] (One a) (F1 (fip_of c)) [] (St1 (pos_state c 0)) out /\
    visits [c] (entry_values out) /\ (forall i, out !! i = entry_at c i) /\ slen c = Some (length out).
Proof.
  intros Ha Hwf Hfin. destruct (entries_exist c Hwf Hfin) as (out & Ho & Hl). exists out.
  split; [cbn; rewrite (at_val _ _ _ Ha); cbn; by rewrite fip_init|].
  assert (Hnd : NoDup out.*1).
  { apply NoDup_alt. intros i j k H1 H2. apply list_lookup_fmap_Some in H1 as ([k1 v1] & H1 & ->). apply list_lookup_fmap_Some in H2 as ([k2 v2] & H2 & E).
    cbn in E. subst k2. rewrite Ho in H1, H2. by eapply entry_key_inj. }
  assert (Hsim : forall D h', similar [a] h D h' -> exists c', at_ h' a = Val c' /\ agree D c c' /\ wf_keys c').
  { intros D h' Hs. destruct (Hs a c) as (c' & H1 & H2); [left|done|]. exists c'. split; [by apply at_val|]. split; [done|].
    eapply agree_wf_keys; [done|]. by apply wf_wf_keys. }
  split; [|split; [|done]].
  - apply (yields_pos 0 h [a] (One a) (F1 (fip_of c)) (fun i => St1 (pos_state c i)) out) with (i := 0%nat); [done|..|lia].
    + intros i h' Hi Hs. destruct (Hsim _ _ Hs) as (c' & Hc' & Hag & Hwk). cbn. rewrite Hc'. cbn.
      rewrite <- (agree_fip _ _ _ Hag), <- (agree_pos _ _ _ _ Hag). rewrite pos_fin; [|done|by rewrite (agree_len _ _ _ Hag), Hl].
      f_equal. apply bool_decide_ext. rewrite (agree_len _ _ _ Hag), Hl. split; [intros [= ?]|intros ->]; congruence.
    + intros i k v h' Hi Hs Hk. rewrite Ho in Hi. destruct (Hsim _ _ Hs) as (c' & Hc' & Hag & Hwk). cbn. rewrite Hc'. cbn.
      rewrite <- (agree_fip _ _ _ Hag), <- (agree_pos _ _ _ _ Hag). pose proof (agree_entry _ _ _ _ _ _ Hag Hi Hk) as Hi'.
      rewrite (pos_elt _ _ _ _ Hi'), (pos_key _ _ _ _ Hwk Hi'). done.
    + intros i k v h' fuel Hi Hs _. assert (below i (slen c)) as Hb. { rewrite Hl. cbn. by eapply lookup_lt_Some. }
      destruct (Hsim _ _ Hs) as (c' & Hc' & Hag & Hwk). cbn. rewrite Hc'. cbn.
      rewrite <- (agree_fip _ _ _ Hag), <- !(agree_pos _ _ _ _ Hag). rewrite <- (agree_len _ _ _ Hag) in Hb. by rewrite pos_next.
  - apply visits_of_table.
    + unfold entry_values. rewrite <- list_fmap_compose. exact Hnd.
    + intros k vs. unfold entry_values, aligned. cbn. split.
      * intros ((k' & v) & [= -> ->] & H)%elem_of_list_fmap. apply elem_of_list_lookup in H as [i Hi]. rewrite Ho in Hi.
        cbn. by rewrite (entry_value _ _ _ _ Hwf Hi).
      * destruct (value_at c k) as [v|] eqn:E; cbn; [|done]. intros [= <-]. apply elem_of_list_fmap. exists (k, v). split; [done|].
        destruct (value_entry _ _ _ Hwf E) as [i Hi]. rewrite <- Ho in Hi. by eapply elem_of_list_lookup_2.
    + cbn. rewrite orb_false_r. intros Hs i k vs H. unfold entry_values in H. apply list_lookup_fmap_Some in H as ([k' v] & H & [= -> ->]).
      rewrite Ho in H. cbn. by apply entry_seq in H as [-> _].
Qed.

(** ** Several sequences *)

Definition vec_values (out : list (key * list value)) : list (key * value) := map (fun e => (e.1, VVec e.2)) out.

Lemma aligned_below cs k vs : Forall (fun c => is_sequence c = true) cs -> cs <> [] -> aligned cs k = Some vs ->
  exists i, k = KInt (Z.of_nat i) /\ all_below i cs.
Proof.
  intros Hs Hne H. destruct cs as [|c cs]; [done|]. pose proof H as H'. unfold aligned in H. cbn in H.
  destruct (value_at c k) as [v|] eqn:E; [|done].
  assert (exists i : nat, k = KInt (Z.of_nat i)) as [i ->].
  { inversion_clear Hs. destruct c, k; cbn in E; try done; destruct (decide _); try done; exists (Z.to_nat z); f_equal; lia. }
  exists i. split; [done|]. apply below_aligned; [done|]. by eexists.
Qed.

Global Instance finite_dec c : Decision (finite_coll c).
Proof. destruct c; cbn; apply _. Defined.

Lemma min_len cs : Exists finite_coll cs -> exists n, forall i, all_below i cs <-> (i < n)%nat.
Proof.
  induction cs as [|c cs IH]; intros H; [by inversion H|].
  destruct (decide (Exists finite_coll cs)) as [He|He].
  - destruct (IH He) as [n Hn]. destruct (slen c) as [m|] eqn:Em.
    + exists (Nat.min m n). intros i. unfold all_below. rewrite Forall_cons, Em. cbn. unfold all_below in Hn. rewrite Hn. lia.
    + exists n. intros i. unfold all_below. rewrite Forall_cons, Em. cbn. unfold all_below in Hn. rewrite Hn. lia.
  - inversion H as [??Hc|??Hc]; subst; [|done]. assert (forall i, all_below i cs) as Hall.
    { intros i. apply Forall_forall. intros d Hd. destruct d; try done; exfalso; apply He, Exists_exists; eexists; (split; [exact Hd|done]). }
    destruct (slen c) as [m|] eqn:Em; [|by destruct c]. exists m. intros i. unfold all_below. rewrite Forall_cons, Em. cbn.
    specialize (Hall i). unfold all_below in Hall. tauto.
Qed.

Lemma all_upto_le cs n i : (forall i, all_below i cs <-> (i < n)%nat) -> (i <= n)%nat -> all_upto i cs.
Proof.
  intros Hn Hi. destruct i as [|i]; [|apply all_below_upto, Hn; lia].
  apply Forall_forall. intros c _. destruct (slen c); cbn; [lia|done].
Qed.

Lemma forall_wf_keys cs : Forall wf_coll cs -> Forall wf_keys cs.
Proof. intros H. eapply Forall_impl; [exact H|]. apply wf_wf_keys. Qed.

Lemma agree_forall_wf_keys D cs cs' : Forall2 (agree D) cs cs' -> Forall wf_keys cs -> Forall wf_keys cs'.
Proof. induction 1 as [|c c' cs cs' H _ IH]; [done|]. intros Hw. inversion_clear Hw. constructor; [by eapply agree_wf_keys|auto]. Qed.

Lemma agree_upto D cs cs' i : Forall2 (agree D) cs cs' -> all_upto i cs -> all_upto i cs'.
Proof. unfold all_upto. induction 1 as [|c c' cs cs' H _ IH]; [done|]. rewrite !Forall_cons, (agree_len _ _ _ H). naive_solver. Qed.

Lemma multi_yields h as_ cs : Forall2 (fun a c => h !! a = Some c) as_ cs -> Forall wf_coll cs ->
  Forall (fun c => is_sequence c = true) cs -> Exists finite_coll cs ->
  exists out, src_start 0 h (MultiSeq as_) = Val (FSeqs (map fip_of cs), StSeq (map (fun c => pos_state c 0) cs)) /\
    yields 0 h as_ (MultiSeq as_) (FSeqs (map fip_of cs)) [] (StSeq (map (fun c => pos_state c 0) cs)) (vec_values out) /\ visits cs out.
Proof.
  intros Ha Hwf Hs Hfin. destruct (min_len cs Hfin) as [n Hn].
  assert (Hne : cs <> []) by (intros ->; by inversion Hfin).
  destruct (tabulate (fun i => match aligned cs (KInt (Z.of_nat i)) with Some vs => Some (KInt (Z.of_nat i), vs) | None => None end) n) as (out & Hl & Ho).
  { intros i. rewrite <- Hn, (below_aligned cs i Hs). destruct (aligned cs _); split; intros [? H]; solve [done|by eexists]. }
  exists out. pose proof (all_val _ _ _ Ha) as Hall.
  split. { cbn. rewrite Hall. cbn. do 3 f_equal. rewrite map_map. apply map_ext. intros. apply fip_init. }
  assert (Hidx : forall i k vs, out !! i = Some (k, vs) -> k = KInt (Z.of_nat i) /\ aligned cs k = Some vs).
  { intros i k vs H. rewrite Ho in H. destruct (aligned cs _) eqn:E; [|done]. by injection H as <- <-. }
  assert (Hnd : NoDup out.*1).
  { apply NoDup_alt. intros i j k H1 H2. apply list_lookup_fmap_Some in H1 as ([k1 v1] & H1 & ->).
    apply list_lookup_fmap_Some in H2 as ([k2 v2] & H2 & E). cbn in E. subst k2.
    destruct (Hidx _ _ _ H1) as [-> _], (Hidx _ _ _ H2) as [E _]. injection E. lia. }
  assert (Hsim : forall D h', similar as_ h D h' -> exists cs', all_ h' as_ = Val cs' /\ Forall2 (agree D) cs cs' /\ Forall wf_keys cs' /\
     Forall (fun c => is_sequence c = true) cs').
  { intros D h' H. destruct (similar_all _ _ _ _ _ _ H ltac:(done) Ha) as (cs' & H1 & H2). exists cs'. split; [done|]. split; [done|]. split.
    - eapply agree_forall_wf_keys; [done|]. by apply forall_wf_keys.
    - by eapply agree_all_seq. }
  split.
  - rewrite <- (drop_0 (vec_values out)). change (@nil (key * value)) with (reverse (take 0 (vec_values out))).
    apply (yields_pos 0 h as_ (MultiSeq as_) (FSeqs (map fip_of cs)) (fun i => StSeq (map (fun c => pos_state c i) cs)) (vec_values out)); [..|lia].
    + unfold vec_values. rewrite <- list_fmap_compose. exact Hnd.
    + unfold vec_values at 1. intros i h' Hi Hh. rewrite map_length, Hl in *. destruct (Hsim _ _ Hh) as (cs' & Hall' & Hag & Hwk & Hsq).
      cbn. rewrite Hall'. cbn. rewrite <- (agree_map_fip _ _ _ Hag), <- (agree_map_pos _ _ _ _ Hag). rewrite multi_fin; [|done|].
      2:{ eapply agree_upto; [done|]. by eapply all_upto_le. }
      f_equal. apply bool_decide_ext. rewrite (agree_below _ _ _ _ Hag), Hn. unfold vec_values. rewrite map_length. lia.
    + intros i k v h' Hi Hh Hk. unfold vec_values in Hi. apply list_lookup_fmap_Some in Hi as ([k' vs] & Hi & [= -> ->]).
      destruct (Hsim _ _ Hh) as (cs' & Hall' & Hag & Hwk & Hsq). destruct (Hidx _ _ _ Hi) as [-> E]. cbn [fst] in Hk.
      pose proof (agree_aligned _ _ _ _ Hag Hk) as E'. rewrite E in E'.
      cbn. rewrite Hall'. cbn. rewrite <- (agree_map_fip _ _ _ Hag), <- (agree_map_pos _ _ _ _ Hag).
      rewrite (multi_elt _ _ _ Hsq E'). cbn. split; [done|].
      destruct cs' as [|c cs']; [by inversion Hag; subst|]. cbn. unfold aligned in E'. cbn in E'. destruct (value_at c _) as [v|] eqn:Ev; [|done].
      inversion_clear Hwk. inversion_clear Hsq. eapply (pos_key c i _ v); [done|]. unfold entry_at. destruct c; try done; by rewrite Ev.
    + intros i k v h' fuel Hi Hh _. unfold vec_values in Hi. apply list_lookup_fmap_Some in Hi as ([k' vs] & Hi & [= -> ->]).
      pose proof (lookup_lt_Some _ _ _ Hi) as Hlt. rewrite Hl in Hlt. destruct (Hsim _ _ Hh) as (cs' & Hall' & Hag & Hwk & Hsq).
      cbn. rewrite Hall'. cbn. rewrite <- (agree_map_fip _ _ _ Hag), <- !(agree_map_pos _ _ _ _ Hag).
      rewrite multi_next; [done|]. rewrite (agree_below _ _ _ _ Hag). by apply Hn.
  - apply visits_of_table; [done| |].
    + intros k vs. split.
      * intros [i Hi]%elem_of_list_lookup. by destruct (Hidx _ _ _ Hi).
      * intros H. destruct (aligned_below cs k vs) as (i & -> & Hb); [done..|]. apply (elem_of_list_lookup_2 _ i). by rewrite Ho, H.
    + intros _ i k vs H. by destruct (Hidx _ _ _ H).
Qed.
