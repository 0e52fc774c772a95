(** Proofs about t-lists. *)
From Verif Require Import Base ListModel ListSpec ListProofs ListCopyProofs TlModel TlSpec.
From Coq Require Import ZifyBool ZifyNat.
Open Scope Z_scope.

Lemma last_of_snoc cs c : last_of (cs ++ [c]) = OList c.
Proof. unfold last_of. by rewrite foldl_app. Qed.
Lemma last_of_nil : last_of [] = nil.
Proof. done. Qed.
Lemma last_of_app cs ds : ds <> [] -> last_of (cs ++ ds) = last_of ds.
Proof.
  destruct ds as [|d ds _] using rev_ind; [done|]. intros _. by rewrite app_assoc, !last_of_snoc.
Qed.
Lemma last_of_cons c cs : cs <> [] -> last_of (c :: cs) = last_of cs.
Proof. intros H. by apply (last_of_app [c]). Qed.

Lemma tl_empty h t cs : tl h t [] cs -> t = no_pairs /\ cs = [].
Proof.
  destruct t as [f l]. intros [H1 H2]. cbn [first_pair last_pair] in *. unfold lst in H1. seg_inv H1. done.
Qed.
Lemma tl_no_pairs h : tl h no_pairs [] [].
Proof. done. Qed.
Lemma tl_cons h t x xs cs : tl h t (x :: xs) cs -> is_empty t = false /\
  exists c cs' u, cs = c :: cs' /\ first_pair t = OList c /\ c <> 0%nat /\ h !! c = Some (x, u) /\ seg h u xs cs' nil.
Proof.
  destruct t as [f l]. intros [H1 H2]. cbn [first_pair last_pair] in *. unfold lst in H1. seg_inv H1. split; [unfold is_empty; cbn; by apply is_nil_S|].
  exists c, cs, t. done.
Qed.
(** The last pair. *)
Lemma tl_snoc h t xs x cs : tl h t (xs ++ [x]) cs -> is_empty t = false /\
  exists c cs', cs = cs' ++ [c] /\ last_pair t = OList c /\ c <> 0%nat /\ h !! c = Some (x, nil) /\ length xs = length cs' /\
    seg h (first_pair t) xs cs' (OList c).
Proof.
  intros H. assert (is_empty t = false) as He. { destruct xs as [|y xs]; by apply tl_cons in H as [? _]. } split; [done|].
  destruct H as [H1 H2]. unfold lst in H1. pose proof (seg_length _ _ _ _ _ H1) as Hl. rewrite app_length in Hl. cbn in Hl.
  destruct cs as [|c cs _] using rev_ind; [cbn in Hl; lia|]. rewrite app_length in Hl. cbn in Hl.
  apply seg_split in H1 as (m & H3 & H4); [|lia]. cbn in H4. destruct H4 as (-> & Hc & u & Hu & ->).
  exists c, cs. rewrite last_of_snoc in H2. repeat split; [done..|lia|done].
Qed.
Lemma tl_nodup h t xs cs : tl h t xs cs -> NoDup cs.
Proof. intros [H _]. eapply (seg_nodup _ _ _ _ nil); [done|exact H]. Qed.
Lemma tl_length h t xs cs : tl h t xs cs -> length xs = length cs.
Proof. intros [H _]. eapply seg_length; exact H. Qed.
Lemma tl_in h t xs cs a : tl h t xs cs -> a ∈ cs -> a <> 0%nat /\ (a < length h)%nat.
Proof. intros [H _]. eapply seg_in; exact H. Qed.
Lemma tl_is_empty h t xs cs : tl h t xs cs -> is_empty t = match xs with [] => true | _ => false end.
Proof. intros H. destruct xs; [by apply tl_empty in H as [-> _]|]. by apply tl_cons in H as [? _]. Qed.

Lemma only_cells_refl cs h : only_cells cs h h.
Proof. split; [lia|]. done. Qed.
Lemma only_cells_trans cs h1 h2 h3 : only_cells cs h1 h2 -> only_cells cs h2 h3 -> only_cells cs h1 h3.
Proof. intros [L1 A1] [L2 A2]. split; [lia|]. intros a Ha Hn. rewrite A2 by (done || lia). by apply A1. Qed.
Lemma only_cells_trans_new cs ds h1 h2 h3 : new_cells h1 ds ->
  only_cells cs h1 h2 -> only_cells (cs ++ ds) h2 h3 -> only_cells cs h1 h3.
Proof.
  intros Hd [L1 A1] [L2 A2]. split; [lia|]. intros a Ha Hn. rewrite A2; [by apply A1|lia|].
  rewrite elem_of_app. intros [?|Hin]; [done|]. apply Hd in Hin. lia.
Qed.
Lemma only_cells_sub cs ds h h' : cs ⊆ ds -> only_cells cs h h' -> only_cells ds h h'.
Proof. intros Hs [L A]. split; [done|]. intros a Ha Hn. apply A; [done|]. intros Hin. by apply Hn, Hs. Qed.
Lemma only_cells_seg cs ds h h' o xs e : only_cells cs h h' -> disj cs ds -> seg h o xs ds e -> seg h' o xs ds e.
Proof.
  intros [_ A] Hd H. eapply seg_mono; [|exact H]. intros a Ha. apply A; [eapply seg_in; eauto|]. intros Hin. by apply (Hd a).
Qed.
Lemma only_cells_tl cs ds h h' t xs : only_cells cs h h' -> disj cs ds -> tl h t xs ds -> tl h' t xs ds.
Proof. intros H1 H2 [H3 H4]. split; [|done]. by eapply only_cells_seg. Qed.
Lemma only_cells_alloc h x : only_cells [] h (h ++ [x]).
Proof. split; [rewrite app_length; lia|]. intros a Ha _. by rewrite lookup_app_l. Qed.
Lemma only_cells_insert c x h : only_cells [c] h (<[c := x]> h).
Proof. split; [by rewrite insert_length|]. intros a Ha Hn. apply list_lookup_insert_ne. intros ->. apply Hn. by left. Qed.
Lemma only_cells_0 cs h h' : only_cells cs h h' -> 0%nat ∉ cs -> h !! 0%nat <> None -> h' !! 0%nat <> None.
Proof. intros [L A] H H0. rewrite A; [done| |done]. apply not_eq_None_Some in H0. by apply lookup_lt_is_Some in H0. Qed.
Lemma only_cells_unchanged h h' : only_cells [] h h' <-> unchanged h h'.
Proof.
  split.
  - intros [L A]. exists (drop (length h) h'). apply list_eq. intros i. destruct (decide (i < length h)%nat) as [Hi|Hi].
    + rewrite lookup_app_l by done. apply A; [done|]. apply not_elem_of_nil.
    + rewrite lookup_app_r, lookup_drop by lia. f_equal. lia.
  - intros [n ->]. split; [rewrite app_length; lia|]. intros a Ha _. by rewrite lookup_app_l.
Qed.
Lemma tl_not_0 h t xs cs : tl h t xs cs -> 0%nat ∉ cs.
Proof. intros H Hin. eapply tl_in in Hin as [? _]; [|done]. done. Qed.

(** *** The ends *)
Lemma push_ok h t xs cs x : h !! 0%nat <> None -> tl h t xs cs ->
  exists t' c h', push h t x = (t', h') /\ tl h' t' (x :: xs) (c :: cs) /\ only_cells [] h h' /\ new_cells h [c].
Proof.
  intros H0 H. unfold push. rewrite (tl_is_empty _ _ _ _ H). assert (length h <> 0%nat) as Hz by (destruct h; done).
  assert (new_cells h [length h]) as Hnew by (intros a ->%elem_of_list_singleton; done).
  destruct xs as [|y xs].
  - apply tl_empty in H as [-> ->]. eexists _, (length h), _. split; [done|]. split; [|split; [apply only_cells_alloc|done]].
    split; [|done]. by apply (pair_seg h x nil [] [] nil).
  - pose proof (tl_length _ _ _ _ H) as Hll. destruct H as [H1 H2]. eexists _, (length h), _. split; [done|].
    split; [|split; [apply only_cells_alloc|done]]. split; [by apply pair_seg|]. cbn [last_pair]. rewrite last_of_cons; [done|]. by destruct cs.
Qed.
Lemma push_last_ok h t xs cs x : h !! 0%nat <> None -> tl h t xs cs ->
  exists t' c h', push_last h t x = Val (t', h') /\ tl h' t' (xs ++ [x]) (cs ++ [c]) /\ only_cells cs h h' /\ new_cells h [c].
Proof.
  intros H0 H. unfold push_last. rewrite (tl_is_empty _ _ _ _ H). assert (length h <> 0%nat) as Hz by (destruct h; done).
  assert (new_cells h [length h]) as Hnew by (intros a ->%elem_of_list_singleton; done).
  destruct xs as [|y xs _] using rev_ind.
  - apply tl_empty in H as [-> ->]. eexists _, (length h), _. split; [done|]. split; [|split; [apply only_cells_alloc|done]].
    split; [|done]. by apply (pair_seg h x nil [] [] nil).
  - pose proof (tl_nodup _ _ _ _ H) as Hn. apply tl_snoc in H as (_ & c & cs' & -> & Hlp & Hc & Hh & Hlen & Hs).
    destruct (xs ++ [y]) as [|z zs] eqn:E; [by destruct xs|]. rewrite <- E. clear E z zs.
    rewrite Hlp, (tail_val _ _ _ _ Hh). cbn [obind pair].
    assert (c < length h)%nat as Hlt by (by apply lookup_lt_Some in Hh).
    rewrite (set_tail_val _ c y nil) by (by rewrite lookup_app_l). cbn.
    eexists _, (length h), _. split; [done|]. split; [|split; [|done]].
    + split; [|cbn; by rewrite last_of_snoc]. cbn. unfold lst. eapply seg_app.
      * apply (seg_redirect _ _ _ _ y c nil _ Hn); [|done]. eapply seg_app; [by apply seg_alloc|].
        apply (seg_cons _ _ _ nil); [done|by rewrite lookup_app_l|done].
      * apply (seg_cons _ _ _ nil); [done| |done]. rewrite list_lookup_insert_ne by lia. by rewrite lookup_app_r, Nat.sub_diag.
    + eapply only_cells_trans; [eapply only_cells_sub; [|apply only_cells_alloc]; apply list_subseteq_nil|].
      eapply only_cells_sub; [|apply only_cells_insert]. intros a ->%elem_of_list_singleton. apply elem_of_app. right. by left.
Qed.
Lemma pop_ok h t xs cs : tl h t xs cs ->
  match xs with
  | [] => pop h t = Signal "pop from an empty <t-list>"
  | x :: xs' => exists t' cs', pop h t = Val (x, t') /\ tl h t' xs' cs' /\ cs' = drop 1 cs
  end.
Proof.
  intros H. unfold pop. rewrite (tl_is_empty _ _ _ _ H). destruct xs as [|x xs]; [done|].
  pose proof (tl_nodup _ _ _ _ H) as Hn. pose proof (proj2 H) as Hlp.
  apply tl_cons in H as (_ & c & cs' & u & -> & Hf & Hc & Hh & Hs). rewrite Hf, (head_val _ _ _ _ Hh), Hlp. cbn [obind].
  pose proof (seg_length _ _ _ _ _ Hs) as Hl.
  destruct cs' as [|d cs' _] using rev_ind.
  - destruct xs; [|done]. unfold same. cbn. rewrite bool_decide_true by done. exists no_pairs, []. done.
  - rewrite app_length in Hl. change (c :: cs' ++ [d]) with ((c :: cs') ++ [d]) in *. rewrite last_of_snoc in *. unfold same.
    rewrite bool_decide_false.
    2:{ intros [= ->]. apply NoDup_cons in Hn as [Hn _]. apply Hn. apply elem_of_app. right. by left. }
    rewrite (tail_val _ _ _ _ Hh). cbn [obind]. rewrite (check_list_seg _ _ _ _ Hs). cbn [obind].
    eexists _, _. split; [done|]. split; [|cbn; rewrite drop_0; done]. split; [done|]. cbn. by rewrite last_of_snoc.
Qed.
Lemma next_to_last_ok xs x c c' : forall fuel h o cs e,
  seg h o (xs ++ [x]) (cs ++ [c]) (OList c') -> length xs = length cs -> c' ∉ cs ++ [c] -> (length xs < fuel)%nat ->
  e = OList c' -> next_to_last fuel h o e = Val (OList c).
Proof.
  induction xs as [|y xs IH]; intros [|fuel] h o cs e Hs Hl Hn Hf ->; cbn in Hf; try lia.
  - destruct cs; [|done]. cbn in Hs. destruct Hs as (-> & Hc & u & Hu & ->). cbn [next_to_last]. rewrite (tail_val _ _ _ _ Hu).
    cbn. unfold same. by rewrite bool_decide_true.
  - destruct cs as [|d cs]; [done|]. cbn in Hs. destruct Hs as (-> & Hc & u & Hu & Hs). cbn [next_to_last].
    rewrite (tail_val _ _ _ _ Hu). cbn [obind]. unfold same. rewrite bool_decide_false.
    + apply (IH fuel h u cs); [done|cbn in Hl; lia| |lia|done]. cbn in Hn. rewrite not_elem_of_cons in Hn. tauto.
    + intros ->. cbn in Hn. rewrite not_elem_of_cons in Hn. destruct Hn as [_ Hn]. apply Hn.
      destruct xs as [|z xs], cs as [|d' cs]; cbn in Hl; try lia; cbn in Hs; destruct Hs as ([= ->] & _); by left.
Qed.
Lemma pop_last_ok fuel h t xs cs : tl h t xs cs -> (length xs < fuel)%nat ->
  (xs = [] /\ pop_last fuel h t = Signal "pop-last from an empty <t-list>") \/
  exists xs' x t' cs' c h', xs = xs' ++ [x] /\ cs = cs' ++ [c] /\
    pop_last fuel h t = Val (x, t', h') /\ tl h' t' xs' cs' /\ only_cells cs' h h'.
Proof.
  intros H Hf. unfold pop_last. pose proof (tl_is_empty _ _ _ _ H) as He. destruct xs as [|x xs _] using rev_ind; [left; by rewrite He|right].
  pose proof (tl_nodup _ _ _ _ H) as Hn. apply tl_snoc in H as (Hne & c & cs' & -> & Hlp & Hc & Hh & Hlen & Hs).
  rewrite Hne, Hlp, (head_val _ _ _ _ Hh). cbn [obind]. apply NoDup_app in Hn as (Hn1 & Hn2 & _).
  destruct xs as [|y xs _] using rev_ind.
  - destruct cs'; [|done]. cbn in Hs. rewrite Hs. unfold same. rewrite bool_decide_true by done.
    eexists [], x, _, [], c, h. split; [done|]. split; [done|]. split; [done|]. split; [done|]. apply only_cells_refl.
  - rewrite app_length in Hlen. cbn in Hlen. destruct cs' as [|d cs' _] using rev_ind; [cbn in Hlen; lia|].
    rewrite app_length in Hlen. cbn in Hlen.
    assert (c ∉ cs' ++ [d]) as Hcn. { intros Hin. apply (Hn2 c Hin). by left. }
    unfold same. rewrite bool_decide_false.
    2:{ intros E. rewrite E in Hs. destruct xs as [|z xs], cs' as [|d' cs']; cbn in Hlen; try lia;
        cbn in Hs; destruct Hs as ([= ->] & _); apply Hcn; left. }
    rewrite !app_length in Hf. cbn in Hf.
    rewrite (next_to_last_ok xs y d c fuel h (first_pair t) cs') by (done || lia). cbn [obind].
    pose proof Hs as Hs'. apply seg_split in Hs' as (m & H3 & H4); [|lia]. cbn in H4. destruct H4 as (-> & Hd & u & Hu & ->).
    rewrite (set_tail_val _ _ _ _ _ Hu). cbn [obind].
    eexists (xs ++ [y]), x, _, (cs' ++ [d]), c, _. split; [done|]. split; [done|]. split; [done|]. split.
    + split; [|cbn; by rewrite last_of_snoc]. cbn. eapply seg_redirect; [done|exact Hs|lia].
    + eapply only_cells_sub; [|apply only_cells_insert]. intros a ->%elem_of_list_singleton. apply elem_of_app. right. by left.
Qed.

(** *** Copies *)
(** From an old heap [h0]: the new t-list is made of new pairs, and nothing old has changed. *)
Lemma push_last_fresh h0 h t ys ds x : h0 !! 0%nat <> None -> only_cells [] h0 h -> new_cells h0 ds -> tl h t ys ds ->
  exists t' c h', push_last h t x = Val (t', h') /\ tl h' t' (ys ++ [x]) (ds ++ [c]) /\ only_cells [] h0 h' /\
    new_cells h0 (ds ++ [c]) /\ only_cells ds h h'.
Proof.
  intros H0 Hu Hd Ht. destruct (push_last_ok h t ys ds x) as (t' & c & h' & E & Ht' & Hu' & Hc); [|done|].
  { eapply only_cells_0; [done|apply not_elem_of_nil|done]. }
  exists t', c, h'. split; [done|]. split; [done|]. split; [|split; [|done]].
  - eapply (only_cells_trans_new [] ds); [done|done|done].
  - intros a [Ha| ->%elem_of_list_singleton]%elem_of_app; [by apply Hd|]. specialize (Hc c (elem_of_list_here _ _)). destruct Hu. lia.
Qed.
Lemma copy_loop_ok xs : forall fuel h0 h s cs new ys ds, h0 !! 0%nat <> None -> only_cells [] h0 h -> new_cells h0 ds ->
  tl h new ys ds -> seg h0 s xs cs nil -> (length xs < fuel)%nat ->
  exists t' es h', copy_loop fuel h s new = Val (t', h') /\ tl h' t' (ys ++ xs) es /\ only_cells [] h0 h' /\ new_cells h0 es.
Proof.
  induction xs as [|x xs IH]; intros [|fuel] h0 h s cs new ys ds H0 Hu Hd Ht Hs Hf; cbn in Hf; try lia; cbn [copy_loop].
  - seg_inv Hs. cbn. exists new, ds, h. by rewrite app_nil_r.
  - seg_inv Hs. unfold finished_state. rewrite is_nil_S by done. assert (c < length h0)%nat as Hlt by (by apply lookup_lt_Some in Ht0).
    assert (h !! c = Some (x, t)) as Hh. { destruct Hu as [_ A]. rewrite A by (done || apply not_elem_of_nil). done. }
    unfold current_element, next_state. rewrite (head_val _ _ _ _ Hh). cbn [obind].
    destruct (push_last_fresh h0 h new ys ds x) as (t' & c' & h' & -> & Ht' & Hu' & Hd' & _); [done..|]. cbn [obind].
    assert (h' !! c = Some (x, t)) as Hh'. { destruct Hu' as [_ A]. rewrite A by (done || apply not_elem_of_nil). done. }
    rewrite (tail_val _ _ _ _ Hh'). cbn [obind]. rewrite (check_list_seg _ _ _ _ Hs). cbn [obind].
    destruct (IH fuel h0 h' t cs t' (ys ++ [x]) (ds ++ [c'])) as (t2 & es & h2 & E & H2); [done..|lia|].
    exists t2, es, h2. split; [done|]. by rewrite <- app_assoc in H2.
Qed.
Lemma of_elements_ok xs : forall h0 h t ys ds, h0 !! 0%nat <> None -> only_cells [] h0 h -> new_cells h0 ds -> tl h t ys ds ->
  exists t' es h', of_elements h xs t = Val (t', h') /\ tl h' t' (ys ++ xs) es /\ only_cells [] h0 h' /\ new_cells h0 es.
Proof.
  induction xs as [|x xs IH]; intros h0 h t ys ds H0 Hu Hd Ht; cbn [of_elements].
  - exists t, ds, h. by rewrite app_nil_r.
  - destruct (push_last_fresh h0 h t ys ds x) as (t' & c' & h' & -> & Ht' & Hu' & Hd' & _); [done..|]. cbn [obind].
    destruct (IH h0 h' t' (ys ++ [x]) (ds ++ [c'])) as (t2 & es & h2 & E & H2); [done..|].
    exists t2, es, h2. split; [done|]. by rewrite <- app_assoc in H2.
Qed.
Lemma fill_tl_elements n : forall h t x, fill_tl n h t x = of_elements h (replicate n x) t.
Proof. induction n as [|n IH]; intros h t x; [done|]. cbn. destruct (push_last h t x) as [[t' h']| | |]; [|done..]. apply IH. Qed.
Lemma new_cells_nil h : new_cells h [].
Proof. intros a H. by apply not_elem_of_nil in H. Qed.

(** *** Joining *)
Lemma append_ok h t1 t2 xs ys cs ds : tl h t1 xs cs -> tl h t2 ys ds -> disj cs ds ->
  exists t h', append_bang h t1 t2 = Val (t, h') /\ tl h' t (xs ++ ys) (cs ++ ds) /\ only_cells cs h h' /\ length h' = length h /\ tl h' t2 ys ds.
Proof.
  intros H1 H2 Hd. unfold append_bang. rewrite (tl_is_empty _ _ _ _ H1), (tl_is_empty _ _ _ _ H2). destruct ys as [|y ys].
  { pose proof H2 as H2'. apply tl_empty in H2' as [_ ->]. exists t1, h. rewrite !app_nil_r. split; [done|]. split; [done|]. split; [apply only_cells_refl|done]. }
  assert (ds <> []) as Hds. { apply tl_length in H2. by destruct ds. }
  destruct xs as [|x xs _] using rev_ind.
  { apply tl_empty in H1 as [-> ->]. exists t2, h. split; [by destruct t2|]. split; [done|]. split; [apply only_cells_refl|done]. }
  pose proof (tl_nodup _ _ _ _ H1) as Hn. pose proof (proj1 H1) as Hl1.
  apply tl_snoc in H1 as (_ & c & cs' & -> & Hlp & Hc & Hh & Hlen & Hs).
  destruct (xs ++ [x]) as [|z zs] eqn:E; [by destruct xs|]. rewrite <- E. rewrite <- E in Hl1. clear E z zs.
  rewrite Hlp, (set_tail_val _ _ _ _ _ Hh). cbn [obind].
  assert (only_cells (cs' ++ [c]) h (<[c:=(x, first_pair t2)]> h)) as Hoc.
  { eapply only_cells_sub; [|apply only_cells_insert]. intros a ->%elem_of_list_singleton. apply elem_of_app. right. by left. }
  assert (tl (<[c:=(x, first_pair t2)]> h) t2 (y :: ys) ds) as H2'. { by eapply only_cells_tl. }
  eexists _, _. split; [done|]. split; [|split; [done|split; [by rewrite insert_length|done]]].
  split; cbn [first_pair last_pair].
  - unfold lst. eapply seg_app; [|apply H2']. by eapply seg_redirect.
  - rewrite last_of_app by done. apply H2.
Qed.
Lemma last_pair_loop_ok xs : forall fuel h o x cs, seg h o (x :: xs) cs nil -> (length xs < fuel)%nat -> last_pair_loop fuel h o = Val (last_of cs).
Proof.
  induction xs as [|y xs IH]; intros [|fuel] h o x cs Hs Hf; cbn in Hf; try lia; seg_inv Hs; cbn [last_pair_loop]; rewrite (tail_val _ _ _ _ Ht); cbn [obind].
  - destruct cs; [|done]. by subst.
  - destruct cs as [|c0 cs]; [done|]. pose proof Hs as (-> & Hc0 & _). rewrite is_nil_S by done. rewrite (IH fuel h _ y (c0 :: cs)) by (done || lia). by rewrite (last_of_cons c).
Qed.
Lemma check_last_of cs : check_list (last_of cs) = Val (last_of cs).
Proof. destruct cs as [|c cs _] using rev_ind; [done|]. by rewrite last_of_snoc. Qed.
Lemma of_list_ok fuel h l xs cs : h !! 0%nat = Some (nil, nil) -> lst h l xs cs -> (length xs < fuel)%nat ->
  exists t, of_list fuel h l = Val t /\ tl h t xs cs /\ to_list t = l.
Proof.
  intros H0 Hs Hf. unfold of_list. destruct xs as [|x xs].
  - unfold lst in Hs. seg_inv Hs. destruct fuel as [|fuel]; [cbn in Hf; lia|]. cbn [last_pair_loop]. unfold nil at 1.
    rewrite (tail_val _ _ _ _ H0). exists no_pairs. done.
  - rewrite (last_pair_loop_ok xs fuel h l x cs) by (done || (cbn in Hf; lia)). cbn [obind]. rewrite check_last_of. cbn.
    eexists. split; [done|]. done.
Qed.

Lemma contents_stable cs h h' s xs ds : only_cells cs h h' -> disj cs ds -> contents h s xs ds -> contents h' s xs ds.
Proof.
  intros H1 H2. destruct s as [t|l|ys]; cbn; [by eapply only_cells_tl|by eapply only_cells_seg|done].
Qed.
Lemma disj_concat cs ds css : disj cs (concat (ds :: css)) -> disj cs ds /\ disj cs (concat css).
Proof. intros H. cbn in H. split; intros a H1 H2; apply (H a H1), elem_of_app; tauto. Qed.
Lemma all_contents_stable cs h h' ss xss css : only_cells cs h h' -> disj cs (concat css) -> all_contents h ss xss css -> all_contents h' ss xss css.
Proof.
  intros H1 H2 H3. induction H3 as [|s xs ds ss xss css Hs H IH]; [constructor|]. apply disj_concat in H2 as [H2 H4].
  constructor; [by eapply contents_stable|by apply IH].
Qed.
Lemma contents_bound h s xs cs a : contents h s xs cs -> a ∈ cs -> (a < length h)%nat.
Proof.
  destruct s as [t|l|ys]; cbn; [intros H Hin; by eapply tl_in in Hin as [_ ?]|intros H Hin; by eapply seg_in in Hin as [_ ?]|].
  intros [_ ->] H. by apply not_elem_of_nil in H.
Qed.
Lemma all_contents_bound h ss xss css a : all_contents h ss xss css -> a ∈ concat css -> (a < length h)%nat.
Proof.
  intros H. induction H as [|s xs ds ss xss css Hs H IH]; cbn; [intros Hin; by apply not_elem_of_nil in Hin|].
  intros [Hin|Hin]%elem_of_app; [by eapply contents_bound|by apply IH].
Qed.
Lemma as_t_list_ok fuel h s xs cs : h !! 0%nat = Some (nil, nil) -> contents h s xs cs -> (length xs < fuel)%nat ->
  exists t ds h', as_t_list fuel h s = Val (t, h') /\ tl h' t xs (cs ++ ds) /\ only_cells [] h h' /\ new_cells h ds.
Proof.
  intros H0 Hs Hf. destruct s as [t|l|ys]; cbn [as_t_list contents] in *.
  - exists t, [], h. rewrite app_nil_r. split; [done|]. split; [done|]. split; [apply only_cells_refl|apply new_cells_nil].
  - destruct (of_list_ok fuel h l xs cs) as (t & -> & Ht & _); [done|done|done|].
    cbn [obind]. exists t, [], h. rewrite app_nil_r. split; [done|]. split; [done|]. split; [apply only_cells_refl|apply new_cells_nil].
  - destruct Hs as [-> ->]. destruct (of_elements_ok ys h h no_pairs [] []) as (t & es & h' & E & H); [congruence|apply only_cells_refl|apply new_cells_nil|done|].
    exists t, es, h'. done.
Qed.
Lemma concatenate_ok more : forall fuel h t xs cs xss css, h !! 0%nat = Some (nil, nil) -> tl h t xs cs -> all_contents h more xss css ->
  disj cs (concat css) -> NoDup (concat css) -> (length (concat xss) < fuel)%nat ->
  exists t' es h', concatenate_tl fuel h t more = Val (t', h') /\ tl h' t' (xs ++ concat xss) es /\ only_cells (cs ++ concat css) h h'.
Proof.
  induction more as [|s more IH]; intros fuel h t xs cs xss css H0 Ht Hm Hd Hn Hf; inversion Hm as [|? ys ds ? yss dss Hs Hm']; subst; cbn [concatenate_tl].
  - exists t, cs, h. cbn. rewrite !app_nil_r. split; [done|]. split; [done|]. apply only_cells_refl.
  - apply disj_concat in Hd as [Hd1 Hd2]. cbn in Hn, Hf. rewrite app_length in Hf. apply NoDup_app in Hn as (Hn1 & Hn2 & Hn3).
    destruct (as_t_list_ok fuel h s ys ds) as (t2 & es & h' & -> & Ht2 & Hu & Hes); [done|done|lia|]. cbn [obind].
    assert (tl h' t xs cs) as Ht'. { eapply only_cells_tl; [done| |done]. intros a Ha. by apply not_elem_of_nil in Ha. }
    assert (disj cs (ds ++ es)) as Hde.
    { intros a Ha [Hb|Hb]%elem_of_app; [by eapply Hd1|]. eapply tl_in in Ha as [_ Ha]; [|exact Ht]. apply Hes in Hb. lia. }
    destruct (append_ok h' t t2 xs ys cs (ds ++ es)) as (t3 & h3 & -> & Ht3 & Hu3 & Hl3 & _); [done..|]. cbn [obind].
    assert (only_cells cs h h3) as Hc. { eapply only_cells_trans; [|done]. eapply only_cells_sub; [|done]. apply list_subseteq_nil. }
    assert (0 < length h)%nat as Hpos by (by apply lookup_lt_Some in H0).
    edestruct (IH fuel h3 t3 (xs ++ ys) (cs ++ ds ++ es) yss dss) as (t' & fs & h4 & E & Ht4 & Hu4).
    + destruct Hc as [_ A]. rewrite A; [done|lia|by eapply tl_not_0].
    + done.
    + eapply all_contents_stable; [exact Hc|done|done].
    + intros a [Ha|[Ha|Ha]%elem_of_app]%elem_of_app Hb; [by eapply Hd2|by eapply Hn2|]. apply Hes in Ha. eapply all_contents_bound in Hb; [|exact Hm']. lia.
    + done.
    + lia.
    + exists t', fs, h4. split; [done|]. cbn. rewrite app_assoc. split; [done|].
      destruct Hc as [L3 A3]. destruct Hu4 as [L4 A4]. split; [lia|]. intros a Ha Hna. rewrite !not_elem_of_app in Hna. destruct Hna as (Hna1 & Hna2 & Hna3).
      rewrite A4; [by apply A3|lia|]. rewrite !not_elem_of_app. repeat split; try done. intros Hb%Hes. lia.
Qed.

(** *** Elements *)
Lemma size_ok fuel h t xs cs : tl h t xs cs -> (length xs < fuel)%nat -> size_tl fuel h t = Val (Z.of_nat (length xs)).
Proof. intros [H _] Hf. unfold size_tl. by rewrite (list_size_proper _ _ _ _ _ H Hf). Qed.

Lemma walk_ok xs : forall fuel h s cs n, seg h s xs cs nil -> (length xs < fuel)%nat ->
  walk fuel h s (Z.of_nat n) =
    if decide (n < length xs)%nat then Val (match cs !! n with Some c => OList c | None => nil end, 0)
    else Val (nil, Z.of_nat (n - length xs)).
Proof.
  induction xs as [|x xs IH]; intros [|fuel] h s cs n Hs Hf; cbn in Hf; try lia; cbn [walk].
  - seg_inv Hs. unfold finished_state. cbn [is_nil nil]. rewrite orb_true_r. cbn. by rewrite Nat.sub_0_r.
  - pose proof (seg_length _ _ _ _ _ Hs) as Hl. seg_inv Hs. unfold finished_state. rewrite is_nil_S by done. rewrite orb_false_r. destruct n as [|n].
    + done.
    + destruct (Z.leb_spec (Z.of_nat (S n)) 0) as [H|H]; [lia|]. unfold next_state. rewrite (tail_val _ _ _ _ Ht). cbn [obind].
      rewrite (check_list_seg _ _ _ _ Hs). cbn [obind]. replace (Z.of_nat (S n) - 1) with (Z.of_nat n) by lia.
      rewrite (IH fuel h t cs n) by (done || lia). cbn [length lookup list_lookup]. destruct (decide (n < length xs)%nat); destruct (decide (S n < S (length xs))%nat); (lia || done).
Qed.
Lemma walk_negative fuel h s n : n < 0 -> (0 < fuel)%nat -> walk fuel h s n = Val (s, n).
Proof. intros H Hf. destruct fuel as [|fuel]; [lia|]. cbn. destruct (Z.leb_spec n 0); [done|lia]. Qed.

Ltac open_seg Hs :=
  cbn in Hs; repeat match type of Hs with
  | _ /\ _ => let H := fresh "Hx" in destruct Hs as [H Hs]
  | exists _, _ => let u := fresh "u" in destruct Hs as [u Hs]
  end.
Ltac cells :=
  repeat first
    [ rewrite is_nil_S by done
    | match goal with H : ?h !! ?c = Some (_, _) |- context[tail ?h (OList ?c)] => rewrite (tail_val _ _ _ _ H) end
    | match goal with H : ?h !! ?c = Some (_, _) |- context[head ?h (OList ?c)] => rewrite (head_val _ _ _ _ H) end
    | progress change (is_nil nil) with true
    | progress cbn [obind] ].
Lemma element_ok fuel h t xs cs i d : tl h t xs cs -> (length xs < fuel)%nat ->
  ~ (3 <= i /\ i = Z.of_nat (length xs)) ->
  element_tl fuel h t i d = match (if 0 <=? i then xs !! Z.to_nat i else None) with Some x => Val x | None => missing d end.
Proof.
  intros Ht Hf Hi. unfold element_tl. pose proof (tl_length _ _ _ _ Ht) as Hl.
  destruct t as [f l]. destruct Ht as [Hs _]. unfold lst in Hs. cbn [first_pair initial_state] in *. unfold is_empty. cbn [first_pair].
  destruct (Z.eqb_spec i 0) as [->|Hi0].
  { destruct xs as [|x xs], cs as [|c cs]; try done; open_seg Hs; subst; cells; done. }
  destruct (Z.eqb_spec i 1) as [->|Hi1].
  { destruct xs as [|x [|y xs]], cs as [|c [|c1 cs]]; try done; open_seg Hs; subst; cells; done. }
  destruct (Z.eqb_spec i 2) as [->|Hi2].
  { destruct xs as [|x [|y [|z xs]]], cs as [|c [|c1 [|c2 cs]]]; try done; open_seg Hs; subst; cells; done. }
  destruct (Z.leb_spec 0 i) as [H|H].
  - replace i with (Z.of_nat (Z.to_nat i)) at 1 by lia. rewrite (walk_ok xs fuel h f cs) by done.
    destruct (decide _) as [Hlt|Hlt]; cbn [obind].
    + destruct (lookup_lt_is_Some_2 xs (Z.to_nat i) Hlt) as [x Hx]. rewrite Hx. destruct (seg_lookup _ _ _ _ _ _ _ Hs Hx) as (c & u & Hc & Hu).
      rewrite Hc. cbn. by rewrite (vread_val _ _ _ Hu).
    + rewrite lookup_ge_None_2 by lia. destruct (Z.eqb_spec (Z.of_nat (Z.to_nat i - length xs)) 0); [lia|done].
  - rewrite walk_negative by lia. cbn. destruct (Z.eqb_spec i 0); [lia|done].
Qed.
Lemma element_at_size fuel h t xs cs d : h !! 0%nat = Some (nil, nil) -> tl h t xs cs -> (length xs < fuel)%nat -> (3 <= length xs)%nat ->
  element_tl fuel h t (Z.of_nat (length xs)) d = Val nil.
Proof.
  intros H0 [Hs _] Hf Hi. unfold element_tl. destruct (Z.eqb_spec (Z.of_nat (length xs)) 0); [lia|]. destruct (Z.eqb_spec (Z.of_nat (length xs)) 1); [lia|].
  destruct (Z.eqb_spec (Z.of_nat (length xs)) 2); [lia|]. unfold initial_state. rewrite (walk_ok xs fuel h _ cs) by done. rewrite decide_False by lia.
  rewrite Nat.sub_diag. cbn. by rewrite (vread_val _ _ _ H0).
Qed.

(** Storing. *)
Lemma set_at h t xs cs i c x u v : tl h t xs cs -> cs !! i = Some c -> h !! c = Some (x, u) ->
  tl (<[c := (v, u)]> h) t (<[i := v]> xs) cs /\ only_cells cs h (<[c := (v, u)]> h).
Proof.
  intros H Hc Hu. split.
  - pose proof (tl_nodup _ _ _ _ H) as Hn. destruct H as [H1 H2]. split; [|done]. by eapply seg_set_head.
  - eapply only_cells_sub; [|apply only_cells_insert]. intros a ->%elem_of_list_singleton. by eapply elem_of_list_lookup_2.
Qed.
(** Where element-setter stores. *)
Lemma element_setter_at fuel h t xs cs i v x c u : tl h t xs cs -> (length xs < fuel)%nat ->
  xs !! i = Some x -> cs !! i = Some c -> h !! c = Some (x, u) ->
  element_setter_tl fuel h v t (Z.of_nat i) = Val (<[c := (v, u)]> h).
Proof.
  intros Ht Hf Hx Hc Hu. assert (set_head h (OList c) v = Val (<[c := (v, u)]> h)) as Hset by (by eapply set_head_val).
  unfold element_setter_tl. pose proof (tl_length _ _ _ _ Ht) as Hl.
  destruct t as [f l]. destruct Ht as [Hs _]. unfold lst in Hs. cbn [first_pair initial_state] in *. unfold is_empty. cbn [first_pair].
  destruct (Z.eqb_spec (Z.of_nat i) 0) as [Hi0|Hi0].
  { assert (i = 0%nat) as -> by lia. destruct xs as [|x' xs], cs as [|c' cs]; try done. injection Hc as ->. open_seg Hs; subst; cells; done. }
  destruct (Z.eqb_spec (Z.of_nat i) 1) as [Hi1|Hi1].
  { assert (i = 1%nat) as -> by lia. destruct xs as [|x' [|y xs]], cs as [|c' [|c1 cs]]; try done. injection Hc as ->. open_seg Hs; subst; cells; done. }
  destruct (Z.eqb_spec (Z.of_nat i) 2) as [Hi2|Hi2].
  { assert (i = 2%nat) as -> by lia. destruct xs as [|x' [|y [|z xs]]], cs as [|c' [|c1 [|c2 cs]]]; try done. injection Hc as ->. open_seg Hs; subst; cells; done. }
  rewrite (walk_ok xs fuel h f cs) by done. rewrite decide_True by (by eapply lookup_lt_Some). cbn [obind]. rewrite Hc. done.
Qed.
Lemma element_setter_bad fuel h t xs cs i v : tl h t xs cs -> (length xs < fuel)%nat -> (i < 0 \/ Z.of_nat (length xs) <= i) ->
  ~ (3 <= i /\ i = Z.of_nat (length xs)) -> element_setter_tl fuel h v t i = no_element.
Proof.
  intros Ht Hf Hi Hn. unfold element_setter_tl. pose proof (tl_length _ _ _ _ Ht) as Hl.
  destruct t as [f l]. destruct Ht as [Hs _]. unfold lst in Hs. cbn [first_pair initial_state] in *. unfold is_empty. cbn [first_pair].
  destruct (Z.eqb_spec i 0) as [->|Hi0].
  { destruct xs as [|x xs], cs as [|c cs]; cbn [length] in Hi; try (done || lia); open_seg Hs; subst; cells; done. }
  destruct (Z.eqb_spec i 1) as [->|Hi1].
  { destruct xs as [|x [|y xs]], cs as [|c [|c1 cs]]; cbn [length] in Hi; try (done || lia); open_seg Hs; subst; cells; done. }
  destruct (Z.eqb_spec i 2) as [->|Hi2].
  { destruct xs as [|x [|y [|z xs]]], cs as [|c [|c1 [|c2 cs]]]; cbn [length] in Hi; try (done || lia); open_seg Hs; subst; cells; done. }
  destruct (Z.leb_spec 0 i) as [H|H].
  - replace i with (Z.of_nat (Z.to_nat i)) at 1 by lia. rewrite (walk_ok xs fuel h f cs) by done. rewrite decide_False by lia. cbn [obind].
    destruct (Z.eqb_spec (Z.of_nat (Z.to_nat i - length xs)) 0); [lia|done].
  - rewrite walk_negative by lia. cbn. destruct (Z.eqb_spec i 0); [lia|done].
Qed.
Lemma element_setter_at_size fuel h t xs cs v : h !! 0%nat = Some (nil, nil) -> tl h t xs cs -> (length xs < fuel)%nat -> (3 <= length xs)%nat ->
  element_setter_tl fuel h v t (Z.of_nat (length xs)) = Val (<[0%nat := (v, nil)]> h).
Proof.
  intros H0 [Hs _] Hf Hi. unfold element_setter_tl. destruct (Z.eqb_spec (Z.of_nat (length xs)) 0); [lia|]. destruct (Z.eqb_spec (Z.of_nat (length xs)) 1); [lia|].
  destruct (Z.eqb_spec (Z.of_nat (length xs)) 2); [lia|]. unfold initial_state. rewrite (walk_ok xs fuel h _ cs) by done. rewrite decide_False by lia.
  rewrite Nat.sub_diag. cbn [obind Z.eqb Z.of_nat]. unfold current_element_setter, nil. by rewrite (set_head_val _ _ _ _ _ H0).
Qed.

Lemma last_ok h t xs cs d : tl h t xs cs -> last_tl h t d = match rev xs with x :: _ => Val x | [] => missing d end.
Proof.
  intros H. unfold last_tl. destruct xs as [|x xs _] using rev_ind.
  - apply tl_empty in H as [-> _]. done.
  - apply tl_snoc in H as (_ & c & cs' & -> & Hlp & Hc & Hh & _). rewrite Hlp, is_nil_S, rev_app_distr by done. cbn. by rewrite (vread_val _ _ _ Hh).
Qed.
Lemma last_setter_ok h t xs cs v : tl h t xs cs ->
  (xs = [] /\ last_setter_tl h v t = no_element) \/
  exists xs' x h', xs = xs' ++ [x] /\ last_setter_tl h v t = Val h' /\ tl h' t (xs' ++ [v]) cs /\ only_cells cs h h'.
Proof.
  intros H. unfold last_setter_tl. destruct xs as [|x xs _] using rev_ind.
  - left. apply tl_empty in H as [-> _]. done.
  - right. pose proof H as H'. apply tl_snoc in H' as (_ & c & cs' & -> & Hlp & Hc & Hh & Hlen & _). rewrite Hlp, is_nil_S by done. cbn [negb].
    rewrite (set_head_val _ _ _ _ _ Hh). exists xs, x, (<[c := (v, nil)]> h). split; [done|]. split; [done|].
    replace (xs ++ [v]) with (<[length xs := v]> (xs ++ [x])) by (rewrite insert_app_r_alt, Nat.sub_diag by done; done).
    eapply set_at; [done| |done]. by rewrite Hlen, lookup_app_r, Nat.sub_diag.
Qed.

Lemma keyed_loop_ok xs : forall fuel h s cs k acc, seg h s xs cs nil -> (length xs < fuel)%nat ->
  keyed_loop fuel h s (k - 1) acc = Val (acc ++ imap (fun i x => (k + Z.of_nat i, x)) xs).
Proof.
  induction xs as [|x xs IH]; intros [|fuel] h s cs k acc Hs Hf; cbn in Hf; try lia; cbn [keyed_loop].
  - seg_inv Hs. cbn. by rewrite app_nil_r.
  - seg_inv Hs. unfold finished_state. rewrite is_nil_S by done. unfold current_element, next_state, current_key. rewrite (head_val _ _ _ _ Ht), (tail_val _ _ _ _ Ht).
    cbn [obind]. rewrite (check_list_seg _ _ _ _ Hs). cbn [obind]. replace (k - 1 + 1) with ((k + 1) - 1) by lia.
    rewrite (IH fuel h t cs (k + 1)) by (done || lia). rewrite <- app_assoc. cbn [imap app]. f_equal. f_equal. f_equal; [f_equal; lia|].
    apply imap_ext. intros i y _. cbn. f_equal. lia.
Qed.

(** *** Histories *)
Lemma perform_ok fuel h t xs cs c : h !! 0%nat = Some (nil, nil) -> tl h t xs cs -> (length xs < fuel)%nat ->
  exists t' cs' h', perform fuel h t c = Val ((answer xs c).1, t', h') /\ tl h' t' (answer xs c).2 cs' /\ only_cells cs h h' /\
    (forall a, a ∈ cs' -> a ∈ cs \/ (length h <= a)%nat).
Proof.
  intros H0 Ht Hf. assert (h !! 0%nat <> None) as Hz by congruence. destruct c; cbn [perform answer].
  - destruct (push_ok h t xs cs x Hz Ht) as (t' & c & h' & -> & Ht' & Hu & Hnew). exists t', (c :: cs), h'. split; [done|]. split; [done|].
    split; [eapply only_cells_sub; [|done]; apply list_subseteq_nil|]. intros a [->|Ha]%elem_of_cons; [right; apply Hnew; left|by left].
  - destruct (push_last_ok h t xs cs x Hz Ht) as (t' & c & h' & -> & Ht' & Hu & Hnew). exists t', (cs ++ [c]), h'. split; [done|]. split; [done|].
    split; [done|]. intros a [Ha|Ha]%elem_of_app; [by left|right; by apply Hnew].
  - pose proof (pop_ok h t xs cs Ht) as H. destruct xs as [|x xs].
    + rewrite H. exists t, cs, h. split; [done|]. split; [done|]. split; [apply only_cells_refl|]. tauto.
    + destruct H as (t' & cs' & -> & Ht' & ->). exists t', (drop 1 cs), h. split; [done|]. split; [done|]. split; [apply only_cells_refl|].
      intros a Ha. left. eapply elem_of_list_lookup in Ha as [i Hi]. rewrite lookup_drop in Hi. by eapply elem_of_list_lookup_2.
  - destruct (pop_last_ok fuel h t xs cs Ht Hf) as [[-> ->]|(xs' & x & t' & cs' & c & h' & -> & -> & -> & Ht' & Hu)].
    + exists t, cs, h. split; [done|]. split; [done|]. split; [apply only_cells_refl|]. tauto.
    + rewrite rev_app_distr. cbn. rewrite rev_involutive. exists t', cs', h'. split; [done|]. split; [done|].
      split; [eapply only_cells_sub; [|done]; intros a Ha; apply elem_of_app; by left|]. intros a Ha. left. apply elem_of_app. by left.
  - rewrite (size_ok fuel h t xs cs) by done. exists t, cs, h. split; [done|]. split; [done|]. split; [apply only_cells_refl|]. tauto.
  - rewrite (element_ok fuel h t xs cs 0 None) by (done || lia). cbn. exists t, cs, h. split; [by destruct xs|]. split; [done|]. split; [apply only_cells_refl|]. tauto.
  - rewrite (last_ok h t xs cs None) by done. exists t, cs, h. split; [by destruct (rev xs)|]. split; [done|]. split; [apply only_cells_refl|]. tauto.
  - destruct (last_setter_ok h t xs cs x Ht) as [[-> ->]|(xs' & y & h' & -> & -> & Ht' & Hu)].
    + exists t, cs, h. split; [done|]. split; [done|]. split; [apply only_cells_refl|]. tauto.
    + rewrite rev_app_distr. cbn. rewrite rev_involutive. exists t, cs, h'. split; [done|]. split; [done|]. split; [done|]. tauto.
Qed.
Lemma answer_length xs c : (length (answer xs c).2 <= S (length xs))%nat.
Proof.
  destruct c; cbn; rewrite ?app_length; cbn; try lia.
  - destruct xs; cbn; lia.
  - destruct (rev xs) eqn:E; cbn; [lia|]. rewrite rev_length. apply (f_equal length) in E. rewrite rev_length in E. cbn in E. lia.
  - destruct (rev xs) eqn:E; cbn; [lia|]. rewrite app_length, rev_length. apply (f_equal length) in E. rewrite rev_length in E. cbn in E. cbn. lia.
Qed.
Lemma perform_all_ok calls : forall fuel h t xs cs, h !! 0%nat = Some (nil, nil) -> tl h t xs cs -> (length xs + length calls < fuel)%nat ->
  exists t' cs' h', perform_all fuel h t calls = Val ((answers xs calls).1, t', h') /\ tl h' t' (answers xs calls).2 cs' /\ only_cells cs h h' /\
    (forall a, a ∈ cs' -> a ∈ cs \/ (length h <= a)%nat).
Proof.
  induction calls as [|c calls IH]; intros fuel h t xs cs H0 Ht Hf; cbn [perform_all answers].
  - exists t, cs, h. split; [done|]. split; [done|]. split; [apply only_cells_refl|]. tauto.
  - cbn in Hf. destruct (perform_ok fuel h t xs cs c) as (t1 & cs1 & h1 & -> & Ht1 & Hu1 & Hc1); [done|done|lia|]. cbn [obind].
    pose proof (answer_length xs c) as Hal. destruct (answer xs c) as [r ys]. cbn [fst snd] in *.
    assert (h1 !! 0%nat = Some (nil, nil)) as H01.
    { destruct Hu1 as [_ A]. rewrite A; [done|by apply lookup_lt_Some in H0|by eapply tl_not_0]. }
    destruct (IH fuel h1 t1 ys cs1) as (t2 & cs2 & h2 & -> & Ht2 & Hu2 & Hc2); [done|done|lia|]. cbn [obind].
    destruct (answers ys calls) as [rs zs]. cbn [fst snd] in *. exists t2, cs2, h2. split; [done|]. split; [done|]. destruct Hu1 as [L1 A1], Hu2 as [L2 A2]. split.
    + split; [lia|]. intros a Ha Hn. rewrite A2; [by apply A1|lia|]. intros Hin. apply Hc1 in Hin as [?|?]; [done|lia].
    + intros a Ha. apply Hc2 in Ha as [Ha|Ha]; [by apply Hc1|right; lia].
Qed.
