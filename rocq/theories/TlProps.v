(** C67: t-lists are sequences that grow and shrink at both ends. *)
From Verif Require Import Base ListModel ListSpec ListProofs ListCopyProofs TlModel TlSpec TlProofs.
From Coq Require Import ZifyBool ZifyNat.
Open Scope Z_scope.

(** A history of calls on one t-list gives the replies that a sequence would give, and changes no other pairs. *)
Theorem C67_history fuel h t xs cs calls : heap_ok h -> tl h t xs cs -> (length xs + length calls < fuel)%nat ->
  exists t' cs' h', perform_all fuel h t calls = Val ((answers xs calls).1, t', h') /\
    tl h' t' (answers xs calls).2 cs' /\ only_cells cs h h' /\ (forall a, a ∈ cs' -> a ∈ cs \/ (length h <= a)%nat).
Proof. intros [H0 _]. by apply perform_all_ok. Qed.
Print Assumptions C67_history.

(** A t-list that shares no pair with the one that is changed keeps its elements. *)
Theorem C67_others fuel h t xs cs t2 ys ds calls : heap_ok h -> tl h t xs cs -> tl h t2 ys ds -> disj cs ds ->
  (length xs + length calls < fuel)%nat ->
  exists rs t' cs' h', perform_all fuel h t calls = Val (rs, t', h') /\ tl h' t2 ys ds /\ disj cs' ds /\ exists zs, tl h' t' zs cs'.
Proof.
  intros Hh H1 H2 Hd Hf. destruct (C67_history fuel h t xs cs calls Hh H1 Hf) as (t' & cs' & h' & E & H3 & H4 & H5).
  eexists _, t', cs', h'. split; [done|]. split; [by eapply only_cells_tl|]. split; [|by eexists].
  intros a Ha Hb. apply H5 in Ha as [Ha|Ha]; [by eapply Hd|]. eapply tl_in in Hb as [_ Hb]; [|exact H2]. lia.
Qed.
Print Assumptions C67_others.

(** push and push-last add one pair; push changes no pair. *)
Theorem C67_push h t xs cs x : heap_ok h -> tl h t xs cs ->
  (exists t' c h', push h t x = (t', h') /\ tl h' t' (x :: xs) (c :: cs) /\ unchanged h h' /\ (length h <= c)%nat) /\
  (exists t' c h', push_last h t x = Val (t', h') /\ tl h' t' (xs ++ [x]) (cs ++ [c]) /\ only_cells cs h h' /\ (length h <= c)%nat).
Proof.
  intros [H0 _] H. assert (h !! 0%nat <> None) as Hz by congruence. split.
  - destruct (push_ok h t xs cs x Hz H) as (t' & c & h' & E & H1 & H2 & H3). exists t', c, h'. split; [done|]. split; [done|].
    split; [by apply only_cells_unchanged|]. apply H3. by left.
  - destruct (push_last_ok h t xs cs x Hz H) as (t' & c & h' & E & H1 & H2 & H3). exists t', c, h'. split; [done|]. split; [done|].
    split; [done|]. apply H3. by left.
Qed.
Print Assumptions C67_push.

(** pop and pop-last take an element from an end; from an empty t-list they signal an error. *)
Theorem C67_pop fuel h t xs cs : tl h t xs cs -> (length xs < fuel)%nat ->
  match xs with
  | [] => exists m1 m2, pop h t = Signal m1 /\ pop_last fuel h t = Signal m2
  | x :: xs' => (exists t', pop h t = Val (x, t') /\ tl h t' xs' (drop 1 cs)) /\
      (exists ys y t' ds d h', xs = ys ++ [y] /\ cs = ds ++ [d] /\ pop_last fuel h t = Val (y, t', h') /\ tl h' t' ys ds /\ only_cells ds h h')
  end.
Proof.
  intros H Hf. pose proof (pop_ok h t xs cs H) as H1. pose proof (pop_last_ok fuel h t xs cs H Hf) as H2. destruct xs as [|x xs].
  - destruct H2 as [[_ H2]|(xs' & x & ? & ? & ? & ? & E & _)]; [by eexists _, _|by destruct xs'].
  - split; [destruct H1 as (t' & cs' & E & H3 & ->); by exists t'|]. destruct H2 as [[? _]|H2]; [done|].
    destruct H2 as (ys & y & t' & ds & d & h' & H2). by exists ys, y, t', ds, d, h'.
Qed.
Print Assumptions C67_pop.

(** make, shallow-copy and as(<t-list>, ...) of other collections make new pairs and change none. *)
Theorem C67_make_copy fuel h t xs cs ys n x : heap_ok h -> tl h t xs cs -> (length xs < fuel)%nat ->
  (exists t' ds h', make_tl h n x = Val (t', h') /\ tl h' t' (replicate (Z.to_nat n) x) ds /\ unchanged h h' /\ new_cells h ds) /\
  (exists t' ds h', shallow_copy fuel h t = Val (t', h') /\ tl h' t' xs ds /\ unchanged h h' /\ new_cells h ds) /\
  (exists t' ds h', of_elements h ys no_pairs = Val (t', h') /\ tl h' t' ys ds /\ unchanged h h' /\ new_cells h ds).
Proof.
  intros [H0 _] H Hf. assert (h !! 0%nat <> None) as Hz by congruence. split; [|split].
  - unfold make_tl. rewrite fill_tl_elements.
    destruct (of_elements_ok (replicate (Z.to_nat n) x) h h no_pairs [] []) as (t' & ds & h' & E & H1 & H2 & H3);
      [done|apply only_cells_refl|apply new_cells_nil|done|]. exists t', ds, h'. split; [done|]. split; [done|]. split; [by apply only_cells_unchanged|done].
  - destruct (copy_loop_ok xs fuel h h (first_pair t) cs no_pairs [] []) as (t' & ds & h' & E & H1 & H2 & H3);
      [done|apply only_cells_refl|apply new_cells_nil|done|apply H|done|]. exists t', ds, h'. split; [done|]. split; [done|]. split; [by apply only_cells_unchanged|done].
  - destruct (of_elements_ok ys h h no_pairs [] []) as (t' & ds & h' & E & H1 & H2 & H3);
      [done|apply only_cells_refl|apply new_cells_nil|done|]. exists t', ds, h'. split; [done|]. split; [done|]. split; [by apply only_cells_unchanged|done].
Qed.
Print Assumptions C67_make_copy.

(** as(<t-list>, list) and as(<list>, t-list) share the pairs. *)
Theorem C67_as_list fuel h l t xs cs : heap_ok h -> (length xs < fuel)%nat ->
  (lst h l xs cs -> exists t, of_list fuel h l = Val t /\ tl h t xs cs /\ to_list t = l) /\
  (tl h t xs cs -> lst h (to_list t) xs cs).
Proof. intros [H0 _] Hf. split; [intros H; by apply of_list_ok|]. by intros [H _]. Qed.
Print Assumptions C67_as_list.

(** append! joins two t-lists that have no pair in common.  Missing: t-lists that share pairs, see below. *)
Theorem C67_append_partial h t1 t2 xs ys cs ds : tl h t1 xs cs -> tl h t2 ys ds -> disj cs ds ->
  exists t h', append_bang h t1 t2 = Val (t, h') /\ tl h' t (xs ++ ys) (cs ++ ds) /\ tl h' t2 ys ds /\ only_cells cs h h'.
Proof.
  intros H1 H2 H3. destruct (append_ok h t1 t2 xs ys cs ds H1 H2 H3) as (t & h' & E & H4 & H5 & _ & H6). by exists t, h'.
Qed.
Print Assumptions C67_append_partial.

(** concatenate! joins a t-list with sequences that have no pair in common. *)
Theorem C67_concatenate_partial fuel h t more xs cs xss css : heap_ok h -> tl h t xs cs -> all_contents h more xss css ->
  disj cs (concat css) -> NoDup (concat css) -> (length (concat xss) < fuel)%nat ->
  exists t' es h', concatenate_tl fuel h t more = Val (t', h') /\ tl h' t' (xs ++ concat xss) es /\ only_cells (cs ++ concat css) h h'.
Proof. intros [H0 _]. by apply concatenate_ok. Qed.
Print Assumptions C67_concatenate_partial.

(** A t-list appended to itself becomes circular: iterating over it, as shallow-copy does, never ends. *)
Theorem C67_append_self_refuted : exists h t xs cs, heap_ok h /\ tl h t xs cs /\
  exists t' h', append_bang h t t = Val (t', h') /\ circular h' (to_list t') /\ forall fuel, shallow_copy fuel h' t' = NoFuel.
Proof.
  exists [(nil, nil); (OAtom 7, nil)], (TList (OList 1) (OList 1)), [OAtom 7], [1%nat]. split.
  { split; [done|]. intros [|[|a]] x t; cbn; intros [= <- <-]; cbn; lia || (split; [done || lia|lia]). }
  split; [split; [|done]; cbn; split; [done|split; [done|by eexists]]|].
  eexists _, _. split; [done|]. split.
  - intros n. exists (replicate n (OAtom 7)), (replicate n 1%nat), (OList 1). split; [by rewrite replicate_length|]. split; [|done].
    induction n as [|n IH]; [done|]. cbn. split; [done|]. split; [done|]. eexists. split; [done|]. apply IH.
  - assert (forall fuel h' new, h' !! 1%nat = Some (OAtom 7, OList 1) -> (length h' > 1)%nat ->
      (is_empty new = true \/ exists c x, last_pair new = OList c /\ (1 < c)%nat /\ h' !! c = Some (x, nil)) ->
      copy_loop fuel h' (OList 1) new = NoFuel) as G; [|intros fuel; apply G; [done|cbn; lia|by left]].
    induction fuel as [|fuel IH]; intros h' new H1 Hlen Hnew; [done|]. cbn [copy_loop]. unfold finished_state. cbn [is_nil].
    unfold current_element, next_state. rewrite (head_val _ _ _ _ H1). cbn [obind]. unfold push_last.
    destruct (is_empty new) eqn:Ee.
    + cbn [obind pair]. assert ((h' ++ [(OAtom 7, nil)]) !! 1%nat = Some (OAtom 7, OList 1)) as H1' by (rewrite lookup_app_l by lia; done).
      rewrite (tail_val _ _ _ _ H1'). cbn. apply IH; [done|rewrite app_length; cbn; lia|]. right. exists (length h'), (OAtom 7). cbn.
      split; [done|]. split; [lia|]. by rewrite lookup_app_r, Nat.sub_diag by lia.
    + destruct Hnew as [?|(c & x & Hlp & Hc & Hx)]; [done|]. rewrite Hlp, (tail_val _ _ _ _ Hx). cbn [obind pair].
      pose proof (lookup_lt_Some _ _ _ Hx) as Hlt.
      rewrite (set_tail_val _ c x nil) by (rewrite lookup_app_l by lia; done). cbn [obind].
      assert (<[c:=(x, OList (length h'))]> (h' ++ [(OAtom 7, nil)]) !! 1%nat = Some (OAtom 7, OList 1)) as H1'.
      { rewrite list_lookup_insert_ne by lia. by rewrite lookup_app_l by lia. }
      rewrite (tail_val _ _ _ _ H1'). cbn [obind check_list is_list]. apply IH; [done|rewrite insert_length, app_length; cbn; lia|].
      right. exists (length h'), (OAtom 7). cbn. split; [done|]. split; [lia|]. rewrite list_lookup_insert_ne by lia. by rewrite lookup_app_r, Nat.sub_diag by lia.
Qed.
Print Assumptions C67_append_self_refuted.

(** After append!, adding to the end of the first t-list changes the second one: it gets an element, while [last] still
    gives the old one. *)
Theorem C67_append_shared_refuted : exists h t1 t2 xs ys cs ds, heap_ok h /\ tl h t1 xs cs /\ tl h t2 ys ds /\ disj cs ds /\
  exists t1' h' t1'' h'', append_bang h t1 t2 = Val (t1', h') /\ push_last h' t1' (OAtom 9) = Val (t1'', h'') /\
    size_tl 10 h'' t2 = Val (Z.of_nat (length ys) + 1) /\ last_tl h'' t2 None = last_tl h t2 None /\
    element_tl 10 h'' t2 (Z.of_nat (length ys)) None = Val (OAtom 9).
Proof.
  exists [(nil, nil); (OAtom 7, nil); (OAtom 8, nil)], (TList (OList 1) (OList 1)), (TList (OList 2) (OList 2)), [OAtom 7], [OAtom 8], [1%nat], [2%nat].
  split. { split; [done|]. intros [|[|[|a]]] x t; cbn; intros [= <- <-]; cbn; lia || (split; [done || lia|lia]). }
  split; [split; [|done]; cbn; split; [done|split; [done|by eexists]]|].
  split; [split; [|done]; cbn; split; [done|split; [done|by eexists]]|].
  split. { intros a H1 H2. apply elem_of_list_singleton in H1, H2. lia. }
  eexists _, _, _, _. split; [done|]. split; [done|]. done.
Qed.
Print Assumptions C67_append_shared_refuted.

Theorem C67_size fuel h t xs cs : tl h t xs cs -> (length xs < fuel)%nat ->
  size_tl fuel h t = Val (Z.of_nat (length xs)) /\ is_empty t = match xs with [] => true | _ => false end.
Proof. intros H Hf. split; [by eapply size_ok|by eapply tl_is_empty]. Qed.
Print Assumptions C67_size.

(** element.  Missing: the index that is the size, if it is 3 or more; see below. *)
Theorem C67_element_partial fuel h t xs cs i d : tl h t xs cs -> (length xs < fuel)%nat -> ~ (3 <= i /\ i = Z.of_nat (length xs)) ->
  if decide (0 <= i < Z.of_nat (length xs)) then exists x, xs !! Z.to_nat i = Some x /\ element_tl fuel h t i d = Val x
  else match d with Some d' => element_tl fuel h t i d = Val d' | None => exists m, element_tl fuel h t i d = Signal m end.
Proof.
  intros H Hf Hi. rewrite (element_ok fuel h t xs cs i d) by done. destruct (decide _) as [Hr|Hr].
  - destruct (lookup_lt_is_Some_2 xs (Z.to_nat i)) as [x Hx]; [lia|]. exists x. split; [done|]. destruct (Z.leb_spec 0 i); [by rewrite Hx|lia].
  - replace (if 0 <=? i then xs !! Z.to_nat i else None) with (@None obj); [destruct d; [done|by eexists]|].
    destruct (Z.leb_spec 0 i); [|done]. symmetry. apply lookup_ge_None_2. lia.
Qed.
Print Assumptions C67_element_partial.

(** The index just after the last element is taken for an element: element gives #(), whatever the default. *)
Theorem C67_element_refuted fuel h t xs cs d : heap_ok h -> tl h t xs cs -> (length xs < fuel)%nat -> (3 <= length xs)%nat ->
  element_tl fuel h t (Z.of_nat (length xs)) d = Val nil.
Proof. intros [H0 _]. by apply element_at_size. Qed.
Print Assumptions C67_element_refuted.

Theorem C67_element_setter_partial fuel h t xs cs i v : tl h t xs cs -> (length xs < fuel)%nat -> ~ (3 <= i /\ i = Z.of_nat (length xs)) ->
  if decide (0 <= i < Z.of_nat (length xs)) then
    exists h', element_setter_tl fuel h v t i = Val h' /\ tl h' t (<[Z.to_nat i := v]> xs) cs /\ only_cells cs h h'
  else exists m, element_setter_tl fuel h v t i = Signal m.
Proof.
  intros H Hf Hi. destruct (decide _) as [Hr|Hr].
  - destruct (lookup_lt_is_Some_2 xs (Z.to_nat i)) as [x Hx]; [lia|]. destruct (seg_lookup _ _ _ _ _ _ _ (proj1 H) Hx) as (c & u & Hc & Hu).
    exists (<[c := (v, u)]> h). split; [|by eapply set_at]. replace i with (Z.of_nat (Z.to_nat i)) at 1 by lia. by eapply element_setter_at.
  - rewrite (element_setter_bad fuel h t xs cs i v) by (done || lia). by eexists.
Qed.
Print Assumptions C67_element_setter_partial.

(** Stored at the index just after the last element, a value goes into the empty list, which all lists share. *)
Theorem C67_element_setter_refuted fuel h t xs cs v : heap_ok h -> tl h t xs cs -> (length xs < fuel)%nat -> (3 <= length xs)%nat ->
  exists h', element_setter_tl fuel h v t (Z.of_nat (length xs)) = Val h' /\ head h' nil = Val v /\ tl h' t xs cs.
Proof.
  intros [H0 _] H Hf Hl. exists (<[0%nat := (v, nil)]> h). split; [by eapply element_setter_at_size|]. pose proof (lookup_lt_Some _ _ _ H0) as Hlt. split.
  - unfold nil. rewrite (head_val _ 0 v nil); [done|]. by rewrite list_lookup_insert.
  - eapply (only_cells_tl [0%nat]); [apply only_cells_insert| |done]. intros a ->%elem_of_list_singleton Hin. by eapply tl_in in Hin as [? _].
Qed.
Print Assumptions C67_element_setter_refuted.

Theorem C67_last h t xs cs d v : tl h t xs cs ->
  (xs = [] /\ last_tl h t d = missing d /\ exists m, last_setter_tl h v t = Signal m) \/
  exists ys y h', xs = ys ++ [y] /\ last_tl h t d = Val y /\ last_setter_tl h v t = Val h' /\ tl h' t (ys ++ [v]) cs /\ only_cells cs h h'.
Proof.
  intros H. pose proof (last_ok h t xs cs d H) as H1. destruct (last_setter_ok h t xs cs v H) as [[-> H2]|(ys & y & h' & -> & H2)].
  - left. split; [done|]. split; [done|]. rewrite H2. by eexists.
  - right. exists ys, y, h'. rewrite rev_app_distr in H1. done.
Qed.
Print Assumptions C67_last.

(** An iteration that asks for the key once in each step gets the positions. *)
Theorem C67_keyed_partial fuel h t xs cs : tl h t xs cs -> (length xs < fuel)%nat ->
  keyed fuel h t = Val (imap (fun i x => (Z.of_nat i, x)) xs).
Proof. intros [H _] Hf. unfold keyed, initial_state, initial_key_counter. change (-1) with (0 - 1). by rewrite (keyed_loop_ok xs fuel h _ cs). Qed.
Print Assumptions C67_keyed_partial.

(** current-key counts its calls: called twice in the same state it gives different keys. *)
Theorem C67_current_key_refuted : forall k state, (current_key (current_key k state).1 state).2 <> (current_key k state).2.
Proof. intros k state. cbn. lia. Qed.
Print Assumptions C67_current_key_refuted.

(** A copy of the final state is not final, and a value stored through a copied state does not get into the t-list. *)
Theorem C67_copy_state_refuted h t x xs cs v : heap_ok h -> tl h t (x :: xs) cs ->
  (exists s h', copy_state h nil = Val (s, h') /\ finished_state s = false) /\
  (exists s h' h'', copy_state h (initial_state t) = Val (s, h') /\ current_element_setter h' v s = Val h'' /\ tl h'' t (x :: xs) cs).
Proof.
  intros [H0 _] H. pose proof (lookup_lt_Some _ _ _ H0) as Hlt. split.
  - unfold copy_state, nil. rewrite (head_val _ _ _ _ H0), (tail_val _ _ _ _ H0). cbn [obind]. eexists _, _. split; [done|]. unfold finished_state. apply is_nil_S. lia.
  - pose proof H as H'. apply tl_cons in H' as (_ & c & cs' & u & -> & Hf & Hc & Hh & _). unfold copy_state, initial_state.
    rewrite Hf, (head_val _ _ _ _ Hh), (tail_val _ _ _ _ Hh). cbn [obind pair]. eexists _, _, _. split; [done|]. split.
    + unfold current_element_setter. rewrite (set_head_val _ (length h) x u); [done|]. by rewrite lookup_app_r, Nat.sub_diag.
    + eapply (only_cells_tl [length h]); [apply only_cells_insert| |].
      * intros a ->%elem_of_list_singleton Hin. eapply tl_in in Hin as [_ Hin]; [|exact H]. lia.
      * eapply only_cells_tl; [apply only_cells_alloc| |done]. intros a Ha. by apply not_elem_of_nil in Ha.
Qed.
Print Assumptions C67_copy_state_refuted.

(** *** Cases *)
Definition C67_heap : heap := [(nil, nil); (OAtom 1, OList 2); (OAtom 2, OList 3); (OAtom 3, nil); (OAtom 4, OList 5); (OAtom 5, nil)].
Example C67_heap_ok : heap_ok C67_heap.
Proof. split; [done|]. intros a x t H. do 6 (destruct a as [|a]; [cbn in H; injection H as <- <-; cbn; lia|]). done. Qed.
Example C67_tl_ex : tl C67_heap (TList (OList 1) (OList 3)) [OAtom 1; OAtom 2; OAtom 3] [1; 2; 3]%nat /\
  tl C67_heap (TList (OList 4) (OList 5)) [OAtom 4; OAtom 5] [4; 5]%nat /\ disj [1; 2; 3]%nat [4; 5]%nat.
Proof.
  split; [|split].
  - split; [|done]. cbn. repeat (split; [done|] || split; [done|] || eexists || done).
  - split; [|done]. cbn. repeat (split; [done|] || split; [done|] || eexists || done).
  - intros a H1 H2. rewrite !elem_of_cons, elem_of_nil in *. lia.
Qed.
Example C67_history_ex :
  perform_all 20 C67_heap (TList (OList 1) (OList 3)) [CPopLast; CPush (OAtom 9); CPushLast (OAtom 8); CSize; CPop; CLast; CPopLast; CPopLast; CPopLast; CPopLast]
  = Val ([RObj (OAtom 3); RObj (OAtom 9); RObj (OAtom 8); RInt 4; RObj (OAtom 9); RObj (OAtom 8); RObj (OAtom 8); RObj (OAtom 2); RObj (OAtom 1); RError],
         no_pairs, [(nil, nil); (OAtom 1, nil); (OAtom 2, nil); (OAtom 3, nil); (OAtom 4, OList 5); (OAtom 5, nil); (OAtom 9, OList 1); (OAtom 8, nil)]).
Proof. reflexivity. Qed.
Example C67_concatenate_ex :
  all_contents C67_heap [STList (TList (OList 4) (OList 5)); SOther [OAtom 6]] [[OAtom 4; OAtom 5]; [OAtom 6]] [[4; 5]; []]%nat /\
  exists t h', concatenate_tl 20 C67_heap (TList (OList 1) (OList 3)) [STList (TList (OList 4) (OList 5)); SOther [OAtom 6]] = Val (t, h') /\
    size_tl 20 h' t = Val 6 /\ element_tl 20 h' t 5 None = Val (OAtom 6) /\ element_tl 20 h' t 6 None = Val nil.
Proof.
  split.
  - constructor; [apply C67_tl_ex|]. constructor; [done|constructor].
  - eexists _, _. split; [reflexivity|]. done.
Qed.
