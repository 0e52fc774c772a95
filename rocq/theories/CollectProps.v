(** C68: collectors collect what is added to them; C69: tokenize-environment-variable. *)
From Verif Require Import Base ListModel ListSpec ListProofs TlSpec TlProofs CollectModel CollectSpec CollectProofs.
From Coq Require Import ZifyBool ZifyNat.
Open Scope Z_scope.

(** Two new list collectors, and any additions to either of them at either end, in any order: the collection of each is
    a proper list of what was added to it, and nothing that existed before has changed. *)
Theorem C68_list h es : heap_ok h ->
  exists c1 c2 h1 h2 h', new_collector h = Val (c1, h1) /\ new_collector h1 = Val (c2, h2) /\ add_events h2 c1 c2 es = Val h' /\
    (exists l1, collection h' c1 = Val l1 /\ is_lst h' l1 (collected (events_of true es))) /\
    (exists l2, collection h' c2 = Val l2 /\ is_lst h' l2 (collected (events_of false es))) /\ unchanged h h'.
Proof.
  intros [H0 _]. assert (h !! 0%nat <> None) as Hz by congruence.
  destruct (new_collector_ok h Hz) as (h1 & E1 & C1 & U1 & L1).
  assert (h1 !! 0%nat <> None) as Hz1 by (eapply only_cells_0; [done|apply not_elem_of_nil|done]).
  destruct (new_collector_ok h1 Hz1) as (h2 & E2 & C2 & U2 & L2).
  assert (h2 !! 0%nat <> None) as Hz2 by (eapply only_cells_0; [done|apply not_elem_of_nil|done]).
  assert (col h2 (length h) [] []) as C1'. { eapply col_stable; [done| |done]. intros a Ha. by apply not_elem_of_nil in Ha. }
  destruct (add_events_ok es h2 (length h) (length h1) [] [] [] []) as (cs1 & cs2 & h' & E & D1 & D2 & U); [done..| |].
  { intros a Ha Hb. apply elem_of_list_singleton in Ha, Hb. lia. }
  exists (OList (length h)), (OList (length h1)), h1, h2, h'. split; [done|]. split; [done|]. split; [done|].
  destruct D1 as (_ & _ & t1 & T1 & S1). destruct D2 as (_ & _ & t2 & T2 & S2).
  split; [exists t1; split; [by apply (tail_val _ _ _ _ T1)|by exists cs1]|]. split; [exists t2; split; [by apply (tail_val _ _ _ _ T2)|by exists cs2]|].
  apply only_cells_unchanged. eapply (only_cells_trans_new [] [length h; length h1]); [|eapply only_cells_trans; [exact U1|exact U2]|exact U].
  intros a [->| ->%elem_of_list_singleton]%elem_of_cons; lia.
Qed.
Print Assumptions C68_list.

(** The collection is not a snapshot: what is added at the end later gets into a list handed out before. *)
Theorem C68_snapshot_refuted : exists h c l h', heap_ok h /\ collection h c = Val l /\ is_lst h l [OAtom 7] /\
  add_last h c (OAtom 8) = Val h' /\ is_lst h' l [OAtom 7; OAtom 8].
Proof.
  exists [(nil, nil); (OList 2, OList 2); (OAtom 7, nil)], (OList 1), (OList 2). eexists. split.
  { split; [done|]. intros [|[|[|a]]] x t; cbn; intros [= <- <-]; cbn; lia || (split; [done || lia|lia]). }
  split; [done|]. split. { exists [2%nat]. cbn. split; [done|]. split; [done|]. by eexists. }
  split; [done|]. exists [2; 3]%nat. cbn. split; [done|]. split; [done|]. eexists. split; [done|]. split; [done|]. split; [done|]. by eexists.
Qed.
Print Assumptions C68_snapshot_refuted.

(** A stretchy sequence as collector. *)
Theorem C68_stretchy es : add_all_stretchy [] es = Val (collected es).
Proof. apply add_all_stretchy_ok. Qed.
Print Assumptions C68_stretchy.

(** A number collector combines the values in the order in which they stand in the sequence, for any associative
    operation: the values added first, the latest leftmost, then the start, then those added last. *)
Theorem C68_number {A} (op : A -> A -> A) from es : (forall x y z, op x (op y z) = op (op x y) z) ->
  let firsts := (filter (fun p => p.1 = true) es).*2 in
  let lasts := (filter (fun p => p.1 = false) es).*2 in
  add_numbers op from es = foldl op (foldr op from (rev firsts)) lasts.
Proof.
  intros Hop. cbn zeta. revert from. induction es as [|[b v] es IH]; intros from; [done|]. cbn [add_numbers]. rewrite IH. unfold add_number. destruct b.
  - rewrite filter_cons_True, filter_cons_False by done. rewrite fmap_cons. cbn [rev snd]. rewrite foldr_app. done.
  - rewrite filter_cons_False, filter_cons_True by done. rewrite fmap_cons. cbn [foldl snd]. f_equal.
    generalize (rev ((filter (λ p : bool * A, p.1 = true) es).*2)). intros l. induction l as [|x l IHl]; [done|]. cbn. rewrite IHl. apply Hop.
Qed.
Print Assumptions C68_number.

(** tokenize-environment-variable gives the pieces between the delimiters, but for the empty ones, in order. *)
Theorem C69_tokenize d var :
  exists pieces, pieces <> [] /\ Forall (fun p => d ∉ p) pieces /\ join d pieces = var /\
    tokenize d var = Val (filter (fun p => p <> []) pieces) /\
    forall pieces', pieces' <> [] -> Forall (fun p => d ∉ p) pieces' -> join d pieces' = var -> pieces' = pieces.
Proof.
  destruct (tokenize_loop_ok d var (S (length var)) [] [] []) as (ps & H1 & H2 & H3 & H4); [lia|apply not_elem_of_nil|].
  exists ps. split; [done|]. split; [done|]. split; [done|]. split; [done|]. intros qs G1 G2 G3. eapply join_unique; [done..|]. by rewrite G3, H2.
Qed.
Print Assumptions C69_tokenize.

(** *** Cases *)
Example C68_heap_ex : heap_ok [(nil, nil)].
Proof. split; [done|]. intros [|a] x t; cbn; intros [= <- <-]; cbn; lia. Qed.
Example C68_list_ex : exists h1 h', new_collector [(nil, nil)] = Val (OList 1, h1) /\
  add_events h1 (OList 1) (OList 1) [(true, Last (OAtom 1)); (false, First (OAtom 2)); (true, Last (OAtom 3))] = Val h' /\
  collection h' (OList 1) = Val (OList 3) /\ is_lst h' (OList 3) [OAtom 2; OAtom 1; OAtom 3].
Proof.
  eexists _, _. split; [reflexivity|]. split; [reflexivity|]. split; [reflexivity|]. exists [3; 2; 4]%nat. cbn.
  split; [done|]. split; [done|]. eexists. split; [done|]. split; [done|]. split; [done|]. eexists. split; [done|]. split; [done|]. split; [done|]. by eexists.
Qed.
Example C68_stretchy_ex : add_all_stretchy [] [Last (OAtom 1); First (OAtom 2); First (OAtom 4); Last (OAtom 3)] = Val [OAtom 4; OAtom 2; OAtom 1; OAtom 3].
Proof. reflexivity. Qed.
Example C68_number_ex : add_numbers Z.add 10 [(true, 1); (false, 5)] = 16 /\ (forall x y z, Z.add x (Z.add y z) = Z.add (Z.add x y) z).
Proof. split; [done|]. intros. lia. Qed.
Example C69_ex : tokenize 58 [58; 97; 98; 58; 58; 99; 58] = Val [[97; 98]; [99]] /\ join 58 [[]; [97; 98]; []; [99]; []] = [58; 97; 98; 58; 58; 99; 58].
Proof. done. Qed.
