(** C70: position, find-key, find-element, difference and fill-table!. *)
From Verif Require Import Base CollModel CollSpec CollProofs AccModel AccSpec SeqOpModel SeqOpSpec SeqOpProofs SelModel SelSpec SelProofs SelProofs2 FindModel FindSpec FindProofs.
From Coq Require Import ZArith ZifyBool ZifyNat.
Local Open Scope Z_scope.

(** ** position *)

(** The number of matching elements position is asked to pass over: skip, or one less than count if that is given. *)
Definition passed_over (skip : Z) (count : option Z) (n : nat) : Prop :=
  match count with Some c => c = Z.of_nat n + 1 | None => skip = Z.of_nat n end.

Lemma passed_over_skip skip count n : passed_over skip count n -> initial_skip skip count = Z.of_nat n.
Proof. destruct count; cbn; lia. Qed.

(** position(list, target, start:, end:, skip:, test:): the first position from start on and before end, after as many other
    matches as are to be passed over, of an element that matches the target; #f if there is none.  The start and the end may
    lie behind the end of the list. *)
Theorem C70_position_list {A} (test : A -> A -> bool) (start : nat) end_ skip count n l t :
  passed_over skip count n ->
  exists r, position_list test (Z.of_nat start) end_ skip count l t = Z.of_nat <$> r /\
    nth_hit (test t) l start (match end_ with Some e => Z.to_nat e | None => length l end) n r.
Proof.
  intros Hn%passed_over_skip. set (stop := match end_ with Some e => Z.to_nat e | None => length l end).
  exists ((fun i => (start + i)%nat) <$> pos_of (test t) n (take (stop - start) (drop start l))). split; [|apply pos_of_hit].
  rewrite position_list_ok by lia. rewrite Hn, Nat2Z.id. fold stop. set (o := pos_of _ _ _). by destruct o.
Qed.

(** With a negative start the answer is not a position: the index starts at the start, but nothing is passed over. *)
Theorem C70_position_start_refuted : exists (l : list Z) start i x, position_list Z.eqb start None 0 None l x = Some i /\ i < 0.
Proof. exists [7; 8], (-2), (-2), 7. split; [vm_compute; reflexivity|lia]. Qed.

(** With a negative skip nothing is found. *)
Theorem C70_position_skip {A} (test : A -> A -> bool) start end_ skip count l t : initial_skip skip count < 0 ->
  position_list test start end_ skip count l t = None.
Proof. apply position_loop_negative. Qed.

(** position on a vector or a string gives the same, if the end is not behind the end of the vector.  If it is, and no such
    element is found, an error is signalled. *)
Theorem C70_position_vector {A} (test : A -> A -> bool) (start : nat) end_ skip count n l t fuel :
  passed_over skip count n -> let stop := default (Z.of_nat (length l)) end_ in (Z.to_nat (stop - Z.of_nat start) < fuel)%nat ->
  exists r, nth_hit (test t) l start (Z.to_nat stop) n r /\
    position_vector fuel test (Z.of_nat start) end_ skip count l t =
      match r with
      | Some i => Val (Some (Z.of_nat i))
      | None => if (Z.of_nat start <? stop) && (Z.of_nat (length l) <? stop) then Signal element_range_error else Val None
      end.
Proof.
  intros Hn%passed_over_skip stop Hf.
  exists ((fun i => (start + i)%nat) <$> pos_of (test t) n (take (Z.to_nat stop - start) (drop start l))). split; [apply pos_of_hit|].
  unfold position_vector. fold stop. rewrite Hn. rewrite position_vector_loop_ok by done. set (o := pos_of _ _ _). by destruct o.
Qed.

(** So the two methods disagree about an end behind the end of the sequence. *)
Theorem C70_position_end_refuted : exists (l : list Z) end_ x,
  position_list Z.eqb 0 (Some end_) 0 None l x = None /\ position_vector 10 Z.eqb 0 (Some end_) 0 None l x = Signal element_range_error.
Proof. exists [7; 8], 3, 9. split; vm_compute; reflexivity. Qed.

(** The two methods agree otherwise. *)
Theorem C70_position_agree {A} (test : A -> A -> bool) (start : nat) end_ skip count n l t fuel :
  passed_over skip count n -> (forall e, end_ = Some e -> e <= Z.of_nat (length l)) -> (length l < fuel)%nat ->
  position_vector fuel test (Z.of_nat start) end_ skip count l t = Val (position_list test (Z.of_nat start) end_ skip count l t).
Proof.
  intros Hn%passed_over_skip He Hf. unfold position_vector. rewrite position_list_ok by lia. rewrite Hn, Nat2Z.id.
  rewrite position_vector_loop_ok. 2:{ destruct end_ as [e|]; cbn; [pose proof (He e eq_refl)|]; lia. }
  assert (Z.to_nat (default (Z.of_nat (length l)) end_) = match end_ with Some e => Z.to_nat e | None => length l end) as ->.
  { destruct end_; cbn; lia. }
  replace (Z.of_nat (length l) <? default (Z.of_nat (length l)) end_) with false.
  2:{ destruct end_ as [e|]; cbn; [pose proof (He e eq_refl)|]; lia. }
  rewrite andb_false_r. set (o := pos_of _ _ _). by destruct o.
Qed.

(** ** find-key and find-element *)

(** find-key(sequence, fn, skip: s): the position of the element that satisfies fn after s others that do; a negative s is
    like 0. *)
Theorem C70_find_key {A} (fn : A -> bool) skip l :
  exists r, find_key_seq fn skip l = Z.of_nat <$> r /\ nth_hit fn l 0 (length l) (Z.to_nat skip) r.
Proof. exists (pos_of fn (Z.to_nat skip) l). split; [apply find_key_seq_ok|apply pos_of_whole]. Qed.

(** find-element(sequence, fn, skip: s, failure: f): that element itself, and f if there is none. *)
Theorem C70_find_element {A} (fn : A -> bool) skip failure l :
  exists r, nth_hit fn l 0 (length l) (Z.to_nat skip) r /\
    match r with Some i => l !! i = Some (find_element fn skip failure l) | None => find_element fn skip failure l = failure end.
Proof.
  exists (pos_of fn (Z.to_nat skip) l). pose proof (pos_of_whole fn l (Z.to_nat skip)) as H. split; [done|]. rewrite find_element_ok.
  destruct (pos_of fn (Z.to_nat skip) l) as [i|]; [|done]. destruct H as (_ & (x & -> & _) & _). done.
Qed.

(** ** fill-table! *)

(** fill-table!(table, #[k0, e0, k1, e1, ...]) stores each e under its k, in this order, if no key is #f; a key without an
    element, at the end, is ignored. *)
Theorem C70_fill_table {A} (l : list (object A)) : (forall i, l !! (2 * i)%nat <> Some False_) -> pairs_of l (fill_table l).
Proof. by apply (fill_table_ok (length l)). Qed.

(** After a key #f keys and elements change places. *)
Theorem C70_fill_table_refuted : exists l : list (object Z), ~ pairs_of l (fill_table l) /\ exists k v, fill_table l = [(v, k)] /\ l !! 1%nat = Some v /\ l !! 2%nat = Some k.
Proof.
  exists [False_; Obj 1; Obj 2; Obj 3]. split; [|by exists (Obj 2), (Obj 1)]. intros H. destruct (H O False_ (Obj 1)) as [_ H']. by specialize (H' (conj eq_refl eq_refl)).
Qed.

(** ** difference *)

(** difference(c1, c2): the elements of the first sequence that are not the same as one of the second, in order, in a sequence of
    the class of the first.  For a string as the second, only if the test is symmetric (see C59_member_string_refuted). *)
Theorem C70_difference_partial c1 l1 c2 l2 test fuel : wf_coll c1 -> wf_coll c2 -> elements_are c1 l1 -> elements_are c2 l2 ->
  symmetric_if_string test c2 -> (length l1 < fuel)%nat -> (length l2 < fuel)%nat ->
  exists c', difference fuel test c1 c2 = Val c' /\ of_class_of c1 c' /\ elements_are c' (List.filter (fun x => negb (among test l2 x)) l1).
Proof.
  intros Hw1 Hw2 He1 He2 Hs Hf1 Hf2. destruct (difference_ok fuel test c1 l1 c2 l2) as (c' & ? & ? & ? & ?);
    [done|by apply holds_elements|by apply holds_elements|done|done|done|by exists c'].
Qed.

(** ** Examples *)

Example C70_position_ex :
  passed_over 0 (Some 2) 1 /\
  position_list Z.eqb 1 (Some 9) 0 (Some 2) [7; 8; 7; 8; 7] 7 = Some 4 /\
  position_list Z.eqb 1 (Some 4) 0 (Some 2) [7; 8; 7; 8; 7] 7 = None /\
  position_vector 10 Z.eqb 1 None 1 None [7; 8; 7; 8; 7] 7 = Val (Some 4) /\
  position_vector 10 Z.leb 0 None 1 None [1; 8; 7; 8; 7] 7 = Val (Some 2).
Proof. split_and!; vm_compute; reflexivity. Qed.

Example C70_find_element_ex : find_key_seq Z.even 1 [1; 2; 3; 4; 6] = Some 3 /\ find_element Z.even 1 (-1) [1; 2; 3; 4; 6] = 4 /\ find_element Z.even 3 (-1) [1; 2; 3; 4; 6] = -1.
Proof. split_and!; vm_compute; reflexivity. Qed.

Example C70_fill_table_ex : fill_table [Obj 1; False_; Obj 2; Obj 3; Obj 1; Obj 5; Obj 9] = [(Obj 1, False_); (Obj 2, Obj 3); (Obj 1, Obj 5)] /\
  (forall i, [Obj 1; False_; Obj 2; Obj 3] !! (2 * i)%nat <> Some (@False_ Z)).
Proof. split; [vm_compute; reflexivity|]. intros [|[|i]]; try done. by replace (2 * S (S i))%nat with (S (S (S (S (2 * i))))) by lia. Qed.

Definition same_value (a b : value) : bool := match a, b with VInt x, VInt y => x =? y | VChr x, VChr y => x =? y | _, _ => false end.
Example C70_difference_ex :
  difference 10 same_value (CVec VkObject [VInt 1; VInt 2; VInt 3; VInt 2; VInt 1]) (CList [VInt 2; VInt 5]) = Val (CVec VkObject [VInt 1; VInt 3; VInt 1]) /\
  symmetric_if_string same_value (CList [VInt 2; VInt 5]) /\ wf_coll (CVec VkObject [VInt 1; VInt 2; VInt 3; VInt 2; VInt 1]).
Proof. split_and!; [vm_compute; reflexivity|done|done]. Qed.

Print Assumptions C70_position_list.
Print Assumptions C70_position_start_refuted.
Print Assumptions C70_position_skip.
Print Assumptions C70_position_vector.
Print Assumptions C70_position_end_refuted.
Print Assumptions C70_position_agree.
Print Assumptions C70_find_key.
Print Assumptions C70_find_element.
Print Assumptions C70_fill_table.
Print Assumptions C70_fill_table_refuted.
Print Assumptions C70_difference_partial.
