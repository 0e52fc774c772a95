(** Properties C04, C05: deques. *)
From Verif Require Import Base DequeModel DequeSpec DequeProofs.
Local Open Scope Z_scope.

(** C04: every history of operations on a deque made with [n] elements returns normally
    (no access outside the slots, no endless loop) and every response -- values, sizes,
    iterated key/element pairs, and errors -- is the one of the mathematical sequence.
    Errors leave the sequence as it was ([spec_step]). *)
Theorem C04_deque_refines_sequence :
  forall (A : Type) (ff : A) (ok : A -> bool) (n : Z) (fill : option A) (ops : list (op A)),
  0 <= n ->
  exists r, run_from_make ff ok n fill ops
            = Val (r, snd (spec_run ff ok ops (spec_make ff n fill))).
Proof. exact @run_from_make_refines. Qed.
Print Assumptions C04_deque_refines_sequence.

(** C05: after every history the index window lies inside the slots.  (That no single
    access on the way fell outside is part of C04: such an access is the outcome [UB].) *)
Theorem C05_deque_storage :
  forall (A : Type) (ff : A) (ok : A -> bool) (n : Z) (fill : option A) (ops : list (op A)) r es,
  run_from_make ff ok n fill ops = Val (r, es) ->
  0 <= rfirst r /\ rfirst r <= rlast r + 1 /\ rlast r + 1 <= rep_size r.
Proof. exact @run_storage. Qed.
Print Assumptions C05_deque_storage.

(** C04/C05, limit of the claim: the backward iteration protocol starts one past the last
    element and stops before the first one.  On the deque 1, 2, 3 it yields a stale 2,
    then 3 and 2, and never 1, all with wrong keys; on a deque whose last element is in the last slot it leaves the
    slots. *)
Theorem C04_backward_iteration_refuted :
  exists (ops : list (op nat)) r es,
    run_from_make 0%nat (fun _ => true) 0 None ops = Val (r, es) /\
    spec_run 0%nat (fun _ => true) ops [] = ([1;2;3]%nat, es) /\
    iterate_backward r = Val [(3, 2%nat); (2, 3%nat); (1, 2%nat)].
Proof.
  exists [PushLast 1; PushLast 2; PushLast 3]%nat. eexists _, _.
  split; [vm_compute; reflexivity|]. split; vm_compute; reflexivity.
Qed.
Print Assumptions C04_backward_iteration_refuted.

Theorem C05_backward_iteration_refuted :
  exists r es, run_from_make 0%nat (fun _ => true) 2 (Some 7%nat) [] = Val (r, es) /\
    iterate_backward r = UB.
Proof. exact (ex_intro _ _ (ex_intro _ _ (conj eq_refl eq_refl))). Qed.
Print Assumptions C05_backward_iteration_refuted.

(** C44: a limited deque that starts with elements of its element type only ever shows
    elements of that type, whatever the history. *)
Theorem C44_deque_element_type :
  forall (A : Type) (ff : A) (ok : A -> bool) (n : Z) (fill : option A) (ops : list (op A)),
  0 <= n -> n = 0 \/ ok (default ff fill) = true ->
  exists r es, run_from_make ff ok n fill ops = Val (r, es) /\
    exists kes, iterate_forward r = Val kes /\ Forall (fun ke => ok (snd ke) = true) kes.
Proof. exact @run_typed. Qed.
Print Assumptions C44_deque_element_type.

(** C44, limit of the claim: make(limited(<deque>, of: T), size: 2) does not check its fill. *)
Theorem C44_deque_make_fill_refuted :
  exists r, make_deque 0%nat 2 None = Val r /\ iterate_forward r = Val [(0, 0%nat); (1, 0%nat)] /\
    (fun x => bool_decide (1 <= x <= 9)%nat) 0%nat = false.
Proof. eexists. split; [vm_compute; reflexivity|]. split; vm_compute; reflexivity. Qed.
Print Assumptions C44_deque_make_fill_refuted.

(** Non-vacuity: a history that grows the storage, moves the elements, removes and
    reverses. *)
Example deque_history :
  exists r, run_from_make 0%nat (fun x => bool_decide (x < 100)%nat) 1 None
    [Push 1; Push 2; PushLast 3; PushLast 4; PushLast 5; Push 6; PopLast; Push 200;
     SetElement 7%Z 9; RemoveBang (Nat.eqb 0) (Some 1%Z); ReverseBang; Iterate; SetSize 2%Z;
     Pop; Pop; Pop]%nat
  = Val (r, [RVal 1; RVal 2; RVal 3; RVal 4; RVal 5; RVal 6; RVal 5; RErr "type-error";
     RVal 9; RUnit; RUnit; RPairs [(0%Z,9);(1%Z,0);(2%Z,4);(3%Z,3);(4%Z,1);(5%Z,2);(6%Z,6)]; RInt 2%Z;
     RVal 9; RVal 0; RErr "empty-collection-error"]%nat).
Proof. eexists. vm_compute. reflexivity. Qed.
