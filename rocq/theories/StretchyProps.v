(** Property C39 (and the stretchy part of C44): stretchy vectors. *)
From Verif Require Import Base DequeModel DequeSpec StretchyModel StretchySpec StretchyProofs.
Local Open Scope Z_scope.

(** C39: every history on a stretchy object vector (any capacity:, size:) returns normally,
    gives the responses of the mathematical sequence, and ends with the size inside the
    allocated storage.  With an explicit fill: the capacity must be the size, see
    [C39_spare_capacity_fill_refuted]. *)
Theorem C39_stretchy_refines_sequence :
  forall (A : Type) (ff : A) (cap size : Z) (fill : A) (ops : list (sop A)),
  0 <= size <= cap -> fill = ff \/ cap = size ->
  exists r, srun_from_make ff (fun _ => true) cap size fill ops
    = Val (r, snd (sspec_run ff (fun _ => true) ops (replicate (Z.to_nat size) fill))) /\
    0 <= ssize r <= capacity r.
Proof. exact @srun_object_refines. Qed.
Print Assumptions C39_stretchy_refines_sequence.

(** The same for limited stretchy vectors (element type [ok]), if the fill value is of the
    element type and add! is not called with a wrong object. *)
Theorem C39_limited_stretchy_refines_sequence :
  forall (A : Type) (ff : A) (ok : A -> bool) (cap size : Z) (fill : A) (ops : list (sop A)),
  ok ff = true -> Forall (adds_well_typed ok) ops ->
  0 <= size <= cap -> fill = ff \/ cap = size ->
  exists r, srun_from_make ff ok cap size fill ops
    = Val (r, snd (sspec_run ff ok ops (replicate (Z.to_nat size) fill))) /\
    0 <= ssize r <= capacity r.
Proof. exact @srun_from_make_refines. Qed.
Print Assumptions C39_limited_stretchy_refines_sequence.

(** Limits of the claim. *)

(** make(<stretchy-vector>, capacity: 4, size: 1, fill: 7) followed by size := 3 shows two
    sevens where a vector without spare capacity shows #f. *)
Theorem C39_spare_capacity_fill_refuted :
  exists r1 r2,
    srun_from_make 0%nat (fun _ => true) 4 1 7%nat [SSetSize 3; SElement 2 None]
      = Val (r1, [RInt 3; RVal 7%nat]) /\
    srun_from_make 0%nat (fun _ => true) 1 1 7%nat [SSetSize 3; SElement 2 None]
      = Val (r2, [RInt 3; RVal 0%nat]).
Proof. eexists _, _. split; vm_compute; reflexivity. Qed.
Print Assumptions C39_spare_capacity_fill_refuted.

(** add! of an object of the wrong type signals, but the vector has grown by a #f (here 0,
    which is not of the element type [1..9] either). *)
Theorem C39_add_type_error_refuted :
  exists r, srun_from_make 0%nat (fun x => bool_decide (1 <= x <= 9)%nat) 1 1 5%nat
      [SAdd 20%nat; SSize; SElement 1 None]
    = Val (r, [RErr "type-error"; RInt 2; RVal 0%nat]).
Proof. eexists. vm_compute. reflexivity. Qed.
Print Assumptions C39_add_type_error_refuted.

(** size-setter on a limited stretchy vector stores #f even if the element type excludes
    it: the elements are not all of the element type. *)
Theorem C44_stretchy_element_type_refuted :
  exists r, srun_from_make 0%nat (fun x => bool_decide (1 <= x <= 9)%nat) 0 0 0%nat
      [SSetSize 2; SIterate]
    = Val (r, [RInt 2; RPairs [(0, 0%nat); (1, 0%nat)]]).
Proof. eexists. vm_compute. reflexivity. Qed.
Print Assumptions C44_stretchy_element_type_refuted.

Example stretchy_history :
  exists r, srun_from_make 0%nat (fun _ => true) 0 0 0%nat
    [SAdd 1; SAdd 2; SAdd 3; SSetElement 5%Z 6; SRemove (Nat.eqb 0) None; SIterateBack;
     SSetSize 2%Z; SSetSize 3%Z; SIterate]%nat
  = Val (r, [RUnit; RUnit; RUnit; RVal 6; RUnit;
       RPairs [(3%Z,6);(2%Z,3);(1%Z,2);(0%Z,1)]; RInt 2; RInt 3;
       RPairs [(0%Z,1);(1%Z,2);(2%Z,0)]]%nat).
Proof. eexists. vm_compute. reflexivity. Qed.
