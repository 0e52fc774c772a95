(** What copy-sequence, fill! and replace-subsequence! have to give (C52), in terms of the list of
    elements of a sequence. *)
From Verif Require Import Base CollModel CollSpec.
From Coq Require Import ZArith.
Local Open Scope Z_scope.

(** The elements of the sequence [c], in order, are [l]. *)
Definition elements_are (c : coll) (l : list value) : Prop :=
  is_sequence c = true /\ forall i : nat, value_at c (KInt (Z.of_nat i)) = l !! i.

(** start: and end: lie in the sequence. *)
Definition in_bounds (l : list value) (start last : Z) : Prop := 0 <= start <= last /\ last <= Z.of_nat (length l).

(** An end: that is not given is the size. *)
Definition end_of (l : list value) (last : option Z) : Z := match last with Some z => z | None => Z.of_nat (length l) end.

Definition copied (l : list value) (start last : Z) : list value := take (Z.to_nat (last - start)) (drop (Z.to_nat start) l).

Definition replaced (l m : list value) (start last : Z) : list value :=
  take (Z.to_nat start) l ++ m ++ drop (Z.to_nat last) l.

Definition filled (l : list value) (v : value) (start last : Z) : list value :=
  replaced l (replicate (Z.to_nat (last - start)) v) start last.

(** The elements can be stored in a sequence of the class of [c]: a string takes characters only. *)
Definition takes (c : coll) (m : list value) : Prop :=
  match c with CVec VkString _ => Forall (fun v => is_char v = true) m | _ => True end.

(** The classes the theorems are about: simple object vectors, strings, stretchy vectors and deques.
    (Lists are in C38.) *)
Definition vector_or_deque (c : coll) : Prop := match c with CVec _ _ | CDeq _ _ => True | _ => False end.
