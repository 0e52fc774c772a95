(** What a class hierarchy and its precedence lists mean, from the direct superclasses
    alone.  [T !! c] is the list of direct superclasses of class [c], in order. *)
From Verif Require Import Base.

(** [d] is [c] or a direct or indirect superclass of [c]. *)
Inductive Inherits (T : list (list nat)) : nat -> nat -> Prop :=
| inherits_refl c : c < length T -> Inherits T c c
| inherits_step c supers s d :
    T !! c = Some supers -> s ∈ supers -> Inherits T s d -> Inherits T c d.

(** [L] respects the order [l]: the elements of [l] occur in [L] in the same order. *)
Definition keeps_order (L l : list nat) : Prop := sublist l L.

(** [L] is a monotone linearization for a class [c] whose direct superclasses are
    [supers], the precedence lists of which are given by [cpl_of]. *)
Record Linearization (T : list (list nat)) (cpl_of : nat -> list nat)
    (c : nat) (supers L : list nat) : Prop := {
  lin_head : head L = Some c;
  lin_once : NoDup L;
  lin_members : forall x, x ∈ L <-> x = c \/ exists s, s ∈ supers /\ Inherits T s x;
  lin_local : keeps_order L supers;
  lin_monotone : forall s, s ∈ supers -> keeps_order L (cpl_of s) }.

(** The constraints alone: some order that contradicts none of the lists. *)
Definition consistent_order (cpl_of : nat -> list nat) (supers L : list nat) : Prop :=
  NoDup L /\ keeps_order L supers /\ forall s, s ∈ supers -> keeps_order L (cpl_of s).
