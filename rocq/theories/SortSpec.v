(** What a user expects of sorting, stated without reference to the algorithms. *)
From stdpp Require Import base list.

(** A strict weak ordering given as a boolean test. *)
Record strict_weak_order {A} (lt : A -> A -> bool) : Prop := {
  swo_irrefl : forall x, lt x x = false;
  swo_trans : forall x y z, lt x y = true -> lt y z = true -> lt x z = true;
  (** incomparability is transitive *)
  swo_incomp : forall x y z, lt x y = false -> lt y x = false ->
                        lt y z = false -> lt z y = false ->
                        lt x z = false /\ lt z x = false }.

(** No later element is smaller than an earlier one. *)
Definition ordered {A} (lt : A -> A -> bool) (l : list A) : Prop :=
  forall i j x y, i < j -> l !! i = Some x -> l !! j = Some y -> lt y x = false.

(** [x] and [y] are equivalent for the ordering. *)
Definition equiv {A} (lt : A -> A -> bool) (x y : A) : bool :=
  negb (lt x y) && negb (lt y x).

(** Stability: for every element, the subsequence of the elements equivalent to it is
    the same before and after. *)
Definition stable_rearrangement {A} (lt : A -> A -> bool) (l l' : list A) : Prop :=
  forall x, List.filter (equiv lt x) l' = List.filter (equiv lt x) l.
