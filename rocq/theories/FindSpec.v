(** What position, find-element, difference and fill-table! have to give (C70). *)
From Verif Require Import Base.
From Coq Require Import ZArith.
Local Open Scope Z_scope.

Section Spec.
Context {A : Type}.

(** The number of elements of [l] at the positions from [a] up to, not including, [b] that satisfy [p]. *)
Definition hits (p : A -> bool) (l : list A) (a b : nat) : nat := length (List.filter p (take (b - a) (drop a l))).

(** [r] is the position in [l], from [start] on and before [stop], of the element that satisfies [p] after [n] others that do;
    it is None if there are not so many. *)
Definition nth_hit (p : A -> bool) (l : list A) (start stop n : nat) (r : option nat) : Prop :=
  match r with
  | Some i => (start <= i < stop)%nat /\ (exists x, l !! i = Some x /\ p x = true) /\ hits p l start i = n
  | None => (hits p l start stop <= n)%nat
  end.

(** The pairs a sequence of keys and elements in turn is made of: the i-th pair consists of the objects at 2i and 2i+1. *)
Definition pairs_of {O} (l : list O) (pairs : list (O * O)) : Prop :=
  forall i k v, pairs !! i = Some (k, v) <-> l !! (2 * i)%nat = Some k /\ l !! (2 * i + 1)%nat = Some v.
End Spec.
