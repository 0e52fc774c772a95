(** What [=] on collections has to decide (C50): the key tests are the same, and under every key
    either both have no element or both have one and the two are equal. *)
From Verif Require Import Base CollModel CollSpec.
From Coq Require Import ZArith.
Local Open Scope Z_scope.

(** [=] on elements: an equivalence, which on integers and on characters is identity. *)
Record element_equality (eqv : value -> value -> bool) : Prop := {
  eqv_refl : forall a, eqv a a = true;
  eqv_sym : forall a b, eqv a b = true -> eqv b a = true;
  eqv_trans : forall a b c, eqv a b = true -> eqv b c = true -> eqv a c = true;
  eqv_int : forall a b, eqv (VInt a) (VInt b) = true <-> a = b;
  eqv_chr : forall a b, eqv (VChr a) (VChr b) = true <-> a = b
}.

Definition both (eqv : value -> value -> bool) (o1 o2 : option value) : Prop :=
  match o1, o2 with
  | Some a, Some b => eqv a b = true
  | None, None => True
  | _, _ => False
  end.

Definition same_elements (eqv : value -> value -> bool) (c1 c2 : coll) : Prop :=
  forall k, both eqv (value_at c1 k) (value_at c2 k).

Definition equal_spec (eqv : value -> value -> bool) (c1 c2 : coll) : Prop :=
  coll_key_test c1 = coll_key_test c2 /\ same_elements eqv c1 c2.

(** Tails that are one object have the same elements. *)
Definition sharing_ok (same : nat -> bool) (c1 c2 : coll) : Prop :=
  match c1, c2 with
  | CList l1, CList l2 => forall i, same i = true -> drop i l1 = drop i l2
  | _, _ => True
  end.

(** The pairs for which [=] does not decide that: a list and a table with another key test than ==,
    and two ranges of one element that differ only in the step. *)
Definition odd_pair (c1 c2 : coll) : Prop :=
  match c1, c2 with
  | CList _, CTab kt _ | CTab kt _, CList _ => kt <> 0%nat
  | CRange f1 b1 1, CRange f2 b2 1 => f1 = f2 /\ b1 <> b2
  | _, _ => False
  end.
