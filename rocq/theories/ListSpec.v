(** What the list operations should do, in terms of sequences. *)
From Verif Require Import Base ListModel.
Open Scope Z_scope.

(** Following tails from [o] passes through the pairs [cs], which hold the
    objects [xs], and arrives at [e]. *)
Fixpoint seg (h : heap) (o : obj) (xs : list obj) (cs : list nat) (e : obj) : Prop :=
  match xs, cs with
  | [], [] => o = e
  | x :: xs, c :: cs => o = OList c /\ c <> 0%nat /\ exists t, h !! c = Some (x, t) /\ seg h t xs cs e
  | _, _ => False
  end.

(** [o] is a proper list of the objects [xs]. *)
Definition lst (h : heap) (o : obj) (xs : list obj) (cs : list nat) : Prop := seg h o xs cs nil.
Definition is_lst (h : heap) (o : obj) (xs : list obj) : Prop := exists cs, lst h o xs cs.

(** However far tails are followed from [o], there is a pair. *)
Definition circular (h : heap) (o : obj) : Prop :=
  forall n, exists xs cs e, length cs = n /\ seg h o xs cs e /\ is_pair e = true.

(** References lead to cells, and the empty list is as it was made. *)
Definition obj_ok (h : heap) (o : obj) : Prop :=
  match o with OList a => (a < length h)%nat | OAtom _ => True end.
Definition heap_ok (h : heap) : Prop :=
  h !! 0%nat = Some (nil, nil) /\ forall a x t, h !! a = Some (x, t) -> obj_ok h x /\ obj_ok h t.

(** Nothing that existed has changed. *)
Definition unchanged (h h' : heap) : Prop := exists new, h' = h ++ new.
(** Nothing that existed has changed, except the tails of the pairs [cs]. *)
Definition only_tails (cs : list nat) (h h' : heap) : Prop :=
  (length h <= length h')%nat /\
  (forall a, (a < length h)%nat -> a ∉ cs -> h' !! a = h !! a) /\
  (forall a x t, h !! a = Some (x, t) -> exists t', h' !! a = Some (x, t')).

(** The first [n] elements that satisfy [p] left out ([None]: all of them). *)
Fixpoint without (p : obj -> bool) (n : option nat) (xs : list obj) : list obj :=
  match xs, n with
  | [], _ => []
  | _, Some O => xs
  | x :: xs, None => if p x then without p None xs else x :: without p None xs
  | x :: xs, Some (S m) => if p x then without p (Some m) xs else x :: without p (Some (S m)) xs
  end.

(** Every element that is followed by an equal one left out. *)
Fixpoint last_occurrences (test : obj -> obj -> bool) (xs : list obj) : list obj :=
  match xs with
  | [] => []
  | x :: xs =>
    if existsb (test x) xs then last_occurrences test xs else x :: last_occurrences test xs
  end.

(** A finite tree of pairs. *)
Inductive tree := Leaf (o : obj) | Node (l r : tree).
Inductive is_tree (h : heap) : obj -> tree -> Prop :=
| tree_leaf o : is_pair o = false -> is_tree h o (Leaf o)
| tree_node a x t l r : a <> 0%nat -> h !! a = Some (x, t) -> is_tree h x l -> is_tree h t r ->
    is_tree h (OList a) (Node l r).

(** No pair in common. *)
Definition disj (cs ds : list nat) : Prop := forall a, a ∈ cs -> a ∈ ds -> False.
