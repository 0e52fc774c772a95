(** Property lists (C64): what they mean as lists of pairs of indicator and value. *)
From Verif Require Import Base ListModel ListSpec.
Open Scope Z_scope.

Notation props := (list (obj * obj)) (only parsing).

(** The pairs as they are arranged in a sequence. *)
Fixpoint flat (ps : props) : list obj :=
  match ps with
  | [] => []
  | (k, v) :: ps => k :: v :: flat ps
  end.

(** The value of an indicator: that of the first pair with it. *)
Fixpoint lookup_prop (ps : props) (k : obj) : option obj :=
  match ps with
  | [] => None
  | (k', v) :: ps => if decide (k' = k) then Some v else lookup_prop ps k
  end.

(** No indicator occurs twice. *)
Definition unique (ps : props) : Prop := NoDup ps.*1.

(** Nothing that existed has changed, except the pairs [cs]. *)
Definition only_pairs (cs : list nat) (h h' : heap) : Prop :=
  (length h <= length h')%nat /\ forall a, (a < length h)%nat -> a ∉ cs -> h' !! a = h !! a.

(** The pairs that an indicator does not have. *)
Definition others (k : obj) (ps : props) : props := filter (fun p => p.1 <> k) ps.

(** The pairs after an indicator has been given a value: the first pair with it changed, or a pair added at the end. *)
Fixpoint set_prop (ps : props) (k v : obj) : props :=
  match ps with
  | [] => [(k, v)]
  | (k', w) :: ps => if decide (k' = k) then (k', v) :: ps else (k', w) :: set_prop ps k v
  end.

(** The pairs without the first one with an indicator. *)
Fixpoint remove_first (ps : props) (k : obj) : props :=
  match ps with
  | [] => []
  | (k', w) :: ps => if decide (k' = k) then ps else (k', w) :: remove_first ps k
  end.

(** Several lists. *)
Inductive lists (h : heap) : list obj -> list (list obj) -> list (list nat) -> Prop :=
  | lists_nil : lists h [] [] []
  | lists_cons o xs cs os xss css : lst h o xs cs -> lists h os xss css -> lists h (o :: os) (xs :: xss) (cs :: css).
