(** What a t-list should do (C67): it is a sequence that grows and shrinks at both ends. *)
From Verif Require Import Base ListModel ListSpec TlModel.
Open Scope Z_scope.

(** The last of some pairs, #() if there is none. *)
Definition last_of (cs : list nat) : obj := foldl (fun _ c => OList c) nil cs.

(** [t] is a t-list of the objects [xs], made of the pairs [cs]. *)
Definition tl (h : heap) (t : t_list) (xs : list obj) (cs : list nat) : Prop :=
  lst h (first_pair t) xs cs /\ last_pair t = last_of cs.

(** Nothing that existed has changed, except the pairs [cs]. *)
Definition only_cells (cs : list nat) (h h' : heap) : Prop :=
  (length h <= length h')%nat /\ forall a, (a < length h)%nat -> a ∉ cs -> h' !! a = h !! a.

(** Pairs that did not exist. *)
Definition new_cells (h : heap) (cs : list nat) : Prop := forall a, a ∈ cs -> (length h <= a)%nat.

(** The elements of an argument of concatenate!, and the pairs that it is made of. *)
Definition contents (h : heap) (s : source) (xs : list obj) (cs : list nat) : Prop :=
  match s with
  | STList t => tl h t xs cs
  | SList l => lst h l xs cs
  | SOther ys => xs = ys /\ cs = []
  end.
Inductive all_contents (h : heap) : list source -> list (list obj) -> list (list nat) -> Prop :=
  | all_nil : all_contents h [] [] []
  | all_cons s xs cs ss xss css : contents h s xs cs -> all_contents h ss xss css ->
      all_contents h (s :: ss) (xs :: xss) (cs :: css).

(** The calls, on a sequence. *)
Definition answer (xs : list obj) (c : call) : reply * list obj :=
  match c with
  | CPush x => (RObj x, x :: xs)
  | CPushLast x => (RObj x, xs ++ [x])
  | CPop => match xs with [] => (RError, []) | x :: xs => (RObj x, xs) end
  | CPopLast => match rev xs with [] => (RError, []) | x :: r => (RObj x, rev r) end
  | CSize => (RInt (Z.of_nat (length xs)), xs)
  | CFirst => (match xs with [] => RError | x :: _ => RObj x end, xs)
  | CLast => (match rev xs with [] => RError | x :: _ => RObj x end, xs)
  | CSetLast x => match rev xs with [] => (RError, []) | _ :: r => (RObj x, rev r ++ [x]) end
  end.
Fixpoint answers (xs : list obj) (cs : list call) : list reply * list obj :=
  match cs with
  | [] => ([], xs)
  | c :: cs => let '(r, xs) := answer xs c in let '(rs, xs) := answers xs cs in (r :: rs, xs)
  end.
