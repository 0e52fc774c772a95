(** What collectors should collect (C68) and how a variable is split (C69). *)
From Verif Require Import Base ListModel ListSpec CollectModel.
Open Scope Z_scope.

(** What has been added, from one end to the other. *)
Definition collect (xs : list obj) (e : event) : list obj := match e with First x => x :: xs | Last x => xs ++ [x] end.
Definition collected (es : list event) : list obj := foldl collect [] es.

(** The additions to one of two collectors. *)
Definition events_of (b : bool) (es : list (bool * event)) : list event := (filter (fun p => p.1 = b) es).*2.

(** Strings joined with a delimiter between them. *)
Fixpoint join (d : Z) (pieces : list (list Z)) : list Z :=
  match pieces with [] => [] | [p] => p | p :: ps => p ++ [d] ++ join d ps end.
