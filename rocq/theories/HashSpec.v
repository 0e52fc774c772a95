(** Specification of hashing and symbols. *)
From Verif Require Import Base HashModel.
Open Scope Z_scope.

(** Case folding of the 26 letters (65 is A, 90 is Z). *)
Definition fold_letter (c : Z) : Z := if (65 <=? c) && (c <=? 90) then c + 32 else c.
Definition same_folded (s1 s2 : list Z) : Prop := map fold_letter s1 = map fold_letter s2.

(** Unicode code points. *)
Definition is_code (c : Z) : Prop := 0 <= c <= 1114111.

(** What interning promises for the requests [names] answered by [ids]: the
    same symbol exactly for names that differ in case only. *)
Definition interned (names : list (list Z)) (ids : list nat) : Prop :=
  length names = length ids /\
  forall i j n n' x x',
    names !! i = Some n -> names !! j = Some n' -> ids !! i = Some x -> ids !! j = Some x' ->
    (x = x' <-> same_folded n n').

(** Strings without a null character. *)
Definition no_null (s : list Z) : Prop := 0 ∉ s.

(** The names asked for before initialisation. *)
Fixpoint preboot (os : list sop) : list (list Z) :=
  match os with
  | SMake s :: os | SResolve s :: os => s :: preboot os
  | _ => []
  end.
Definition requested (os : list sop) : list (list Z) :=
  omap (fun o => match o with SMake s | SResolve s => Some s | SBoot => None end) os.
