(** What splitting and joining mean, independently of positions and loops. *)
From Verif Require Import Base.
Local Open Scope Z_scope.

Section spec.
Context {A : Type}.

(** [m] is an occurrence of a separator. [is_sep] is a predicate on pieces, so
    that the same specification serves separators given as one object and as a
    sequence, under any test. *)
Context (is_sep : list A -> Prop).

(** Some occurrence of the separator lies within [s]. *)
Definition contains_sep (s : list A) : Prop :=
  exists p m r, s = p ++ m ++ r /\ is_sep m.

(** [s] is [p], then the leftmost occurrence [m] of the separator, then [r]. *)
Definition first_sep (s p m r : list A) : Prop :=
  s = p ++ m ++ r /\ is_sep m /\
  forall p' m' r', s = p' ++ m' ++ r' -> is_sep m' -> (length p <= length p')%nat.

(** Splitting at the leftmost separator, again and again. *)
Inductive Splits : list A -> list (list A) -> Prop :=
| spl_last s : ~ contains_sep s -> Splits s [s]
| spl_cons s p m r ps : first_sep s p m r -> Splits r ps -> Splits s (p :: ps).

(** The same, giving up after [c] parts: the last part is what remains. *)
Inductive SplitsUpTo : nat -> list A -> list (list A) -> Prop :=
| splc_stop c s : (c <= 1)%nat -> SplitsUpTo c s [s]
| splc_last c s : ~ contains_sep s -> SplitsUpTo c s [s]
| splc_cons c s p m r ps :
    (1 < c)%nat -> first_sep s p m r -> SplitsUpTo (c - 1) r ps ->
    SplitsUpTo c s (p :: ps).

End spec.

(** The elements of a subsequence. *)
Definition subseq {A} (s : list A) (start epos : Z) : list A :=
  take (Z.to_nat (epos - start)) (drop (Z.to_nat start) s).

(** The pieces with a separator between neighbours. *)
Fixpoint joined {A} (sep : list A) (ps : list (list A)) : list A :=
  match ps with
  | [] => []
  | [p] => p
  | p :: ps' => p ++ sep ++ joined sep ps'
  end.

(** The same with another separator before the last piece. *)
Fixpoint joined_conj {A} (sep conj : list A) (ps : list (list A)) : list A :=
  match ps with
  | [] => []
  | [p] => p
  | [p; q] => p ++ conj ++ q
  | p :: ps' => p ++ sep ++ joined_conj sep conj ps'
  end.

(** An occurrence of the separator sequence under [test]. *)
Definition matches {A} (test : A -> A -> bool) (sep m : list A) : Prop :=
  Forall2 (fun a b => test a b = true) sep m.

(** Splitting and leaving empty parts out: an empty part does not count. *)
Inductive SplitsNonEmpty {A} (is_sep : list A -> Prop) : nat -> list A -> list (list A) -> Prop :=
| spn_nil c : SplitsNonEmpty is_sep c [] []
| spn_last c s : s <> [] -> ~ contains_sep is_sep s -> SplitsNonEmpty is_sep c s [s]
| spn_skip c s m r ps :
    first_sep is_sep s [] m r -> SplitsNonEmpty is_sep c r ps -> SplitsNonEmpty is_sep c s ps
| spn_stop c s p m r :
    (c <= 1)%nat -> p <> [] -> first_sep is_sep s p m r -> SplitsNonEmpty is_sep c s [s]
| spn_cons c s p m r ps :
    (1 < c)%nat -> p <> [] -> first_sep is_sep s p m r ->
    SplitsNonEmpty is_sep (c - 1) r ps -> SplitsNonEmpty is_sep c s (p :: ps).

(** An occurrence of a separator object under [test]. *)
Definition one {A} (test : A -> A -> bool) (sep : A) (m : list A) : Prop :=
  exists x, m = [x] /\ test x sep = true.
