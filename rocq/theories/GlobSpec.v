(** What glob patterns mean (C71). *)
From Verif Require Import Base.
From Coq Require Import ZArith.
Local Open Scope Z_scope.

Definition byte (c : Z) : Prop := 0 <= c < 256.

(** A character class: [class_at first s rest ranges] says that [s] begins with the characters of a class, given by the ranges,
    and the closing bracket, followed by [rest].  A bracket at the very beginning is one of the characters.  [x-y] is a range
    whatever y is. *)
Inductive class_at : bool -> list Z -> list Z -> list (Z * Z) -> Prop :=
| class_end rest : class_at false (93 :: rest) rest []
| class_range first a b s rest ranges : first = true \/ a <> 93 ->
    class_at false s rest ranges -> class_at first (a :: 45 :: b :: s) rest ((a, b) :: ranges)
| class_char first a s rest ranges : first = true \/ a <> 93 -> (forall b s', s <> 45 :: b :: s') ->
    class_at false s rest ranges -> class_at first (a :: s) rest ((a, a) :: ranges).

Definition in_ranges (c : Z) (ranges : list (Z * Z)) : Prop := exists a b, (a, b) ∈ ranges /\ a <= c <= b.

(** The string matches the pattern: ? is any character, * any number of characters, [...] a character of the class, [^...] one
    that is not in it, \c the character c, and any other character is itself. *)
Inductive matches : list Z -> list Z -> Prop :=
| match_end : matches [] []
| match_any p c w : byte c -> matches p w -> matches (63 :: p) (c :: w)
| match_star p v w : Forall byte v -> matches p w -> matches (42 :: p) (v ++ w)
| match_class s p ranges c w : (forall s', s <> 94 :: s') -> class_at true s p ranges -> in_ranges c ranges ->
    matches p w -> matches (91 :: s) (c :: w)
| match_not_class s p ranges c w : class_at true s p ranges -> byte c -> ~ in_ranges c ranges ->
    matches p w -> matches (91 :: 94 :: s) (c :: w)
| match_escape p c w : matches p w -> matches (92 :: c :: p) (c :: w)
| match_self p c w : c ∉ [63; 42; 91; 92] -> matches p w -> matches (c :: p) (c :: w).

(** A pattern is well formed if its classes are closed and it does not end in a single backslash. *)
Inductive well_formed : list Z -> Prop :=
| wf_end : well_formed []
| wf_class s p ranges : (forall s', s <> 94 :: s') -> class_at true s p ranges -> well_formed p -> well_formed (91 :: s)
| wf_not_class s p ranges : class_at true s p ranges -> well_formed p -> well_formed (91 :: 94 :: s)
| wf_escape p c : well_formed p -> well_formed (92 :: c :: p)
| wf_other p c : c ∉ [91; 92] -> well_formed p -> well_formed (c :: p).

(** Regular expressions and the strings they denote. *)
Inductive rx := Epsilon | Symbol_set (set : Z -> bool) | Union (e1 e2 : rx) | Concatenation (e1 e2 : rx) | Closure (e : rx).

Inductive denotes : rx -> list Z -> Prop :=
| den_epsilon : denotes Epsilon []
| den_set set c : set c = true -> denotes (Symbol_set set) [c]
| den_union1 e1 e2 w : denotes e1 w -> denotes (Union e1 e2) w
| den_union2 e1 e2 w : denotes e2 w -> denotes (Union e1 e2) w
| den_concatenation e1 e2 v w : denotes e1 v -> denotes e2 w -> denotes (Concatenation e1 e2) (v ++ w)
| den_closure_nil e : denotes (Closure e) []
| den_closure_app e v w : denotes e v -> denotes (Closure e) w -> denotes (Closure e) (v ++ w).
