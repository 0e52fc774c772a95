(** Specification of numerals: digit strings in a base. *)
From Verif Require Import Base.
Local Open Scope Z_scope.

(** [c] is a digit with value [v]: 0-9, then the letters in either case. *)
Definition digit_of (c v : Z) : Prop :=
  (48 <= c <= 57 /\ v = c - 48) \/ (65 <= c <= 90 /\ v = c - 65 + 10) \/ (97 <= c <= 122 /\ v = c - 97 + 10).

(** [ds] is a string of digits of the base, most significant first, with value [v]. *)
Inductive numeral (base : Z) : list Z -> Z -> Prop :=
| numeral_nil : numeral base [] 0
| numeral_snoc ds v c d : numeral base ds v -> digit_of c d -> d < base ->
    numeral base (ds ++ [c]) (v * base + d).

(** An optional sign. *)
Definition sign_of (sgn : list Z) (s : Z) : Prop :=
  (sgn = [] /\ s = 1) \/ (sgn = [43] /\ s = 1) \/ (sgn = [45] /\ s = -1).

(** Space, newline, return, form feed, tab. *)
Definition blank (c : Z) : Prop := c = 32 \/ c = 10 \/ c = 13 \/ c = 12 \/ c = 9.

(** Integers that fit in an <integer>. *)
Definition fits (z : Z) : Prop := - 2 ^ 61 <= z < 2 ^ 61.
