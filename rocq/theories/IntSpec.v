(** Specification of <integer> arithmetic: mathematical integers that fit 62 bits. *)
From Verif Require Import Base.
Local Open Scope Z_scope.

Definition representable (n : Z) : Prop := - 2 ^ 61 <= n < 2 ^ 61.

Definition exact_or_overflow (n : Z) : outcome Z :=
  if bool_decide (- 2 ^ 61 <= n < 2 ^ 61) then Val n
  else Signal "arithmetic-overflow-error"%string.

(** [n = q*d + r], with [q] rounded down, up, towards zero, to the nearest (ties to even). *)
Definition is_floor (n d q r : Z) : Prop :=
  n = q * d + r /\ (0 <= r < d \/ d < r <= 0).
Definition is_ceiling (n d q r : Z) : Prop :=
  n = q * d + r /\ (- d < r <= 0 \/ 0 <= r < - d).
Definition is_truncate (n d q r : Z) : Prop :=
  n = q * d + r /\ Z.abs r < Z.abs d /\ (0 < n -> 0 <= r) /\ (n < 0 -> r <= 0).
Definition is_round (n d q r : Z) : Prop :=
  n = q * d + r /\ 2 * Z.abs r <= Z.abs d /\ (2 * Z.abs r = Z.abs d -> Z.Even q).

(** A division returns the pair the rule asks for, or overflows because the quotient does not
    fit. *)
Definition division_ok (rule : Z -> Z -> Z -> Z -> Prop) (n d : Z) (o : outcome (Z * Z)) : Prop :=
  exists q r, rule n d q r /\ representable r /\
    ((representable q /\ o = Val (q, r)) \/
     (~ representable q /\ o = Signal "arithmetic-overflow-error"%string)).

(** [g] is the greatest common divisor, [l] the least common multiple. *)
Definition is_gcd (a b g : Z) : Prop :=
  (g | a) /\ (g | b) /\ 0 <= g /\ forall k, (k | a) -> (k | b) -> (k | g).
Definition is_lcm (a b l : Z) : Prop :=
  (a | l) /\ (b | l) /\ 0 <= l /\ forall k, (a | k) -> (b | k) -> (l | k).
