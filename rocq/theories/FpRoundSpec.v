(** Rounding to the nearest integer. *)
From Coq Require Import ZArith.
Local Open Scope Z_scope.

(** k is the integer nearest to m / 2^t; halfway between two integers it is the even one. *)
Definition nearest (k m t : Z) : Prop := 2 * Z.abs (k * 2 ^ t - m) <= 2 ^ t /\ (2 * Z.abs (k * 2 ^ t - m) = 2 ^ t -> Z.Even k).
