(** Pseudo-random numbers (C62). *)
From Verif Require Import Base NumStrSpec.
From Coq Require Import ZArith.
Local Open Scope Z_scope.

(** The linear congruential generator that fills the history. *)
Fixpoint congruential (x0 : Z) (k : nat) : Z :=
  match k with O => x0 | S k => (171 * congruential x0 k + 11213) mod 53125 end.

(** The sequence of raw values of a seed: 54 initial values, then the feedback shift register with the polynomial
    x^54 + x^8 + x^6 + x^3 + 1, on all bits at once. *)
Record sequence_of (seed : Z) (s : nat -> Z) : Prop := {
  seq_seeds : forall j, (j < 53)%nat ->
    s j = congruential (Z.abs seed mod 32768) (2 * j + 1) mod 32768 + 32768 * (congruential (Z.abs seed mod 32768) (2 * j + 2) mod 16384);
  seq_ones : s 53%nat = 2 ^ 61 - 1;
  seq_next : forall n, s (n + 54)%nat = Z.lxor (s n) (Z.lxor (s (n + 46)%nat) (Z.lxor (s (n + 48)%nat) (s (n + 51)%nat)))
}.

(** The largest multiple of the range among the 2^61 non-negative integers: values from there on are passed over, so
    that every remainder comes from equally many values. *)
Definition largest_multiple (range : Z) : Z := 2 ^ 61 / range * range.

(** A call takes the next value of the sequence that is small enough, modulo the range. *)
Inductive draws (s : nat -> Z) : nat -> list Z -> list Z -> Prop :=
  | draws_nil n : draws s n [] []
  | draws_cons n m range ranges outs : (n <= m)%nat ->
      (forall i, (n <= i < m)%nat -> largest_multiple range <= s i) -> s m < largest_multiple range ->
      draws s (S m) ranges outs ->
      draws s n (range :: ranges) (s m mod range :: outs).
