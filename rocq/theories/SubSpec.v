(** What subsequence-position returns (C51): the [count]-th position where the pattern occurs,
    overlapping occurrences included. *)
From Verif Require Import Base CollModel CollSpec.
From Coq Require Import ZArith.
Local Open Scope Z_scope.

(** The pattern occurs in the sequence at position [i]: the position is not beyond the end, and all
    elements of the pattern match the elements from there on. *)
Definition occurs (test : value -> value -> bool) (big pat : coll) (i : nat) : Prop :=
  (forall j, (j < i)%nat -> value_at big (KInt (Z.of_nat j)) <> None) /\
  forall j y, value_at pat (KInt (Z.of_nat j)) = Some y ->
    exists x, value_at big (KInt (Z.of_nat (i + j))) = Some x /\ test x y = true.

(** Exactly [k] positions satisfy [P]. *)
Definition exactly (k : nat) (P : nat -> Prop) : Prop :=
  exists l, NoDup l /\ length l = k /\ forall j, j ∈ l <-> P j.

(** [i] is the [count]-th position where the pattern occurs. *)
Definition nth_occurrence (test : value -> value -> bool) (big pat : coll) (count : Z) (i : nat) : Prop :=
  occurs test big pat i /\
  exists k, Z.of_nat k = count - 1 /\ exactly k (fun j => (j < i)%nat /\ occurs test big pat j).

(** The result: that position, or #f when the pattern occurs at fewer positions. *)
Definition is_position (test : value -> value -> bool) (big pat : coll) (count : Z) (r : option Z) : Prop :=
  match r with
  | Some z => exists i, z = Z.of_nat i /\ nth_occurrence test big pat count i
  | None => exists k, Z.of_nat k < count /\ exactly k (occurs test big pat)
  end.

(** The characters of a <byte-string>. *)
Definition bytes_ok (c : coll) : Prop :=
  match c with
  | CVec VkString l => Forall (fun v => match v with VChr a => 0 <= a < 256 | _ => False end) l
  | _ => True
  end.
