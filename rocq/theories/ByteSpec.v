(** Byte vectors (C63). *)
From Verif Require Import Base.
From Coq Require Import ZArith.
Local Open Scope Z_scope.

Definition byte (b : Z) : Prop := 0 <= b <= 255.

(** Hexadecimal digits. *)
Definition lower_hex (c v : Z) : Prop := (48 <= c <= 57 /\ v = c - 48) \/ (97 <= c <= 102 /\ v = c - 97 + 10).
Definition any_hex (c v : Z) : Prop := lower_hex c v \/ (65 <= c <= 70 /\ v = c - 65 + 10).

(** A string is the hexadecimal representation of bytes: two digits for each, the high one first. *)
Inductive hex_of (digit : Z -> Z -> Prop) : list Z -> list Z -> Prop :=
  | hex_nil : hex_of digit [] []
  | hex_cons c1 c2 v1 v2 s bs : digit c1 v1 -> digit c2 v2 -> hex_of digit s bs -> hex_of digit (c1 :: c2 :: s) (v1 * 16 + v2 :: bs).

(** [v'] is [v] with the elements from [start] up to but not including [stop] given by [f]. *)
Definition changed (v v' : list Z) (start stop : Z) (f : Z -> option Z) : Prop :=
  length v' = length v /\
  forall i, 0 <= i < Z.of_nat (length v) ->
    v' !! Z.to_nat i = if bool_decide (start <= i < stop) then f i else v !! Z.to_nat i.

(** The ranges given to copy-bytes lie within the sequences. *)
Definition inside (v : list Z) (start n : Z) : Prop := 0 <= n /\ 0 <= start /\ start + n <= Z.of_nat (length v).
