(** Specification of floats: the IEEE 754 interchange formats binary32 and binary64. *)
From Verif Require Import Base FpModel.
From Coq Require Import ZArith.
Local Open Scope Z_scope.

Definition std (f : fmt) : Prop := f = single \/ f = double.

(** The pattern x has sign s, exponent field raw and fraction field frac. *)
Definition fields (f : fmt) (s raw frac x : Z) : Prop :=
  (s = 0 \/ s = 1) /\ 0 <= raw < 2 ^ exp_bits f /\ 0 <= frac < 2 ^ frac_bits f /\
  x = (s * 2 ^ exp_bits f + raw) * 2 ^ frac_bits f + frac.

(** The largest exponent field is for infinities and NaNs. *)
Definition finite (f : fmt) (raw : Z) : Prop := raw < 2 ^ exp_bits f - 1.

(** The value of a finite float with these fields is, but for the sign, num * 2^ex. *)
Definition num (f : fmt) (raw frac : Z) : Z := if raw =? 0 then frac else 2 ^ frac_bits f + frac.
Definition ex (f : fmt) (raw : Z) : Z := Z.max 1 raw - (2 ^ (exp_bits f - 1) - 1) - frac_bits f.

(** m * 2^e = m' * 2^e' *)
Definition same_value (m e m' e' : Z) : Prop := exists k, k <= e /\ k <= e' /\ m * 2 ^ (e - k) = m' * 2 ^ (e' - k).

(** The kinds of floats *)
Definition kind (f : fmt) (raw frac : Z) (c : classification) : Prop :=
  match c with
  | CZero => raw = 0 /\ frac = 0
  | CSubnormal => raw = 0 /\ frac <> 0
  | CNormal => 0 < raw < 2 ^ exp_bits f - 1
  | CInfinite => raw = 2 ^ exp_bits f - 1 /\ frac = 0
  | CNan => raw = 2 ^ exp_bits f - 1 /\ frac <> 0
  end.
