(** Specification of the extended integers: mathematical integers that fit 128 bits.
    It uses no function of the model, only its type of numbers. *)
From Verif Require Import Base IntSpec DblModel.
Local Open Scope Z_scope.

(** The integer an abstract integer stands for: the high word is signed, the low one is not. *)
Definition value (x : num) : Z :=
  match x with Small n => n | Double low high => high * 2 ^ 64 + low mod 2 ^ 64 end.

(** The abstract integers programs see: two words, never where an immediate integer fits. *)
Definition word (w : Z) : Prop := - 2 ^ 63 <= w < 2 ^ 63.
Definition well_formed (x : num) : Prop :=
  match x with
  | Small n => representable n
  | Double low high => word low /\ word high /\ ~ representable (value x)
  end.

(** What fits a double integer. *)
Definition fits (v : Z) : Prop := - 2 ^ 127 <= v < 2 ^ 127.

(** The operation returns [v]. *)
Definition returns (m : outcome num) (v : Z) : Prop :=
  exists r, m = Val r /\ well_formed r /\ value r = v.
(** It returns a pair satisfying [p]. *)
Definition returns2 (m : outcome (num * num)) (p : Z -> Z -> Prop) : Prop :=
  exists q r, m = Val (q, r) /\ well_formed q /\ well_formed r /\ p (value q) (value r).
(** It signals an overflow. *)
Definition overflows {A} (m : outcome A) : Prop := m = Signal "arithmetic-overflow-error"%string.

(** The number written with these decimal digits. *)
Definition number_of_digits (ds : list Z) : Z := fold_left (fun n d => 10 * n + d) ds 0.

(** [n] is the number of bits [v] needs without its sign: the least n with -2^n <= v < 2^n. *)
Definition length_of (v n : Z) : Prop :=
  0 <= n /\ - 2 ^ n <= v < 2 ^ n /\ (n <> 0 -> v < - 2 ^ (n - 1) \/ 2 ^ (n - 1) <= v).
