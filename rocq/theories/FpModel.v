(** Model of sources/common-dylan/numerics.dylan on a 64-bit platform: integer-length and the taking apart of floats.
    A float is its IEEE 754 bit pattern, an unsigned integer: sign, exponent field, fraction field. *)
From Verif Require Import Base IntModel NumStrModel.
From Coq Require Import ZArith.
Local Open Scope outcome_scope.
Local Open Scope Z_scope.

(** The width of the two fields; numerics.dylan:53-60 and 199-206 ($ieee-754-single-float-digits is
    [frac_bits] + 1) *)
Record fmt := Fmt { frac_bits : Z ; exp_bits : Z }.
Definition single := Fmt 23 8.
Definition double := Fmt 52 11.
Definition digits (f : fmt) : Z := frac_bits f + 1.
Definition bias (f : fmt) : Z := 2 ^ (exp_bits f - 1) - 1.
Definition minimum_exponent (f : fmt) : Z := 1 - (bias f - 1).
Definition maximum_exponent (f : fmt) : Z := (2 ^ exp_bits f - 2) - (bias f - 1).
Definition sign_bit_mask (f : fmt) : Z := Z.shiftl 1 (frac_bits f + exp_bits f).

(** %count-high-zeros on 64-bit words, 0 <= w < 2^64 *)
Definition count_high_zeros (w : Z) : Z := if w =? 0 then 64 else 63 - Z.log2 w.

(** integer-length, numerics.dylan:13-22 *)
Definition integer_length (i : Z) : Z :=
  let word := if i <? 0 then Z.lnot i else i in 64 - count_high_zeros word.

(** %float-exponent, numerics.dylan:69-76 and 226-235 *)
Definition float_exponent (f : fmt) (x : Z) : Z :=
  Z.land (Z.shiftr x (frac_bits f)) (2 ^ exp_bits f - 1) - (bias f - 1).

(** decode-double-float and encode-double-float, sources/dylan/float.dylan:281-293, the primitives in
    sources/dfmc/llvm-back-end/llvm-primitives-float.dylan:242-279 *)
Definition decode_double (x : Z) : Z * Z := (Z.land x (2 ^ 32 - 1), Z.shiftr x 32).
Definition encode_double (low high : Z) : Z := Z.lor (Z.shiftl high 32) low.

Inductive classification := CNan | CInfinite | CZero | CSubnormal | CNormal.

(** classify-float on <single-float>, numerics.dylan:78-101 *)
Definition classify_single (x : Z) : classification :=
  let significand_bits := Z.land x (2 ^ 23 - 1) in
  let exponent := float_exponent single x in
  if exponent <? minimum_exponent single then (if significand_bits =? 0 then CZero else CSubnormal)
  else if maximum_exponent single <? exponent then (if significand_bits =? 0 then CInfinite else CNan)
  else CNormal.

(** classify-float on <double-float>, numerics.dylan:237-264 *)
Definition classify_double (x : Z) : classification :=
  let exponent := float_exponent double x in
  let '(low, high) := decode_double x in
  let significand_high_bits := Z.land high (2 ^ 20 - 1) in
  if exponent <? minimum_exponent double then
    (if (significand_high_bits =? 0) && (low =? 0) then CZero else CSubnormal)
  else if maximum_exponent double <? exponent then (if significand_high_bits =? 0 then CInfinite else CNan)
  else CNormal.

(** negative?, sources/dylan/float.dylan:193-197 and 320-324: x < 0.0, false for -0.0 and NaN *)
Definition negative (f : fmt) (x : Z) : bool :=
  let mag := Z.land x (sign_bit_mask f - 1) in
  (sign_bit_mask f <=? x) && negb (mag =? 0) && (mag <=? (2 ^ exp_bits f - 1) * 2 ^ frac_bits f).

(** 1.0, -1.0, 0.0 *)
Definition one (f : fmt) : Z := bias f * 2 ^ frac_bits f.
Definition minus_one (f : fmt) : Z := one f + sign_bit_mask f.
Definition sign_of (f : fmt) (x : Z) : Z := if negative f x then minus_one f else one f.

(** abs, sources/dylan/number.dylan:277-279 *)
Definition float_abs (f : fmt) (x : Z) : Z := if negative f x then x - sign_bit_mask f else x.

(** decode-single-subnormal, numerics.dylan:103-121, and decode-float on <single-float>, 123-151 *)
Definition decode_single_subnormal (x : Z) : Z * Z * Z :=
  let significand_bits := Z.land x (2 ^ 23 - 1) in
  let shift := count_high_zeros significand_bits + digits single - 64 in
  let exponent := minimum_exponent single - shift in
  let raw_significand := Z.lor (Z.shiftl (bias single - 1) (digits single - 1))
                               (Z.land (Z.shiftl significand_bits shift) (2 ^ 23 - 1)) in
  (raw_significand, exponent, sign_of single x).
Definition decode_float_single (x : Z) : Z * Z * Z :=
  let significand_bits := Z.land x (2 ^ 23 - 1) in
  let exponent := float_exponent single x in
  if exponent <? minimum_exponent single then
    (if significand_bits =? 0 then (0, 0, sign_of single x) else decode_single_subnormal x)
  else if maximum_exponent single <? exponent then (float_abs single x, 0, sign_of single x)
  else (Z.lor (Z.shiftl (bias single - 1) (digits single - 1)) significand_bits, exponent, sign_of single x).

(** decode-double-subnormal, numerics.dylan:266-303, and decode-float on <double-float>, 305-333 *)
Definition decode_double_subnormal (x : Z) : Z * Z * Z :=
  let '(low, high) := decode_double x in
  let significand_high_bits := Z.land high (2 ^ 20 - 1) in
  let shift := if significand_high_bits =? 0 then count_high_zeros low - 64 + digits double
               else count_high_zeros significand_high_bits - 64 - 32 + digits double in
  let exponent := minimum_exponent double - shift in
  let shifted := Z.shiftl low shift in
  let raw_low := Z.land shifted (2 ^ 32 - 1) in
  let carry := Z.shiftr shifted 32 in
  let raw_high := Z.lor (Z.shiftl (bias double - 1) (digits double - 1 - 32))
                        (Z.land (Z.lor (Z.shiftl significand_high_bits shift) carry) (2 ^ 20 - 1)) in
  (encode_double raw_low raw_high, exponent, sign_of double x).
Definition decode_float_double (x : Z) : outcome (Z * Z * Z) :=
  let exponent := float_exponent double x in
  let '(low, high) := decode_double x in
  let significand_high_bits := Z.land high (2 ^ 20 - 1) in
  if exponent <? minimum_exponent double then
    Val (if (significand_high_bits =? 0) && (low =? 0) then (0, 0, sign_of double x) else decode_double_subnormal x)
  else if maximum_exponent double <? exponent then Signal "Can't decode-float infinity or NaN"%string
  else Val (encode_double low (Z.lor (Z.shiftl (bias double - 1) (digits double - 1 - 32)) significand_high_bits), exponent, sign_of double x).

(** float-precision, numerics.dylan:192-203 and 376-393 *)
Definition float_precision_single (x : Z) : Z :=
  let exponent := float_exponent single x in
  if minimum_exponent single <? exponent then digits single
  else 64 - count_high_zeros (Z.land x (2 ^ 23 - 1)).
Definition float_precision_double (x : Z) : Z :=
  let exponent := float_exponent double x in
  if minimum_exponent double <? exponent then digits double
  else
    let '(low, high) := decode_double x in
    let significand_high_bits := Z.land high (2 ^ 20 - 1) in
    if significand_high_bits =? 0 then 64 - count_high_zeros low
    else 64 - count_high_zeros significand_high_bits + 32.

(** *** Multiplication, as IEEE 754 has it (the hardware's instruction), to nearest, ties to even *)
Definition infinity (f : fmt) : Z := (2 ^ exp_bits f - 1) * 2 ^ frac_bits f.
Definition nan (f : fmt) : Z := infinity f + 2 ^ (frac_bits f - 1).
Definition magnitude (f : fmt) (x : Z) : Z := Z.land x (sign_bit_mask f - 1).
(** The value of a finite magnitude is m * 2^e. *)
Definition emin (f : fmt) : Z := 1 - bias f - frac_bits f.
Definition mantissa (f : fmt) (mag : Z) : Z :=
  if mag / 2 ^ frac_bits f =? 0 then mag else 2 ^ frac_bits f + mag mod 2 ^ frac_bits f.
Definition exponent (f : fmt) (mag : Z) : Z :=
  if mag / 2 ^ frac_bits f =? 0 then emin f else emin f + mag / 2 ^ frac_bits f - 1.
(** m / 2^s to the nearest integer *)
Definition round_shift (m s : Z) : Z :=
  let q := m / 2 ^ s in
  let r := m mod 2 ^ s in
  if (2 * r <? 2 ^ s) || ((2 * r =? 2 ^ s) && Z.even q) then q else q + 1.
(** The magnitude nearest to m * 2^e; a carry out of the fraction goes on into the exponent. *)
Definition round (f : fmt) (m e : Z) : Z :=
  if m =? 0 then 0
  else
    let e' := Z.max (emin f) (e + Z.log2 m - frac_bits f) in
    let m' := if e' <=? e then m * 2 ^ (e - e') else round_shift m (e' - e) in
    Z.min (infinity f) ((e' - emin f) * 2 ^ frac_bits f + m').
Definition multiply (f : fmt) (x y : Z) : Z :=
  let s := if Bool.eqb (sign_bit_mask f <=? x) (sign_bit_mask f <=? y) then 0 else sign_bit_mask f in
  let a := magnitude f x in
  let b := magnitude f y in
  if (infinity f <? a) || (infinity f <? b) then nan f
  else if (a =? infinity f) || (b =? infinity f) then (if (a =? 0) || (b =? 0) then nan f else s + infinity f)
  else s + round f (mantissa f a * mantissa f b) (exponent f a + exponent f b).

(** scale-float, numerics.dylan:153-185 and 335-370.  (For a <double-float> the sign, the exponent and 20 bits of the
    fraction are in the high word; the low word is kept, or 0 in an infinity: here both are one pattern.) *)
Fixpoint scale_loop (fuel : nat) (f : fmt) (x scale : Z) : outcome Z :=
  match fuel with
  | O => NoFuel
  | S fuel =>
      let significand_bits := Z.land x (2 ^ frac_bits f - 1) in
      let exponent := float_exponent f x in
      do scaled_exponent <- int_result (exponent + scale) ;
      if exponent <? minimum_exponent f then
        do y <- scale_loop fuel f (one f) scale ; Val (multiply f x y)
      else if maximum_exponent f <? scaled_exponent then
        Val (Z.lor (Z.land x (sign_bit_mask f)) (Z.shiftl (2 ^ exp_bits f - 1) (digits f - 1)))
      else if scaled_exponent <? minimum_exponent f then
        do scale' <- int_result (scale - (minimum_exponent f - 1)) ;
        do y <- scale_loop fuel f x scale' ;
        do z <- scale_loop fuel f (one f) (minimum_exponent f - 1) ;
        Val (multiply f y z)
      else
        Val (Z.lor (Z.lor (Z.land x (sign_bit_mask f)) (Z.shiftl (scaled_exponent + (bias f - 1)) (digits f - 1))) significand_bits)
  end.
Definition scale_float (f : fmt) (x scale : Z) : outcome Z := scale_loop (Z.to_nat (Z.abs scale) + 3) f x scale.
