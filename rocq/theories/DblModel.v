(** Model of the extended integers of the big-integers library:
    sources/lib/big-integers/double-integer.dylan, sources/dylan/double-integer-basics.dylan
    and the machine-word primitives they use, as the LLVM back end implements them
    (sources/dfmc/llvm-back-end/llvm-primitives-machine-word.dylan), 64-bit words.
    Words are their signed values, as in IntModel.  Not modelled: floats, lcm (it needs the
    division of two <double-integer>s, which is not implemented), round/ (not implemented
    either), the conversions to and from other classes. *)
From Verif Require Import Base IntModel.
Local Open Scope Z_scope.
Local Open Scope outcome_scope.

(** An abstract integer: an immediate one or a <double-integer> with its two words. *)
Inductive num := Small (n : Z) | Double (low high : Z).

(** *** Primitives on words *)

(** The unsigned value of a word. *)
Definition unsigned (x : Z) : Z := x mod 2 ^ 64.
(** llvm-primitives-machine-word.dylan:30-45 op--double-integer-merge, as an unsigned
    double word; 12-27 op--split-double-integer. *)
Definition merge (low high : Z) : Z := unsigned high * 2 ^ 64 + unsigned low.
Definition split (full : Z) : Z * Z := (wrap full, wrap (Z.shiftr (full mod 2 ^ 128) 64)).
(** A double word as a signed number. *)
Definition signed_double (full : Z) : Z := (full + 2 ^ 127) mod 2 ^ 128 - 2 ^ 127.

(** 1133-1143 unsigned-add-with-carry, 1145-1155 unsigned-subtract-with-borrow. *)
Definition add_with_carry (x y : Z) : Z * Z :=
  let s := unsigned x + unsigned y in (wrap s, if bool_decide (2 ^ 64 <= s) then 1 else 0).
Definition subtract_with_borrow (x y : Z) : Z * Z :=
  let s := unsigned x - unsigned y in (wrap s, if bool_decide (s < 0) then 1 else 0).
(** 1177-1190 unsigned-multiply, 389-404 multiply-low/high. *)
Definition unsigned_multiply (x y : Z) : Z * Z := split (unsigned x * unsigned y).
Definition multiply_low_high (x y : Z) : Z * Z := split (x * y).
(** 336-344, 352-360, 406-416, 449-457, 466-476: the low word and the overflow flag. *)
Definition with_overflow (x : Z) : Z * bool := (wrap x, negb (in_word x)).
(** 466-476: the flag is the one of 0 - x, whatever the sign of x. *)
Definition abs_with_overflow (x : Z) : Z * bool :=
  ((if bool_decide (x < 0) then wrap (0 - x) else x), negb (in_word (0 - x))).
(** 1093-1107 double-divide, 1065-1071 double-truncate/: sdiv and srem on double words. *)
Definition double_truncate (low high d : Z) : outcome (Z * Z) :=
  let x := signed_double (merge low high) in
  if bool_decide (d = 0) then UB
  else if bool_decide (Z.quot x d = 2 ^ 127) then UB
  else Val (wrap (Z.quot x d), wrap (Z.rem x d)).
(** 1291-1303 unsigned-double-shift-left, 1326-1337 unsigned-double-shift-right. *)
Definition double_shift_left (low high n : Z) : outcome (Z * Z) :=
  if bool_decide (0 <= n < 128) then Val (split (Z.shiftl (merge low high) n)) else UB.
Definition double_shift_right (low high n : Z) : outcome (Z * Z) :=
  if bool_decide (0 <= n < 128) then Val (split (Z.shiftr (merge low high) n)) else UB.
(** machine-word-lowlevel.dylan:373-381 machine-word-unsigned-shift-left. *)
Definition unsigned_shift_left (x n : Z) : outcome Z :=
  do ' (_, h) <- double_shift_left 0 x n; Val h.
(** 1220-1227 unsigned-rotate-right. *)
Definition rotate_right (x n : Z) : outcome Z :=
  do r <- lshr x n; do l <- shl x (64 - n); Val (Z.lor l r).
Definition lognot (x : Z) : Z := Z.lxor x (-1).

(** *** Conversions *)

(** double-integer.dylan:24-30 sign-word. *)
Definition sign_word (x : Z) : Z := if bool_decide (x < 0) then -1 else 0.
(** conversion-tagged-integer.dylan:91-97 double-integer-is-integer?. *)
Definition is_integer (low high : Z) : outcome bool :=
  do s <- ashr low 61;
  Val (bool_decide (high = s) && (bool_decide (high = 0) || bool_decide (high = -1))).
(** double-integer.dylan:32-39 interpret-result-as-abstract-integer. *)
Definition interpret (low high : Z) : outcome num :=
  do b <- is_integer low high;
  if b then do n <- coerce_to_integer low; Val (Small n) else Val (Double low high).
(** double-integer.dylan:93-131: the words of an argument ("promotion"). *)
Definition words (x : num) : outcome (Z * Z) :=
  match x with
  | Small n => do low <- coerce_to_word n; Val (low, sign_word low)
  | Double low high => Val (low, high)
  end.

(** *** Predicates, double-integer-basics.dylan *)

(** 128-130 negative?, 120-122 zero?, 124-126 positive?; integer.dylan for the others. *)
Definition dnegative_p (x : num) : bool :=
  match x with Small n => bool_decide (n < 0) | Double _ high => bool_decide (high < 0) end.
Definition dzero (x : num) : bool := match x with Small n => bool_decide (n = 0) | Double _ _ => false end.
Definition dpositive (x : num) : bool :=
  match x with Small n => bool_decide (0 < n) | Double _ _ => negb (dzero x) && negb (dnegative_p x) end.
(** 86-93 =, 96-107 <. *)
Definition dequal (x y : num) : bool :=
  match x, y with
  | Small n, Small m => int_equal n m
  | Double xl xh, Double yl yh => bool_decide (xl = yl) && bool_decide (xh = yh)
  | _, _ => false
  end.
Definition dless (x y : num) : bool :=
  match x, y with
  | Small n, Small m => int_less n m
  | Double xl xh, Double yl yh =>
      bool_decide (xh < yh) || (bool_decide (xh = yh) && bool_decide (unsigned xl < unsigned yl))
  | Small _, Double _ _ => dpositive y
  | Double _ _, Small _ => dnegative_p x
  end.
(** 110-112 odd?. *)
Definition dodd (x : num) : outcome bool :=
  match x with Small n => int_odd n | Double low _ => Val (Z.testbit low 0) end.

(** *** Arithmetic, double-integer.dylan *)

(** 142-169 +. *)
Definition dadd (x y : num) : outcome num :=
  match x, y with
  | Small n, Small m =>
      let '(result, over) := with_overflow (tag n + strip_tag (tag m)) in
      if over then
        do mx <- coerce_to_word n;
        do my <- coerce_to_word m;
        let '(low, carry) := add_with_carry mx my in
        do high <- add_signal_overflow (sign_word mx) (sign_word my);
        do high <- add_signal_overflow high carry;
        Val (Double low high)
      else Val (Small (untag result))
  | _, _ =>
      do ' (xl, xh) <- words x;
      do ' (yl, yh) <- words y;
      let '(low, carry) := add_with_carry xl yl in
      do high <- add_signal_overflow xh yh;
      do high <- add_signal_overflow high carry;
      interpret low high
  end.

(** 171-198 -. *)
Definition dsub (x y : num) : outcome num :=
  match x, y with
  | Small n, Small m =>
      let '(result, over) := with_overflow (tag n - strip_tag (tag m)) in
      if over then
        do mx <- coerce_to_word n;
        do my <- coerce_to_word m;
        let '(low, borrow) := subtract_with_borrow mx my in
        do high <- subtract_signal_overflow (sign_word mx) (sign_word my);
        do high <- subtract_signal_overflow high borrow;
        Val (Double low high)
      else Val (Small (untag result))
  | _, _ =>
      do ' (xl, xh) <- words x;
      do ' (yl, yh) <- words y;
      let '(low, borrow) := subtract_with_borrow xl yl in
      do high <- subtract_signal_overflow xh yh;
      do high <- subtract_signal_overflow high borrow;
      interpret low high
  end.

(** 200-237 *. *)
Definition dmul (x y : num) : outcome num :=
  match x, y with
  | Small n, Small m =>
      do my <- coerce_to_word m;
      let '(result, over) := with_overflow (strip_tag (tag n) * my) in
      if over then
        (* integer-as-raw *)
        do rx <- coerce_to_word n;
        let '(low, high) := multiply_low_high rx my in
        Val (Double low high)
      else Val (Small (untag (insert_tag result)))
  | _, _ =>
      do ' (xl, xh) <- words x;
      do ' (yl, yh) <- words y;
      let result_negative := negb (Bool.eqb (dnegative_p x) (dnegative_p y)) in
      let '(low, xlyl_high) := unsigned_multiply xl yl in
      let '(xlyh_low, _) := unsigned_multiply xl yh in
      let '(xhyl_low, _) := unsigned_multiply xh yl in
      let '(high, _) := add_with_carry xlyh_low xhyl_low in
      let '(high, _) := add_with_carry xlyl_high high in
      do result <- interpret low high;
      if negb (Bool.eqb (dnegative_p result) result_negative) then overflow else Val result
  end.

(** 335-419 double-integer-by-integer-truncate/. *)
Definition by_integer_truncate (low high divisor : Z) : outcome (Z * Z * Z) :=
  do divisor_low <- coerce_to_word divisor;
  let negative := bool_decide (high < 0) in
  let quotient_sign := if Bool.eqb negative (bool_decide (divisor < 0)) then 0 else -1 in
  do ' (quotient_high, carry_high) <- double_truncate high (sign_word high) divisor_low;
  do c <- shift_left_signal_overflow carry_high 32;
  do ' (_, m) <- double_shift_left low 0 32;
  let middle := Z.lor c m in
  do ' (quotient_middle, carry_middle) <- double_truncate middle (sign_word carry_high) divisor_low;
  do c <- shift_left_signal_overflow carry_middle 32;
  do l <- unsigned_shift_left low 32;
  do l <- lshr l 32;
  let low := Z.lor c l in
  do ' (quotient_low, remainder) <- double_truncate low (sign_word carry_middle) divisor_low;
  let quotient_adjust := if bool_decide (carry_high = 0) then 0 else quotient_sign in
  let quotient_high := wrap (quotient_high + quotient_adjust) in
  let quotient_middle := wrap (quotient_middle + quotient_adjust) in
  do qm <- unsigned_shift_left quotient_middle 32;
  do ql <- unsigned_shift_left quotient_low 32;
  do ql <- lshr ql 32;
  let quotient_low := Z.lor qm ql in
  do remainder <- coerce_to_integer remainder;
  let adjust := negb (bool_decide (remainder = 0)) && negb (Bool.eqb (bool_decide (remainder < 0)) negative) in
  let quotient_low_adjust := if adjust then (if bool_decide (divisor < 0) then -1 else 1) else 0 in
  let remainder_adjust := if adjust then divisor else 0 in
  let '(quotient_low, carry) := add_with_carry quotient_low quotient_low_adjust in
  do quotient_high <- add_signal_overflow quotient_high (sign_word quotient_low_adjust);
  do quotient_high <- add_signal_overflow quotient_high carry;
  do remainder <- int_sub remainder remainder_adjust;
  Val (quotient_low, quotient_high, remainder).

Definition not_implemented {A} : outcome A := Signal "not yet implemented"%string.

(** 515-535 truncate/. *)
Definition dtruncate (x d : num) : outcome (num * num) :=
  match x, d with
  | Small n, Small m => do ' (q, r) <- int_truncate n m; Val (Small q, Small r)
  | Small _, Double _ _ => Val (Small 0, x)
  | Double low high, Small m =>
      do ' (ql, qh, r) <- by_integer_truncate low high m;
      do q <- interpret ql qh; Val (q, Small r)
  | Double _ _, Double _ _ => not_implemented
  end.

(** 421-458 floor/. *)
Definition dfloor (x d : num) : outcome (num * num) :=
  match x, d with
  | Small n, Small m => do ' (q, r) <- int_floor n m; Val (Small q, Small r)
  | Small _, Double _ _ =>
      if Bool.eqb (dnegative_p x) (dnegative_p d) then Val (Small 0, x)
      else do r <- dadd d x; Val (Small (-1), r)
  | Double low high, Small m =>
      do ' (ql, qh, r) <- by_integer_truncate low high m;
      if negb (bool_decide (r = 0)) && (if bool_decide (m < 0) then dpositive x else dnegative_p x) then
        let '(ql, borrow) := subtract_with_borrow ql 1 in
        do qh <- subtract_signal_overflow qh borrow;
        do q <- interpret ql qh;
        do r' <- dadd (Small r) d; Val (q, r')
      else do q <- interpret ql qh; Val (q, Small r)
  | Double _ _, Double _ _ => not_implemented
  end.

(** 460-497 ceiling/. *)
Definition dceiling (x d : num) : outcome (num * num) :=
  match x, d with
  | Small n, Small m => do ' (q, r) <- int_ceiling n m; Val (Small q, Small r)
  | Small _, Double _ _ =>
      if Bool.eqb (dnegative_p x) (dnegative_p d) then do r <- dsub x d; Val (Small 1, r)
      else Val (Small 0, x)
  | Double low high, Small m =>
      do ' (ql, qh, r) <- by_integer_truncate low high m;
      if negb (bool_decide (r = 0)) && (if bool_decide (m < 0) then dnegative_p x else dpositive x) then
        let '(ql, carry) := add_with_carry ql 1 in
        do qh <- add_signal_overflow qh carry;
        do q <- interpret ql qh;
        do r' <- dsub (Small r) d; Val (q, r')
      else do q <- interpret ql qh; Val (q, Small r)
  | Double _ _, Double _ _ => not_implemented
  end.

(** 542-560 modulo, remainder. *)
Definition dmodulo (x d : num) : outcome num := do ' (_, r) <- dfloor x d; Val r.
Definition dremainder (x d : num) : outcome num := do ' (_, r) <- dtruncate x d; Val r.

(** 585-610 negative. *)
Definition negate_words (low high : Z) : outcome (Z * Z) :=
  let low1 := lognot low in
  let high1 := lognot high in
  let '(l, carry) := add_with_carry low1 1 in
  do h <- add_signal_overflow high1 carry;
  Val (l, h).
Definition dnegative (x : num) : outcome num :=
  match x with
  | Small n =>
      let '(r, over) := with_overflow (0 - strip_tag (tag n)) in
      if over then
        do w <- coerce_to_word n;
        let low1 := lognot w in
        let high1 := sign_word low1 in
        let '(low, carry) := add_with_carry low1 1 in
        do high <- add_signal_overflow high1 carry;
        Val (Double low high)
      else Val (Small (untag (insert_tag r)))
  | Double low high => do ' (l, h) <- negate_words low high; interpret l h
  end.

(** 613-644 abs. *)
Definition dabs (x : num) : outcome num :=
  match x with
  | Small n =>
      let '(r, over) := abs_with_overflow (strip_tag (tag n)) in
      if over then
        do w <- coerce_to_word n;
        let low1 := lognot w in
        let high1 := sign_word low1 in
        let '(low, carry) := add_with_carry low1 1 in
        do high <- add_signal_overflow high1 carry;
        Val (Double low high)
      else Val (Small (untag (insert_tag r)))
  | Double low high =>
      if dnegative_p x then do ' (l, h) <- negate_words low high; interpret l h else Val x
  end.

(** *** Shifts *)

(** 731-762 ash-left. *)
Definition dash_left (x : num) (shift : Z) : outcome num :=
  do ' (xl, xh) <- words x;
  if bool_decide (shift < 64) then
    do ' (result_low, high_low) <- double_shift_left xl 0 shift;
    do high_high <- shift_left_signal_overflow xh shift;
    interpret result_low (Z.lor high_low high_high)
  else if negb (bool_decide (xh = sign_word xh)) || negb (bool_decide (xh = sign_word xl)) then overflow
  else
    let shift := shift - 64 in
    do ' (xl, shift) <-
      (if bool_decide (shift = 64) then
         do l <- shift_left_signal_overflow xl 32; Val (l, 32)
       else Val (xl, shift));
    do result_high <- shift_left_signal_overflow xl shift;
    interpret 0 result_high.
(** 763-790 ash-right. *)
Definition dash_right (x : num) (shift : Z) : outcome num :=
  do ' (xl, xh) <- words x;
  if bool_decide (shift < 64) then
    do result_high <- ashr xh shift;
    do low_high <- rotate_right xh shift;
    do low_low <- lshr xl shift;
    do mask <- unsigned_shift_left (-1) (64 - shift);
    interpret (Z.lor low_low (Z.land low_high mask)) result_high
  else
    let shift := shift - 64 in
    if bool_decide (shift < 64) then
      do result_low <- ashr xh shift;
      interpret result_low (sign_word xh)
    else Val (Small (if dnegative_p x then -1 else 0)).
(** 678-705 ash. *)
Definition dash (x : num) (shift : Z) : outcome num :=
  if bool_decide (shift < 0) then
    do s <- int_negative shift; dash_right x (Z.min s 128)
  else dash_left x (Z.min shift 128).

(** 678-705, 792-810 lsh-left, 811-832 lsh-right. *)
Definition dlsh (x : num) (shift : Z) : outcome num :=
  do ' (xl, xh) <- words x;
  if bool_decide (shift < 0) then
    do s <- int_negative shift;
    let s := Z.min s 128 in
    if bool_decide (s < 64) then
      do ' (l, h) <- double_shift_right xl xh s; interpret l h
    else if bool_decide (s - 64 < 64) then
      do l <- lshr xh (s - 64); interpret l 0
    else Val (Small 0)
  else
    let s := Z.min shift 128 in
    if bool_decide (s < 64) then
      do ' (l, h) <- double_shift_left xl xh s; interpret l h
    else if bool_decide (s - 64 < 64) then
      do h <- unsigned_shift_left xl (s - 64); interpret 0 h
    else Val (Small 0).

(** *** Bits *)

(** 838-872 binary-logior, -logxor, -logand. *)
Definition dlogical (small : Z -> Z -> Z) (op : Z -> Z -> Z) (x y : num) : outcome num :=
  match x, y with
  | Small n, Small m => Val (Small (small n m))
  | _, _ =>
      do ' (xl, xh) <- words x;
      do ' (yl, yh) <- words y;
      interpret (op xl yl) (op xh yh)
  end.
Definition dlogior := dlogical int_logior Z.lor.
Definition dlogxor := dlogical int_logxor Z.lxor.
Definition dlogand := dlogical int_logand Z.land.
(** 874-882 lognot. *)
Definition dlognot (x : num) : outcome num :=
  match x with
  | Small n => Val (Small (int_lognot n))
  | Double low high => interpret (lognot low) (lognot high)
  end.
(** 884-903 logbit?. *)
Definition dlogbit (bitno : Z) (x : num) : outcome bool :=
  match x with
  | Small n => int_logbit bitno n
  | Double low high =>
      if bool_decide (bitno < 0) then Val false
      else if bool_decide (bitno < 64) then Val (Z.testbit low bitno)
      else if bool_decide (bitno < 128) then Val (Z.testbit high (bitno - 64))
      else Val (dnegative_p x)
  end.
(** llvm.ctlz: the zeros above the highest one. *)
Definition count_high_zeros (x : Z) : Z :=
  if bool_decide (unsigned x = 0) then 64 else 63 - Z.log2 (unsigned x).
(** 51-66 integer-length. *)
Definition dinteger_length (low high : Z) : Z :=
  let '(low, high) := if dnegative_p (Double low high) then (lognot low, lognot high) else (low, high) in
  if bool_decide (high = 0) then 64 - count_high_zeros low
  else 2 * (64 - count_high_zeros high).

(** *** Powers *)

(** 658-668 ^, the loop; the exponent is an immediate integer here. *)
Fixpoint dpower_loop (fuel : nat) (base : num) (p : Z) (x : num) : outcome num :=
  if bool_decide (p = 0) then Val x
  else
    match fuel with
    | O => NoFuel
    | S f =>
        do base' <- (if bool_decide (p > 1) then dmul base base else Val base);
        do x' <- (if Z.odd p then dmul base x else Val x);
        dpower_loop f base' (Z.shiftr p 1) x'
    end.
Definition dpower_nonneg (base : num) (power : Z) : outcome num :=
  if dequal base (Small 2) then dash (Small 1) power
  else
    do b <- (if bool_decide (power > 1) then dmul base base else Val base);
    dpower_loop (Z.to_nat (Z.log2 power + 1)) b (Z.shiftr power 1) (if Z.odd power then base else Small 1).
(** 646-670 ^; a negative power divides, which is an error. *)
Definition dpower (base : num) (power : Z) : outcome num :=
  if bool_decide (power < 0) then Signal "no method for /"%string
  else if dnegative_p base then
    do nb <- dnegative base;
    do r <- dpower_nonneg nb power;
    if Z.odd power then dnegative r else Val r
  else dpower_nonneg base power.

(** *** gcd *)

(** 934-946 (gcd), first loop: halve both until one is odd. *)
Fixpoint dgcd_halve (fuel : nat) (k : Z) (u v : num) : outcome (Z * num * num) :=
  do w <- dlogior u v;
  do odd <- dodd w;
  if odd then Val (k, u, v)
  else
    match fuel with
    | O => NoFuel
    | S f =>
        do u' <- dash u (-1);
        do v' <- dash v (-1);
        dgcd_halve f (k + 1) u' v'
    end.
(** 947-969 (gcd), second loop. *)
Fixpoint dgcd_loop (fuel : nat) (k : Z) (u v tmp : num) : outcome num :=
  match fuel with
  | O => NoFuel
  | S f =>
      do odd <- dodd tmp;
      if odd then
        do ' (u, v) <- (if dpositive tmp then Val (tmp, v)
                        else do n <- dnegative tmp; Val (u, n));
        do tmp <- dsub u v;
        if dzero tmp then dash u k
        else do t <- dash tmp (-1); dgcd_loop f k u v t
      else do t <- dash tmp (-1); dgcd_loop f k u v t
  end.
(** 934-971 gcd; the fuel bounds the iterations of each loop. *)
Definition dgcd (fuel : nat) (n m : num) : outcome num :=
  if dequal n (Small 0) then Val m
  else if dequal m (Small 0) then Val n
  else if dequal n m then Val n
  else
    do u0 <- dabs n;
    do v0 <- dabs m;
    do ' (k, u, v) <- dgcd_halve fuel 0 u0 v0;
    do odd <- dodd u;
    do t <- (if odd then dnegative v else dash u (-1));
    dgcd_loop fuel k u v t.

(** *** Printing *)

(** 977-998 number-to-string: the digits, most significant first; an index that is no
    digit of $number-characters is an error. *)
Definition digit (r : num) : outcome Z :=
  match r with
  | Small n => if bool_decide (0 <= n < 36) then Val n else Signal "element outside of range"%string
  | Double _ _ => Signal "element outside of range"%string
  end.
Fixpoint process_integer (fuel : nat) (n : num) : outcome (list Z) :=
  match fuel with
  | O => NoFuel
  | S f =>
      do ' (q, r) <- dtruncate n (Small 10);
      do ds <- (if dzero q then Val [] else process_integer f q);
      do d <- digit r;
      Val (ds ++ [d])
  end.
(** The sign and the digits. *)
Definition number_to_digits (fuel : nat) (n : num) : outcome (bool * list Z) :=
  if dnegative_p n then
    do ' (q, r) <- dtruncate n (Small 10);
    do ds <- (if dzero q then Val [] else do nq <- dnegative q; process_integer fuel nq);
    do nr <- dnegative r;
    do d <- digit nr;
    Val (true, ds ++ [d])
  else do ds <- process_integer fuel n; Val (false, ds).

(** *** Words as abstract integers *)

(** llvm-primitives-machine-word.dylan:137-178 wrap-abstract-integer, 180-212
    wrap-unsigned-abstract-integer. *)
Definition wrap_abstract (x : Z) : num :=
  if bool_decide (2 ^ 61 - 1 < x) then Double x 0
  else if bool_decide (x < - 2 ^ 61) then Double x (-1)
  else Small (untag (wrap (4 * x + 1))).
Definition wrap_unsigned_abstract (x : Z) : num :=
  if bool_decide (2 ^ 61 - 1 < unsigned x) then Double x 0 else Small (untag (wrap (4 * x + 1))).
(** sources/lib/run-time/c-primitives-math.c:129-159: the same for the C back end; the
    masks are the three and the two highest bits. *)
Definition c_wrap_abstract (x : Z) : num :=
  let hs := Z.land (unsigned x) (unsigned (Z.shiftl (-1) 61)) in
  if negb (bool_decide (hs = 0)) && negb (bool_decide (hs = unsigned (Z.shiftl (-1) 61)))
  then Double x (if bool_decide (x < 0) then -1 else 0)
  else Small (untag (wrap (4 * x + 1))).
Definition c_wrap_unsigned_abstract (x : Z) : num :=
  if negb (bool_decide (Z.land (unsigned x) (unsigned (Z.shiftl (-1) 62)) = 0))
  then Double x 0 else Small (untag (wrap (4 * x + 1))).
