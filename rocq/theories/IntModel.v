(** Model of <integer> arithmetic: sources/dylan/integer.dylan on top of
    sources/dylan/conversion-tagged-integer.dylan, machine-word-lowlevel.dylan and the
    machine-word primitives of the LLVM back end
    (sources/dfmc/llvm-back-end/llvm-primitives-machine-word.dylan), 64-bit words.

    A machine word is its signed value, a [Z] between -2^63 and 2^63-1.  A Dylan <integer>
    is modelled by its value; [tag] gives the word that represents it.  Shifting by 64 or
    more is poison in LLVM and dividing by zero is undefined there: both are [UB] (on x86 the
    division traps and the run-time turns the trap into an error). *)
From Verif Require Import Base.
Local Open Scope Z_scope.
Local Open Scope outcome_scope.

(** *** Machine words *)

Definition word_limit : Z := 2 ^ 63.
Definition in_word (x : Z) : bool := bool_decide (- word_limit <= x < word_limit).

(** The signed word with the same low 64 bits. *)
Definition wrap (x : Z) : Z := (x + word_limit) mod (2 * word_limit) - word_limit.

Definition overflow {A} : outcome A := Signal "arithmetic-overflow-error"%string.

(** LLVM shl, lshr, ashr. *)
Definition shl (x n : Z) : outcome Z :=
  if bool_decide (0 <= n < 64) then Val (wrap (Z.shiftl x n)) else UB.
Definition ashr (x n : Z) : outcome Z :=
  if bool_decide (0 <= n < 64) then Val (Z.shiftr x n) else UB.
Definition lshr (x n : Z) : outcome Z :=
  if bool_decide (0 <= n < 64) then Val (wrap (Z.shiftr (x mod 2 ^ 64) n)) else UB.

(** LLVM sdiv, srem: undefined for a zero divisor and for -2^63 / -1. *)
Definition sdiv (x y : Z) : outcome Z :=
  if bool_decide (y = 0) then UB
  else if in_word (Z.quot x y) then Val (Z.quot x y) else UB.
Definition srem (x y : Z) : outcome Z :=
  if bool_decide (y = 0) then UB
  else if in_word (Z.quot x y) then Val (Z.rem x y) else UB.

(** llvm-primitives-machine-word.dylan:835-896: add, subtract, multiply -signal-overflow
    (llvm.sadd/ssub/smul.with.overflow, then a trap). *)
Definition checked (x : Z) : outcome Z := if in_word x then Val x else overflow.
Definition add_signal_overflow (x y : Z) : outcome Z := checked (x + y).
Definition subtract_signal_overflow (x y : Z) : outcome Z := checked (x - y).
Definition multiply_signal_overflow (x y : Z) : outcome Z := checked (x * y).
(** 898-916 negative-signal-overflow. *)
Definition negative_signal_overflow (x : Z) : outcome Z := checked (0 - x).
(** 918-938 abs-signal-overflow: the trap is taken on 0 - x, whatever the sign of x. *)
Definition abs_signal_overflow (x : Z) : outcome Z :=
  do n <- checked (0 - x); Val (if bool_decide (x < 0) then n else x).
(** 940-953 shift-left-signal-overflow. *)
Definition shift_left_signal_overflow (x n : Z) : outcome Z :=
  do r <- shl x n;
  do u <- ashr r n;
  if bool_decide (x = u) then Val r else overflow.

(** 507-551 op--machine-word-floor/. *)
Definition word_floor (x d : Z) : outcome (Z * Z) :=
  do div <- sdiv x d;
  do rem <- srem x d;
  if bool_decide (rem = 0) then Val (div, 0)
  else if bool_decide (d < 0) then
    if bool_decide (rem > 0) then Val (div + -1, rem + d) else Val (div, rem)
  else
    if bool_decide (rem < 0) then Val (div + -1, rem + d) else Val (div, rem).

(** 582-626 op--machine-word-ceiling/. *)
Definition word_ceiling (x d : Z) : outcome (Z * Z) :=
  do div <- sdiv x d;
  do rem <- srem x d;
  if bool_decide (rem = 0) then Val (div, 0)
  else if bool_decide (d < 0) then
    if bool_decide (rem < 0) then Val (div + 1, rem - d) else Val (div, rem)
  else
    if bool_decide (rem > 0) then Val (div + 1, rem - d) else Val (div, rem).

(** 657-737 op--machine-word-round/.  The same computation is in
    sources/lib/run-time/c-primitives-math.c:224-262. *)
Definition word_round (x d : Z) : outcome (Z * Z) :=
  do div <- sdiv x d;
  do rem <- srem x d;
  let abs_divisor := if bool_decide (d < 0) then 0 - d else d in
  do threshold <- sdiv abs_divisor 2;
  let even := Z.even div in
  let inc := (div + 1, rem - d) in
  let dec := (div + -1, rem + d) in
  if bool_decide (rem > threshold) || (bool_decide (rem = threshold) && negb even) then
    Val (if bool_decide (d < 0) then dec else inc)
  else if bool_decide (rem < - threshold) || (bool_decide (rem = - threshold) && negb even) then
    Val (if bool_decide (d < 0) then inc else dec)
  else Val (div, rem).

(** 739-760 primitive-machine-word-truncate/. *)
Definition word_truncate (x d : Z) : outcome (Z * Z) :=
  do div <- sdiv x d; do rem <- srem x d; Val (div, rem).

(** *** Tagged integers, conversion-tagged-integer.dylan *)

(** 10-13 the tag; 24-32 interpret-*: an integer [n] is the word 4n + 1. *)
Definition tag (n : Z) : Z := 4 * n + 1.
Definition untag (w : Z) : Z := w / 4.
(** 34-42 strip-integer-tag, insert-integer-tag (wrapping machine-word-subtract/add). *)
Definition strip_tag (w : Z) : Z := wrap (w - 1).
Definition insert_tag (w : Z) : Z := wrap (w + 1).
(** 44-47 force-integer-tag: logand with the mask ash(-1, 2), then insert-integer-tag. *)
Definition force_tag (w : Z) : Z := insert_tag (Z.land w (-4)).
(** 52-62 coerce-machine-word-to-integer, 67-75 coerce-integer-to-machine-word. *)
Definition coerce_to_integer (w : Z) : outcome Z :=
  do b <- shift_left_signal_overflow w 2; Val (untag (insert_tag b)).
Definition coerce_to_word (n : Z) : outcome Z := ashr (tag n) 2.

(** integer.dylan:79-83 $minimum-integer, $maximum-integer. *)
Definition min_integer : Z := untag (force_tag (- word_limit)).
Definition max_integer : Z := untag (force_tag (word_limit - 1)).

(** integer.dylan:95-105 = and <. *)
Definition int_equal (x y : Z) : bool := bool_decide (tag x = tag y).
Definition int_less (x y : Z) : bool := bool_decide (tag x < tag y).

(** integer.dylan:136-157 +, -, *. *)
Definition int_add (x y : Z) : outcome Z :=
  do r <- add_signal_overflow (tag x) (strip_tag (tag y)); Val (untag r).
Definition int_sub (x y : Z) : outcome Z :=
  do r <- subtract_signal_overflow (tag x) (strip_tag (tag y)); Val (untag r).
Definition int_mul (x y : Z) : outcome Z :=
  do my <- coerce_to_word y;
  do r <- multiply_signal_overflow (strip_tag (tag x)) my;
  Val (untag (insert_tag r)).

(** integer.dylan:175-192 floor/, ceiling/, round/, truncate/. *)
Definition int_division (f : Z -> Z -> outcome (Z * Z)) (x d : Z) : outcome (Z * Z) :=
  do mx <- coerce_to_word x;
  do md <- coerce_to_word d;
  do ' (q, r) <- f mx md;
  do q' <- coerce_to_integer q;
  do r' <- coerce_to_integer r;
  Val (q', r').
Definition int_floor := int_division word_floor.
Definition int_ceiling := int_division word_ceiling.
Definition int_round := int_division word_round.
Definition int_truncate := int_division word_truncate.

(** integer.dylan:194-208 modulo, remainder; raw-as-integer tags without a check. *)
Definition raw_as_integer (w : Z) : Z := untag (wrap (4 * w + 1)).
Definition int_modulo (x d : Z) : outcome Z :=
  do mx <- coerce_to_word x; do md <- coerce_to_word d;
  do ' (_, r) <- word_floor mx md; Val (raw_as_integer r).
Definition int_remainder (x d : Z) : outcome Z :=
  do mx <- coerce_to_word x; do md <- coerce_to_word d;
  do ' (_, r) <- word_truncate mx md; Val (raw_as_integer r).

(** integer.dylan:210-222 negative, abs. *)
Definition int_negative (x : Z) : outcome Z :=
  do r <- negative_signal_overflow (strip_tag (tag x)); Val (untag (insert_tag r)).
Definition int_abs (x : Z) : outcome Z :=
  do r <- abs_signal_overflow (strip_tag (tag x)); Val (untag (insert_tag r)).

(** integer.dylan:263-283 binary-logior, -logand, -logxor, lognot. *)
Definition int_logior (x y : Z) : Z := untag (Z.lor (tag x) (tag y)).
Definition int_logand (x y : Z) : Z := untag (Z.land (tag x) (tag y)).
Definition int_logxor (x y : Z) : Z := untag (force_tag (Z.lxor (tag x) (tag y))).
Definition int_lognot (x : Z) : Z := untag (force_tag (Z.lxor (tag x) (-1))).

(** integer.dylan:285-297 logbit?, logbit-deposit; the index is shifted past the tag. *)
Definition int_logbit (index x : Z) : outcome bool :=
  do i <- int_add index 2;
  do mask <- shl 1 i;
  Val (negb (bool_decide (Z.land (tag x) mask = 0))).
Definition int_logbit_deposit (z : bool) (index x : Z) : outcome Z :=
  do i <- int_add index 2;
  do mask <- shl 1 i;
  Val (untag (if z then Z.lor (tag x) mask else Z.land (tag x) (Z.lxor mask (-1)))).

(** integer.dylan:299-308 bit-field-extract; llvm-primitives 310-318. *)
Definition int_bit_field_extract (offset size x : Z) : outcome Z :=
  do s <- int_add size 2;
  do one <- shl 1 s;
  let mask := wrap (one - 1) in
  do sx <- lshr (tag x) offset;
  Val (untag (force_tag (Z.land sx mask))).

(** integer.dylan:310-321 bit-field-deposit; llvm-primitives 297-308. *)
Definition int_bit_field_deposit (field offset size x : Z) : outcome Z :=
  do f <- coerce_to_word field;
  do o <- int_add offset 2;
  do sf <- shl f o;
  do one <- shl 1 size;
  do sm <- shl (wrap (one - 1)) o;
  Val (untag (Z.lor sf (Z.land (tag x) (Z.lxor sm (-1))))).

(** integer.dylan:331-342 ash-right. *)
Definition int_ash_right (x shift : Z) : outcome Z :=
  if bool_decide (shift < 64) then
    do r <- ashr (tag x) shift; Val (untag (force_tag r))
  else Val (if bool_decide (x < 0) then -1 else 0).

(** integer.dylan:344-359 ash-left. *)
Definition int_ash_left (x shift : Z) : outcome Z :=
  let shift := Z.min shift 64 in
  let mx := strip_tag (tag x) in
  do ' (mx, shift) <-
    (if bool_decide (shift = 64) then
       do m <- shift_left_signal_overflow mx 32; Val (m, 32)
     else Val (mx, shift));
  do r <- shift_left_signal_overflow mx shift;
  Val (untag (insert_tag r)).

(** integer.dylan:323-329 ash. *)
Definition int_ash (x shift : Z) : outcome Z :=
  if bool_decide (shift < 0) then do s <- int_negative shift; int_ash_right x s
  else int_ash_left x shift.

(** integer.dylan:361-393 lsh.  machine-word-unsigned-shift-left is the high word of the
    double shift of (0, x): the low 64 bits of x << shift. *)
Definition int_lsh (x shift : Z) : outcome Z :=
  if bool_decide (shift < 0) then
    do s <- int_negative shift;
    if bool_decide (s < 64) then
      do r <- lshr (tag x) s; Val (untag (force_tag r))
    else Val 0
  else
    if bool_decide (shift < 64) then
      do r <- shl (strip_tag (tag x)) shift; Val (untag (insert_tag r))
    else Val 0.

(** odd?, integer.dylan:107-110, is logbit?(0, x). *)
Definition int_odd (x : Z) : outcome bool := int_logbit 0 x.

(** integer.dylan:234-245 the loop of ^. *)
Fixpoint power_loop (fuel : nat) (base p x : Z) : outcome Z :=
  if bool_decide (p = 0) then Val x
  else
    match fuel with
    | O => NoFuel
    | S f =>
        do base' <- (if bool_decide (p > 1) then int_mul base base else Val base);
        do p' <- int_ash p (-1);
        do odd <- int_odd p;
        do x' <- (if odd then int_mul base x else Val x);
        power_loop f base' p' x'
    end.

(** integer.dylan:234-245 with its initial values; [base] is not negative. *)
Definition power_nonneg (base power : Z) : outcome Z :=
  do b <- (if bool_decide (power > 1) then int_mul base base else Val base);
  do p <- int_ash power (-1);
  do odd <- int_odd power;
  power_loop (Z.to_nat (Z.log2 power + 1)) b p (if odd then base else 1).

(** integer.dylan:224-247 ^; the recursive calls have a base that is not negative. *)
Definition int_power (base power : Z) : outcome Z :=
  if bool_decide (power < 0) then Signal "negative power"%string
  else if bool_decide (base = 2) then int_ash 1 power
  else if bool_decide (base < 0) then
    do nb <- int_negative base;
    do odd <- int_odd power;
    do r <- (if bool_decide (nb = 2) then int_ash 1 power else power_nonneg nb power);
    if odd then int_negative r else Val r
  else power_nonneg base power.

(** integer.dylan:413-417 (gcd), first loop: halve both until one is odd. *)
Fixpoint gcd_halve (fuel : nat) (k u v : Z) : outcome (Z * Z * Z) :=
  do odd <- int_odd (int_logior u v);
  if odd then Val (k, u, v)
  else
    match fuel with
    | O => NoFuel
    | S f =>
        do k' <- int_add k 1;
        do u' <- int_ash u (-1);
        do v' <- int_ash v (-1);
        gcd_halve f k' u' v'
    end.

(** integer.dylan:418-437 (gcd), second loop. *)
Fixpoint gcd_loop (fuel : nat) (k u v tmp : Z) : outcome Z :=
  match fuel with
  | O => NoFuel
  | S f =>
      do odd <- int_odd tmp;
      if odd then
        do ' (u, v) <- (if bool_decide (tmp > 0) then Val (tmp, v)
                        else do n <- int_negative tmp; Val (u, n));
        do tmp <- int_sub u v;
        if bool_decide (tmp = 0) then int_ash u k
        else do t <- int_ash tmp (-1); gcd_loop f k u v t
      else do t <- int_ash tmp (-1); gcd_loop f k u v t
  end.

(** integer.dylan:403-440 gcd. *)
Definition int_gcd (n m : Z) : outcome Z :=
  if bool_decide (n = 0) then Val m
  else if bool_decide (m = 0) then Val n
  else if bool_decide (n = m) then Val n
  else
    do u0 <- int_abs n;
    do v0 <- int_abs m;
    do ' (k, u, v) <- gcd_halve (Z.to_nat (Z.log2 u0)) 0 u0 v0;
    do odd <- int_odd u;
    do t <- (if odd then int_negative v else int_ash u (-1));
    gcd_loop (S (Z.to_nat (Z.log2 u + Z.log2 v))) k u v t.

(** integer.dylan:397-399 lcm. *)
Definition int_lcm (n m : Z) : outcome Z :=
  do g <- int_gcd n m;
  do ' (q, _) <- int_truncate (Z.max n m) g;
  int_mul q (Z.min n m).
