(** Model of integer/string conversion, sources/common-dylan/format.dylan:233-366.
    A <byte-string> is the list of its character codes.  <integer>s are mathematical integers,
    every <integer> result that the code computes being checked against the range of <integer>
    on a 64-bit platform (IntModel.v: 62-bit values). *)
From Verif Require Import Base IntModel.
Local Open Scope Z_scope.
Local Open Scope outcome_scope.

(** The codes of a literal. *)
Fixpoint codes (s : string) : list Z :=
  match s with
  | EmptyString => []
  | String c s => Z.of_nat (Ascii.nat_of_ascii c) :: codes s
  end.

(** An <integer> result, or the overflow error of the arithmetic primitive. *)
Definition int_result (z : Z) : outcome Z :=
  if bool_decide (min_integer <= z <= max_integer) then Val z else Signal "overflow"%string.

(** format.dylan:233-245 $number-characters, $character-numbers. *)
Definition number_characters : list Z := codes "0123456789ABCDEFGHIJKLMNOPQRSTUVWXYZ".

(** format.dylan:247-250 integer-to-character (element on a byte string checks its index). *)
Definition integer_to_character (i : Z) : outcome Z :=
  if bool_decide (0 <= i) then
    match number_characters !! Z.to_nat i with
    | Some c => Val c
    | None => Signal "element-range-error"%string
    end
  else Signal "element-range-error"%string.

(** format.dylan:236-245, 252-255 character-to-integer: the table row by row. *)
Definition character_to_integer (c : Z) : option Z :=
  if bool_decide (48 <= c <= 57) then Some (c - 48)
  else if bool_decide (65 <= c <= 90) then Some (c - 55)
  else if bool_decide (97 <= c <= 122) then Some (c - 87)
  else None.

(** character.dylan:43-51, 65-68 as-lowercase on a character. *)
Definition char_lower (c : Z) : Z := if bool_decide (65 <= c <= 90) then c + 32 else c.

(** format.dylan:279-283 the until loop: digits of [n], least significant first, onto [buffer].
    An <integer> has fewer than 64 digits in every base. *)
Fixpoint digits_loop (fuel : nat) (n base : Z) (buffer : list Z) : outcome (list Z) :=
  if bool_decide (n = 0) then Val buffer
  else match fuel with
       | O => NoFuel
       | S fuel =>
           do c <- integer_to_character (Z.rem n base);
           digits_loop fuel (Z.quot n base) base (buffer ++ [c])
       end.

(** format.dylan:257-301 integer-to-string; the string-buffer is a list, and the last loop,
    which fills the string backwards from the buffer, is [rev]. *)
Definition integer_to_string (n base size fill : Z) (lower : bool) : outcome (list Z) :=
  if negb (bool_decide (2 <= base <= 36)) then Signal "assertion"%string
  else
    let neg := bool_decide (n < 0) in
    let buffer := if bool_decide (n = 0) then [48] else [] in
    do ' (buffer, n) <-
      (if neg then
         do r <- int_result (- Z.rem n base);
         do c <- integer_to_character r;
         do q <- int_result (- Z.quot n base);
         Val (buffer ++ [c], q)
       else Val (buffer, n));
    do buffer <- digits_loop 64 n base buffer;
    let remaining := size - Z.of_nat (length buffer) in
    let remaining := if neg then remaining - 1 else remaining in
    let buffer := buffer ++ replicate (Z.to_nat remaining) fill in
    let buffer := if neg then buffer ++ [45] else buffer in
    Val (rev (map (fun c => if lower then char_lower c else c) buffer)).

(** format.dylan:329 the whitespace skipped. *)
Definition whitespace (c : Z) : bool := bool_decide (c ∈ [32; 10; 13; 12; 9]).

(** format.dylan:329-331 the while loop; string[start] is checked to be inside by the loop test. *)
Fixpoint skip_white (fuel : nat) (s : list Z) (start stop : Z) : Z :=
  match fuel with
  | O => start
  | S fuel =>
      if bool_decide (start < stop) then
        match s !! Z.to_nat start with
        | Some c => if whitespace c then skip_white fuel s (start + 1) stop else start
        | None => start
        end
      else start
  end.

(** format.dylan:342-351 the for loop: value, whether a digit was seen, next key. *)
Fixpoint read_digits (fuel : nat) (s : list Z) (i stop base sign value : Z) (valid : bool)
  : outcome (Z * bool * Z) :=
  if bool_decide (i < stop) then
    match fuel with
    | O => NoFuel
    | S fuel =>
        match s !! Z.to_nat i with
        | None => Signal "element-range-error"%string
        | Some c =>
            match character_to_integer c with
            | None => Val (value, valid, i)
            | Some d =>
                if bool_decide (d >= base) then Val (value, valid, i)
                else
                  do p <- int_result (value * base);
                  do v <- int_result (p + d * sign);
                  read_digits fuel s (i + 1) stop base sign v true
            end
        end
    end
  else Val (value, valid, stop).

(** format.dylan:306-359 string-to-integer; [default] is [None] when not supplied. *)
Definition string_to_integer (s : list Z) (base start : Z) (stop default : option Z)
  : outcome (Z * Z) :=
  let len := Z.of_nat (length s) in
  if negb (bool_decide (start = 0) || bool_decide (start > 0) && bool_decide (start < len))
  then Signal "assertion"%string
  else if match stop with
          | Some e => negb (bool_decide (e >= start) && bool_decide (e <= len))
          | None => false
          end
  then Signal "assertion"%string
  else
    let stop := match stop with Some e => e | None => len end in
    if negb (bool_decide (2 <= base <= 36)) then Signal "assertion"%string
    else
      let start' := skip_white (length s) s start stop in
      let '(start', sign) :=
        match (if bool_decide (start' < stop) then s !! Z.to_nat start' else None) with
        | Some c => if bool_decide (c = 43) then (start' + 1, 1)
                    else if bool_decide (c = 45) then (start' + 1, -1) else (start', 1)
        | None => (start', 1)
        end in
      do ' (value, valid, next) <- read_digits (length s) s start' stop base sign 0 false;
      if valid then Val (value, next)
      else match default with
           | None => Signal "no integer found"%string
           | Some d => Val (d, start)
           end.
