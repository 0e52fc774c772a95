(** Model of format control strings: format and format-to-string of the io library
    (sources/io/format.dylan) and format-to-string of common-dylan (sources/common-dylan/format.dylan:51-111).
    A string is the list of its character codes (bytes).  A stream is the text written to it so far. *)
From Verif Require Import Base IntModel NumStrModel.
From Coq Require Import ZArith.
Local Open Scope outcome_scope.
Local Open Scope Z_scope.

(** Format arguments.  [AFun text] is a function that writes [text] to the stream it is called on; floats and
    other objects are only known by a number. *)
Inductive arg :=
  | AInt (z : Z)
  | AChr (c : Z)
  | AStr (s : list Z)
  | AFun (text : list Z)
  | AFloat (n : nat)
  | AFalse
  | AObj (n : nat).

(** What print-object writes for an argument, with *print-escape?* false and true (sources/io/print.dylan is not
    modelled); in common-dylan print-pretty-name and print-unique-name, and number-to-string for floats. *)
Record printer := Printer { pr_message : arg -> list Z; pr_escaped : arg -> list Z }.

(** control-string[i], with bounds check *)
Definition char_at (s : list Z) (i : nat) : outcome Z :=
  match s !! i with Some c => Val c | None => Signal "element-range-error" end.

(** ** The io library *)

(** char-classes[as(<byte>, c)] == #"digit", io/format.dylan:107-113 *)
Definition class_digit (c : Z) : bool := ((48 <=? c) && (c <=? 57)) || (c =? 45).

(** repeat in format-integer, io/format.dylan:283-294; an <integer> has fewer than 64 digits *)
Fixpoint format_repeat (fuel : nat) (arg radix : Z) (digits : list Z) : outcome (list Z) :=
  match fuel with
  | O => NoFuel
  | S fuel =>
      do d <- integer_to_character (arg mod radix) ;
      let quotient := arg / radix in
      if quotient =? 0 then Val (d :: digits) else format_repeat fuel quotient radix (d :: digits)
  end.

(** format-integer on <integer>, io/format.dylan:277-314: the text written.  $digits is the string of
    number_characters. *)
Definition format_integer (arg radix : Z) (lowercase : bool) : outcome (list Z) :=
  let written digits := map (fun d => if lowercase : bool then char_lower d else d) digits in
  if arg <? 0 then
    do quotient <- int_result (- Z.quot arg radix) ;
    do d <- integer_to_character (- Z.rem arg radix) ;
    if Z.quot arg radix =? 0 then Val (45 :: written [d])
    else do ds <- format_repeat 64 quotient radix [d] ; Val (45 :: written ds)
  else do ds <- format_repeat 64 arg radix [] ; Val (written ds).

(** The methods of format-integer, io/format.dylan:270-323, but for <double-integer> *)
Definition format_number (p : printer) (a : arg) (radix : Z) (lowercase : bool) : outcome (list Z) :=
  match a with
  | AInt z => format_integer z radix lowercase
  | AFloat _ => if radix =? 10 then Val (pr_escaped p a) else Signal "Can only print floats in base 10"
  | _ => Signal "no applicable method"
  end.

(** print-message, io/format.dylan:67-98 *)
Definition print_message (p : printer) (a : arg) : list Z :=
  match a with AStr s => s | AChr c => [c] | _ => pr_message p a end.

(** do-dispatch, io/format.dylan:194-229: what is written, and whether the argument is consumed *)
Definition do_dispatch (p : printer) (char : Z) (a : arg) : outcome (list Z * bool) :=
  if (char =? 115) || (char =? 83) || (char =? 99) || (char =? 67) then Val (print_message p a, true)
  else if char =? 61 then Val (pr_escaped p a, true)
  else if (char =? 100) || (char =? 68) then do s <- format_number p a 10 false ; Val (s, true)
  else if (char =? 98) || (char =? 66) then do s <- format_number p a 2 false ; Val (s, true)
  else if (char =? 111) || (char =? 79) then do s <- format_number p a 8 false ; Val (s, true)
  else if char =? 120 then do s <- format_number p a 16 true ; Val (s, true)
  else if char =? 88 then do s <- format_number p a 16 false ; Val (s, true)
  else if (char =? 109) || (char =? 77) then
    match a with AFun text => Val (text, true) | _ => Signal "no applicable method" end
  else if char =? 37 then Val ([37], false)
  else Signal "Unknown format dispatch character".

(** The loop of parse-integer, io/format.dylan:245-251; [n] is what is left of the string *)
Fixpoint parse_loop (n : nat) (input : list Z) (i : nat) (result : Z) : outcome (Z * nat) :=
  match n with
  | O => Val (result, i)
  | S n =>
      do c <- char_at input i ;
      if class_digit c then
        do r <- int_result (result * 10) ;
        do r <- int_result (r + (c - 48)) ;
        parse_loop n input (i + 1) r
      else Val (result, i)
  end.

(** parse-integer, io/format.dylan:239-258 *)
Definition parse_integer (input : list Z) (index : nat) : outcome (option Z * nat) :=
  do c <- char_at input index ;
  let negative := c =? 45 in
  let index := if negative then (index + 1)%nat else index in
  do ' (result, i) <- parse_loop (length input - index) input index 0 ;
  if result =? 0 then Val (None, index)
  else Val (Some (if negative then - result else result), i).

(** Skip to the dispatch character or newline, io/format.dylan:128-132 *)
Fixpoint skip_text (n : nat) (s : list Z) (i : nat) : nat :=
  match n with
  | O => i
  | S n =>
      match s !! i with
      | Some c => if (c =? 37) || (c =? 10) then i else skip_text n s (i + 1)
      | None => i
      end
  end.

(** element(args, arg-i, default: #f) *)
Definition arg_at (args : list arg) (i : nat) : arg := match args !! i with Some a => a | None => AFalse end.

(** Padding, io/format.dylan:164-174 *)
Definition padded (field : Z) (output : list Z) : list Z :=
  let padding := Z.abs field - Z.of_nat (length output) in
  if padding <? 0 then output
  else if 0 <? field then replicate (Z.to_nat padding) 32 ++ output
  else output ++ replicate (Z.to_nat padding) 32.

(** The while loop of format, io/format.dylan:127-184; [out] is what has been written.  new-line writes a
    newline (streams/convenience.dylan:112-123). *)
Fixpoint format_loop (p : printer) (fuel : nat) (s : list Z) (args : list arg) (start arg_i : nat) (out : list Z) : outcome (list Z) :=
  match fuel with
  | O => NoFuel
  | S fuel =>
      if (start <? length s)%nat then
        let i := skip_text (length s - start) s start in
        let out := out ++ take (i - start) (drop start s) in
        if (i =? length s)%nat then Val out
        else
          let start := (i + 1)%nat in
          do d <- char_at s (start - 1) ;
          if d =? 10 then format_loop p fuel s args start arg_i (out ++ [10])
          else
            do c <- char_at s start ;
            do ' (field, field_spec_end) <- (if class_digit c then parse_integer s start else Val (None, start)) ;
            match field with
            | Some field =>
                do c <- char_at s field_spec_end ;
                do ' (output, consumed) <- do_dispatch p c (arg_at args arg_i) ;
                format_loop p fuel s args (field_spec_end + 1) (if consumed : bool then arg_i + 1 else arg_i) (out ++ padded field output)
            | None =>
                do ' (output, consumed) <- do_dispatch p c (arg_at args arg_i) ;
                format_loop p fuel s args (start + 1) (if consumed : bool then arg_i + 1 else arg_i) (out ++ output)
            end
      else Val out
  end.

(** format-to-string, io/format.dylan:46-56.  Every turn of the loop passes at least one character. *)
Definition format_to_string (p : printer) (control_string : list Z) (args : list arg) : outcome (list Z) :=
  format_loop p (S (length control_string)) control_string args 0 0 [].

(** ** common-dylan *)

(** as-uppercase, dylan/character.dylan:33-41 *)
Definition char_upper (c : Z) : Z := if bool_decide (97 <= c <= 122) then c - 32 else c.

(** The local method argument of print-format, common-dylan/format.dylan:58-71 *)
Definition next_argument (args : list arg) (i : nat) (class : arg -> bool) : outcome arg :=
  match args !! i with
  | None => Signal "Too few arguments for format string"
  | Some a => if class a then Val a else Signal "Format argument not of class"
  end.

(** print-pretty-name and print-unique-name, common-dylan/format.dylan:126-134, 157-194, where they come to nothing
    but strings, characters and integers *)
Definition unique_name (p : printer) (a : arg) : outcome (list Z) :=
  match a with
  | AStr s => Val (34 :: s ++ [34])
  | AChr c => Val [39; c; 39]
  | AInt z => integer_to_string z 10 0 48 false
  | _ => Val (pr_escaped p a)
  end.
Definition pretty_name (p : printer) (a : arg) : outcome (list Z) :=
  match a with
  | AStr s => Val s
  | AChr c => Val [c]
  | AInt z => unique_name p a
  | _ => Val (pr_message p a)
  end.

Definition is_number (a : arg) : bool := match a with AInt _ | AFloat _ => true | _ => false end.
Definition is_integer (a : arg) : bool := match a with AInt _ => true | _ => false end.
Definition is_character (a : arg) : bool := match a with AChr _ => true | _ => false end.

(** number-to-string *)
Definition number_to_string (p : printer) (a : arg) (base : Z) : outcome (list Z) :=
  match a with AInt z => integer_to_string z base 0 48 false | _ => Val (pr_escaped p a) end.

(** One directive, common-dylan/format.dylan:80-93: what is collected and the index of the next argument *)
Definition directive (p : printer) (char : Z) (args : list arg) (i : nat) : outcome (list Z * nat) :=
  let up := char_upper char in
  let with_arg class (text : arg -> outcome (list Z)) := do a <- next_argument args i class ; do s <- text a ; Val (s, (i + 1)%nat) in
  if up =? 68 then with_arg is_number (fun a => number_to_string p a 10)
  else if up =? 66 then with_arg is_integer (fun a => number_to_string p a 2)
  else if up =? 79 then with_arg is_integer (fun a => number_to_string p a 8)
  else if up =? 88 then with_arg is_integer (fun a => number_to_string p a 16)
  else if up =? 67 then with_arg is_character (fun a => match a with AChr c => Val [c] | _ => UB end)
  else if up =? 83 then with_arg (fun _ => true) (pretty_name p)
  else if up =? 61 then with_arg (fun _ => true) (unique_name p)
  else if up =? 37 then Val ([37], i)
  else Signal "Invalid format directive".

(** print-format, common-dylan/format.dylan:51-103 *)
Fixpoint print_format (p : printer) (s : list Z) (args : list arg) (found_percent : bool) (i : nat) (out : list Z) : outcome (list Z) :=
  match s with
  | [] => if found_percent then Signal "Incomplete format directive" else Val out
  | char :: s =>
      if found_percent then
        do ' (text, i) <- directive p char args i ;
        print_format p s args false i (out ++ text)
      else if char =? 37 then print_format p s args true i out
      else print_format p s args false i (out ++ [char])
  end.

(** format-to-string, common-dylan/format.dylan:105-111 *)
Definition simple_format_to_string (p : printer) (s : list Z) (args : list arg) : outcome (list Z) :=
  print_format p s args false 0 [].
