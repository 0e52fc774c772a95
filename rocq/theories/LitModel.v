(** The builders of literals: sources/dfmc/reader/lexer.dylan:740-918, 935-1062, 1111-1162 and 1202-1372, and
    get-token as a whole. *)
From Verif Require Import Base LexTable LexModel.
From Coq Require Import ZArith.
Local Open Scope outcome_scope.
Local Open Scope Z_scope.

(** ** Integers *)

(** The bounds of the integers generic arithmetic can represent; it signals an error beyond them. *)
Record int_range := IntRange { min_int : Z; max_int : Z }.
Definition representable (r : int_range) (z : Z) : bool := (min_int r <=? z) && (z <=? max_int r).

(** parse-integer's local method repeat, lexer.dylan:954-981.  Errors (overflow, a bogus digit, an index out
    of bounds) are all turned into the note <integer-too-large> (lexer.dylan:993-1001). *)
Fixpoint parse_repeat (r : int_range) (contents : list Z) (radix : Z) (finish : nat) (stop : bool)
    (fuel posn : nat) (result : Z) : outcome (Z * nat) :=
  match fuel with
  | O => NoFuel
  | S fuel =>
      if (posn <? finish)%nat then
        match contents !! posn with
        | None => Signal "integer-too-large"
        | Some digit =>
            let continue d :=
              let result := result * radix - d in
              if representable r result then parse_repeat r contents radix finish stop fuel (posn + 1) result
              else Signal "integer-too-large" in
            if (48 <=? digit) && (digit <=? 57) then continue (digit - 48)
            else if (65 <=? digit) && (digit <=? 70) then continue (10 + digit - 65)
            else if (97 <=? digit) && (digit <=? 102) then continue (10 + digit - 97)
            else if stop then Val (result, posn)
            else if digit =? 95 then parse_repeat r contents radix finish stop fuel (posn + 1) result
            else Signal "integer-too-large"
        end
      else Val (result, posn)
  end.

(** genericnegative *)
Definition generic_negative (r : int_range) (z : Z) : outcome Z :=
  if representable r (- z) then Val (- z) else Signal "integer-too-large".

(** parse-integer, lexer.dylan:945-1003; the result and the end position *)
Definition parse_integer (r : int_range) (contents : list Z) (radix : Z) (start finish : nat) (stop : bool) : outcome (Z * nat) :=
  match contents !! start with
  | None => Signal "ELT-OUT-OF-RANGE"
  | Some first =>
      let go posn := parse_repeat r contents radix finish stop (S (finish - posn)) posn 0 in
      if first =? 45 then go (start + 1)%nat
      else if first =? 43 then
        do ' (int, epos) <- go (start + 1)%nat ; do n <- generic_negative r int ; Val (n, epos)
      else
        do ' (int, epos) <- go start ; do n <- generic_negative r int ; Val (n, epos)
  end.

(** parse-integer-literal, lexer.dylan:1005-1036.  (Whether the fragment is an <integer-fragment> or a
    <big-integer-fragment> is not modelled.) *)
Definition parse_integer_literal (r : int_range) (contents : list Z) (start finish : nat) : outcome Z :=
  match contents !! start with
  | None => Signal "ELT-OUT-OF-RANGE"
  | Some 35 =>
      match contents !! (start + 1)%nat with
      | None => Signal "ELT-OUT-OF-RANGE"
      | Some char =>
          do radix <- (if (char =? 98) || (char =? 66) then Val 2
                       else if (char =? 111) || (char =? 79) then Val 8
                       else if (char =? 120) || (char =? 88) then Val 16
                       else Signal "unexpected integer literal prefix") ;
          do ' (int, _) <- parse_integer r contents radix (start + 2) finish false ; Val int
      end
  | Some _ => do ' (int, _) <- parse_integer r contents 10 start finish false ; Val int
  end.

(** ** Characters *)

(** escape-character, lexer.dylan:743-758 *)
Definition escape_character (c : Z) : outcome Z :=
  match c with
  | 97 => Val 7 | 98 => Val 8 | 101 => Val 27 | 102 => Val 12 | 110 => Val 10 | 114 => Val 13 | 116 => Val 9
  | 48 => Val 0 | 92 => Val 92 | 39 => Val 39 | 34 => Val 34
  | _ => Signal "select"
  end.

(** hex-escape-character, lexer.dylan:760-780.  (A code above 255 is a serious warning.) *)
Definition hex_escape_character (r : int_range) (contents : list Z) (start finish : nat) : outcome Z :=
  do ' (code, _) <- parse_integer r contents 16 start finish true ;
  if 255 <? code then Signal "character-code-too-large" else Val code.

(** make-character-literal, lexer.dylan:1038-1062 *)
Definition make_character_literal (r : int_range) (contents : list Z) (start finish : nat) : outcome Z :=
  match contents !! (start + 1)%nat with
  | None => Signal "ELT-OUT-OF-RANGE"
  | Some 92 =>
      match contents !! (start + 2)%nat with
      | None => Signal "ELT-OUT-OF-RANGE"
      | Some 60 => hex_escape_character r contents (start + 3) finish
      | Some c => escape_character c
      end
  | Some c => Val c
  end.

(** ** Strings *)

(** The parts split makes with find-line-break (lexer.dylan:801-819 and 896): line breaks are LF, CR and
    CRLF, and a tab is a serious warning.  (split itself is SplitModel; this is its result on a
    subsequence of the source.) *)
Fixpoint split_lines (text : list Z) (part : list Z) : outcome (list (list Z)) :=
  match text with
  | [] => Val [part]
  | c :: text =>
      if c =? 10 then do ps <- split_lines text [] ; Val (part :: ps)
      else if c =? 13 then
        match text with
        | 10 :: text => do ps <- split_lines text [] ; Val (part :: ps)
        | _ => do ps <- split_lines text [] ; Val (part :: ps)
        end
      else if c =? 9 then Signal "tab character"
      else split_lines text (part ++ [c])
  end.

(** parse-hex-escape, lexer.dylan:838-855, from position [start] of a line; [finish] is where the token
    ends in the source. *)
Definition parse_hex_escape (r : int_range) (line : list Z) (start finish : nat) : outcome (Z * nat) :=
  do ' (code, epos) <- parse_integer r line 16 start finish true ;
  match line !! epos with
  | Some 62 => if 255 <? code then Signal "character-code-too-large" else Val (code, epos + 1)%nat
  | _ => Signal "hex escape must end with '>'"
  end.

(** process-escapes, lexer.dylan:856-883; [new] is what has been added *)
Fixpoint process_escapes (r : int_range) (fuel : nat) (line : list Z) (finish pos : nat) (escaped : bool) (new : list Z) : outcome (list Z) :=
  match fuel with
  | O => NoFuel
  | S fuel =>
      match line !! pos with
      | None => Val new
      | Some code =>
          if escaped then
            if code =? 60 then
              do ' (code, epos) <- parse_hex_escape r line (pos + 1) finish ;
              process_escapes r fuel line finish epos false (new ++ [code])
            else
              do c <- escape_character code ; process_escapes r fuel line finish (pos + 1) false (new ++ [c])
          else if code =? 92 then process_escapes r fuel line finish (pos + 1) true new
          else process_escapes r fuel line finish (pos + 1) false (new ++ [code])
      end
  end.

(** every?(\==, line, prefix), over the shorter of the two *)
Fixpoint every_eq (l p : list Z) : bool :=
  match l, p with x :: l, y :: p => (x =? y) && every_eq l p | _, _ => true end.

(** remove-prefix, lexer.dylan:820-835.  (A different prefix is a serious warning.) *)
Definition remove_prefix (prefix line : list Z) : outcome (list Z) :=
  if every_eq line prefix then Val (drop (length prefix) line)
  else Signal "each line must begin with the same whitespace prefix".

(** process-line, lexer.dylan:884-894 *)
Definition process_line (r : int_range) (escapes : bool) (finish : nat) (prefix : option (list Z)) (line : list Z) : outcome (list Z) :=
  match line with
  | [] => Val []
  | _ =>
      do line <- match prefix with Some ((_ :: _) as p) => remove_prefix p line | _ => Val line end ;
      if escapes && existsb (Z.eqb 92) line then process_escapes r (S (length line)) line finish 0 false [] else Val line
  end.

Fixpoint process_lines (r : int_range) (escapes : bool) (finish : nat) (prefix : list Z) (lines : list (list Z)) : outcome (list (list Z)) :=
  match lines with
  | [] => Val []
  | l :: ls => do x <- process_line r escapes finish (Some prefix) l ; do xs <- process_lines r escapes finish prefix ls ; Val (x :: xs)
  end.

(** join with a newline *)
Fixpoint join_lines (lines : list (list Z)) : list Z :=
  match lines with [] => [] | [l] => l | l :: ls => l ++ 10 :: join_lines ls end.

(** decode-string, lexer.dylan:787-918.  The warnings are serious program warnings, here signals. *)
Definition decode_string (r : int_range) (contents : list Z) (finish : nat) (bpos epos : nat) (escapes : bool) : outcome (list Z) :=
  do parts <- split_lines (take (epos - bpos) (drop bpos contents)) [] ;
  match parts with
  | [p] => process_line r escapes finish None p
  | [_; _] => Signal "multi-line strings must contain at least one line"
  | first :: rest =>
      let prefix := List.last rest [] in
      if negb (forallb (Z.eqb 32) prefix) then Signal "prefix must be all whitespace"
      else if negb (forallb (Z.eqb 32) first) then Signal "only whitespace may follow the open delimiter"
      else do lines <- process_lines r escapes finish prefix (removelast rest) ; Val (join_lines lines)
  | [] => Signal "select"
  end.

(** extract-string-contents, lexer.dylan:1142-1162; [quotes] is double-quote-start-count *)
Definition extract_string_contents (r : int_range) (prefix_length : nat) (escapes : bool) (contents : list Z) (quotes start finish : nat)
    : outcome (list Z) :=
  if (finish - start =? 2 + prefix_length)%nat then Val []
  else decode_string r contents finish (start + quotes + prefix_length) (finish - quotes) escapes.

(** ** Floats *)

Inductive float_class := FDefault | FSingle | FDouble | FExtended.

(** The variables of atof, lexer.dylan:1208-1226 *)
Record afloat := AFloat {
  af_class : float_class; af_mantissa : Z; af_scale : option Z; af_shift : Z; af_digits : Z }.

(** The loop over the mantissa, lexer.dylan:1237-1278: what is known at its end, and the text after an
    exponent marker if there was one *)
Fixpoint atof_mantissa (s : list Z) (a : afloat) : outcome (afloat * option (list Z)) :=
  match s with
  | [] => Val (a, None)
  | char :: s =>
      let with_class c := AFloat c (af_mantissa a) (af_scale a) (af_shift a) (af_digits a) in
      if (48 <=? char) && (char <=? 57) then
        atof_mantissa s
          (if af_digits a <? 18 then
             AFloat (af_class a) (af_mantissa a * 10 + (char - 48)) (option_map (fun sc => sc * 10) (af_scale a)) (af_shift a) (af_digits a + 1)
           else
             AFloat (af_class a) (af_mantissa a) (af_scale a)
               (match af_scale a with None => af_shift a + 1 | Some _ => af_shift a end) (af_digits a + 1))
      else if char =? 46 then
        match af_scale a with
        | Some _ => Signal "multiple '.' characters in floating point literal"
        | None => atof_mantissa s (AFloat (af_class a) (af_mantissa a) (Some 1) (af_shift a) (af_digits a))
        end
      else if (char =? 101) || (char =? 69) then Val (a, Some s)
      else if (char =? 100) || (char =? 68) then Val (with_class FDouble, Some s)
      else if (char =? 115) || (char =? 83) then Val (with_class FSingle, Some s)
      else if (char =? 120) || (char =? 88) then Val (with_class FExtended, Some s)
      else if char =? 95 then atof_mantissa s a
      else Signal "invalid character in floating point literal mantissa"
  end.

(** The loop over the exponent, lexer.dylan:1282-1304 *)
Fixpoint atof_exponent (s : list Z) (exponent : Z) : outcome Z :=
  match s with
  | [] => Val exponent
  | char :: s =>
      if (48 <=? char) && (char <=? 57) then atof_exponent s (exponent * 10 + (char - 48))
      else if char =? 95 then atof_exponent s exponent
      else Signal "invalid character in floating point literal exponent"
  end.

(** What atof computes with: sign * mantissa / scale, times (if [up]) or divided by 10^power.  The rest of
    atof (lexer.dylan:1309-1357) evaluates that expression in floating point, with its roundings. *)
Record decimal := Decimal { d_class : float_class; d_sign : Z; d_mantissa : Z; d_scale : Z; d_up : bool; d_power : Z }.

(** atof, lexer.dylan:1208-1307 *)
Definition atof (s : list Z) : outcome decimal :=
  let '(sign, s) :=
    match s with 45 :: s' => (-1, s') | 43 :: s' => (1, s') | _ => (1, s) end in
  do ' (a, rest) <- atof_mantissa s (AFloat FDefault 0 None 0 0) ;
  let scale := match af_scale a with Some sc => sc | None => 1 end in
  match rest with
  | None => Val (Decimal (af_class a) sign (af_mantissa a) scale true (0 + af_shift a))
  | Some t =>
      let '(up, t) := match t with 45 :: t' => (false, t') | 43 :: t' => (true, t') | _ => (true, t) end in
      do exponent <- atof_exponent t 0 ;
      Val (Decimal (af_class a) sign (af_mantissa a) scale up (exponent + af_shift a))
  end.

(** ** get-token *)

(** What a token means, for the builders modelled here; the others only have their text. *)
Inductive literal :=
  | LInteger (z : Z)
  | LCharacter (c : Z)
  | LString (s : list Z)
  | LSymbol (s : list Z)
  | LFloat (d : decimal)
  | LText (s : list Z)
  | LEnd.

Definition reset_quotes (lx : lexer) : lexer :=
  Lexer (lx_position lx) (lx_line lx) (lx_line_start lx) (Counts 0 0 (dc_start (lx_counts lx)) (dc_end (lx_counts lx))).

(** get-token, lexer.dylan:342-470, with its builder: the token, its meaning and the lexer afterwards.
    make-stringish-literal, make-raw-string-literal: lexer.dylan:1111-1140.  parse-ratio-literal is a
    serious warning.  (make-hash-literal, which goes on reading, is not modelled.) *)
Definition get_token (r : int_range) (fuel : nat) (contents : list Z) (lx : lexer) : outcome (token * literal * lexer) :=
  do ' (t, lx) <- scan fuel contents lx ;
  let start := tk_start t in
  let finish := tk_end t in
  let text := take (finish - start) (drop start contents) in
  let quotes := dq_start (lx_counts lx) in
  match tk_builder t with
  | None => Val (t, LEnd, lx)
  | Some B_parse_integer_literal => do z <- parse_integer_literal r contents start finish ; Val (t, LInteger z, lx)
  | Some B_make_character_literal => do c <- make_character_literal r contents start finish ; Val (t, LCharacter c, lx)
  | Some B_make_stringish_literal =>
      match contents !! start with
      | Some 35 => do s <- extract_string_contents r 1 true contents quotes start finish ; Val (t, LSymbol s, reset_quotes lx)
      | _ => do s <- extract_string_contents r 0 true contents quotes start finish ; Val (t, LString s, reset_quotes lx)
      end
  | Some B_make_raw_string_literal =>
      do s <- extract_string_contents r 2 false contents quotes start finish ; Val (t, LString s, reset_quotes lx)
  | Some B_parse_fp_literal => do d <- atof text ; Val (t, LFloat d, lx)
  | Some B_parse_ratio_literal => Signal "ratios-not-supported"
  | Some B_make_hash_literal => Signal "not modelled"
  | Some _ => Val (t, LText text, lx)
  end.
