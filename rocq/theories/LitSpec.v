(** What literals mean (C55, C57, C58), by the grammar of the Dylan Reference Manual (Lexical Grammar:
    Numbers, Character and String Literals) with Open Dylan's underscores. *)
From Verif Require Import Base LexSpec.
From Coq Require Import ZArith.
Local Open Scope Z_scope.

(** ** Integers *)

(** The value of a digit: 0-9, A-F, a-f. *)
Definition digit_value (c : Z) : option Z :=
  if (48 <=? c) && (c <=? 57) then Some (c - 48)
  else if (65 <=? c) && (c <=? 70) then Some (c - 55)
  else if (97 <=? c) && (c <=? 102) then Some (c - 87)
  else None.
Definition is_digit (radix c : Z) : Prop := exists d, digit_value c = Some d /\ d < radix.

(** Groups of digits separated by single underscores. *)
Definition digit_groups (radix : Z) (gs : list (list Z)) : Prop :=
  gs <> [] /\ Forall (fun g => g <> [] /\ Forall (is_digit radix) g) gs.
Fixpoint underscored (gs : list (list Z)) : list Z :=
  match gs with [] => [] | [g] => g | g :: gs => g ++ 95 :: underscored gs end.

(** The number written by digits: 10 d1 + d0 etc. *)
Definition number (radix : Z) (digits : list Z) : Z :=
  fold_left (fun v c => v * radix + default 0 (digit_value c)) digits 0.

(** Optional sign and decimal digits, or #b #o #x (or upper case) and digits of that radix. *)
Inductive integer_literal : list Z -> Z -> Prop :=
  | IL_unsigned gs : digit_groups 10 gs -> integer_literal (underscored gs) (number 10 (concat gs))
  | IL_plus gs : digit_groups 10 gs -> integer_literal (43 :: underscored gs) (number 10 (concat gs))
  | IL_minus gs : digit_groups 10 gs -> integer_literal (45 :: underscored gs) (- number 10 (concat gs))
  | IL_radix x radix gs :
      In (x, radix) [(98, 2); (66, 2); (111, 8); (79, 8); (120, 16); (88, 16)] -> digit_groups radix gs ->
      integer_literal (35 :: x :: underscored gs) (number radix (concat gs)).

(** A character that cannot go on with a number: not a letter, a digit, an underscore, a dot or a slash. *)
Definition ends_number (c : Z) : bool :=
  negb (((48 <=? c) && (c <=? 57)) || ((65 <=? c) && (c <=? 90)) || ((97 <=? c) && (c <=? 122)) || (c =? 95) || (c =? 46) || (c =? 47)).
Definition then_ends_number (post : list Z) : Prop := match post with [] => True | c :: _ => ends_number c = true end.
