(** What the lexer's tokens should be (C54): where they are in the source text. *)
From Verif Require Import Base.
From Coq Require Import ZArith.
Local Open Scope nat_scope.

(** Source text is a sequence of bytes; lines end in a newline (10). *)
Definition is_byte (c : Z) : Prop := (0 <= c <= 255)%Z.

(** Lines are counted from 1: one more than the newlines before [p]. *)
Definition line_at (text : list Z) (p : nat) : nat := S (length (List.filter (Z.eqb 10) (take p text))).

(** Columns are counted from 0: the characters between the last newline before [p] and [p]. *)
Fixpoint column (before : list Z) (n : nat) : nat :=
  match before with
  | [] => n
  | c :: before => if (c =? 10)%Z then column before 0 else column before (S n)
  end.
Definition column_at (text : list Z) (p : nat) : nat := column (take p text) 0.
