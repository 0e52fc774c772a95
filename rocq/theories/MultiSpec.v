(** What strings between three or more double quotes denote (C57): Open Dylan's multi-line strings. *)
From Verif Require Import Base LexSpec LitSpec StrSpec.
From Coq Require Import ZArith.
Local Open Scope nat_scope.

(** A character of a raw string is itself. *)
Definition raw_char (s : list Z) (c : Z) : Prop := s = [c] /\ is_printable c = true /\ c <> 34%Z.

(** The text of a line and its contents, when the delimiters have [q] quotes: characters as [char] says, and
    quotes, fewer than [q] in a row; [n] is the number of quotes just before the text. *)
Inductive quoted_line (q : nat) (char : list Z -> Z -> Prop) : nat -> list Z -> list Z -> Prop :=
  | QL_nil n : quoted_line q char n [] []
  | QL_char n s c src content : char s c -> quoted_line q char 0 src content -> quoted_line q char n (s ++ src) (c :: content)
  | QL_quote n src content : S n < q -> quoted_line q char (S n) src content -> quoted_line q char n (34%Z :: src) (34%Z :: content).

(** A line of a multi-line string has the [k] spaces that are before the closing delimiter, or is shorter
    than that and blank. *)
Inductive indented (q k : nat) (char : list Z -> Z -> Prop) : list Z -> list Z -> Prop :=
  | IN_line src content : quoted_line q char 0 src content -> indented q k char (replicate k 32%Z ++ src) content
  | IN_blank j : j <= k -> indented q k char (replicate j 32%Z) [].

(** Lines, each with its line break. *)
Inductive indented_lines (q k : nat) (char : list Z -> Z -> Prop) (nl : list Z) : list Z -> list (list Z) -> Prop :=
  | IL_nil : indented_lines q k char nl [] []
  | IL_cons line content src contents : indented q k char line content -> indented_lines q k char nl src contents ->
      indented_lines q k char nl (line ++ nl ++ src) (content :: contents).

(** LF, CR or CRLF *)
Definition line_break (nl : list Z) : Prop := nl = [10%Z] \/ nl = [13%Z] \/ nl = [13%Z; 10%Z].

(** The contents of the lines with a newline between them. *)
Fixpoint with_newlines (contents : list (list Z)) : list Z :=
  match contents with [] => [] | [c] => c | c :: cs => c ++ 10%Z :: with_newlines cs end.
