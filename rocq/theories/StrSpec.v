(** What string and character literals denote (C57), by the Dylan Reference Manual (Character and String
    Literals) with Open Dylan's raw strings. *)
From Verif Require Import Base LexSpec LitSpec.
From Coq Require Import ZArith.
Local Open Scope Z_scope.

(** The characters after a backslash (backslash, the two quotes, a b e f n r t 0) and what they mean. *)
Definition escapes : list (Z * Z) :=
  [(92, 92); (39, 39); (34, 34); (97, 7); (98, 8); (101, 27); (102, 12); (110, 10); (114, 13); (116, 9); (48, 0)].

(** Printable ASCII and the 8-bit extensions. *)
Definition is_printable (c : Z) : bool := ((32 <=? c) && (c <=? 126)) || ((128 <=? c) && (c <=? 255)).

(** A character between [quote]s: itself, an escape or a code in hexadecimal. *)
Inductive denotes_char (quote : Z) : list Z -> Z -> Prop :=
  | DC_plain c : is_printable c = true -> c <> quote -> c <> 92 -> denotes_char quote [c] c
  | DC_escape e c : In (e, c) escapes -> denotes_char quote [92; e] c
  | DC_hex ds : ds <> [] -> Forall (is_digit 16) ds -> number 16 ds <= 255 -> denotes_char quote (92 :: 60 :: ds ++ [62]) (number 16 ds).

(** A sequence of them between double quotes. *)
Inductive denotes : list Z -> list Z -> Prop :=
  | D_nil : denotes [] []
  | D_cons s c src content : denotes_char 34 s c -> denotes src content -> denotes (s ++ src) (c :: content).
