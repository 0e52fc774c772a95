(** The regular expressions of Jam as they are written, and what they match (C72). *)
From Verif Require Import Base GlobSpec.
From Coq Require Import ZArith.
Local Open Scope Z_scope.

(** What a class is made of: a character or a range. *)
Inductive item := One (c : Z) | Range (a b : Z).
Definition item_text (i : item) : list Z := match i with One c => [c] | Range a b => [a; 45; b] end.
Definition item_first (i : item) : Z := match i with One c => c | Range a _ => a end.
Definition in_item (c : Z) (i : item) : Prop := match i with One d => c = d | Range a b => a <= c <= b end.
Definition in_items (c : Z) (items : list item) : Prop := exists i, i ∈ items /\ in_item c i.

(** A character is not followed by an item that begins with a dash: the three would be a range. *)
Fixpoint no_dash (items : list item) : Prop :=
  match items with
  | One _ :: ((i :: _) as items) => item_first i <> 45 /\ no_dash items
  | _ :: items => no_dash items
  | [] => True
  end.

(** A character, any character but a newline, a class of characters (or its complement), alternatives, a sequence,
    and an expression followed by a star, a plus or a question mark. *)
Inductive re :=
| Char (c : Z)
| Dot
| Class (complement : bool) (items : list item)
| Alt (e1 e2 : re)
| Seq (e1 e2 : re)
| Star (e : re)
| Plus (e : re)
| Opt (e : re).

(** The characters that have to be written with a backslash: ( ) * + . ? [ \ | *)
Definition special : list Z := [40; 41; 42; 43; 46; 63; 91; 92; 124].

Definition paren (b : bool) (s : list Z) : list Z := if b then 40 :: s ++ [41] else s.

(** How an expression is written.  The level says what the context needs: 0 anything, 1 a sequence, 2 an operand of a sequence,
    3 an operand of star, plus and question mark; parentheses are only written where they are needed. *)
Fixpoint written (level : nat) (e : re) : list Z :=
  match e with
  | Char c => if decide (c ∈ special) then [92; c] else [c]
  | Dot => [46]
  | Class complement items => 91 :: (if complement then [94] else []) ++ concat (map item_text items) ++ [93]
  | Alt e1 e2 => paren (0 <? level)%nat (written 0 e1 ++ 124 :: written 1 e2)
  | Seq e1 e2 => paren (1 <? level)%nat (written 1 e1 ++ written 2 e2)
  | Star e => paren (2 <? level)%nat (written 3 e ++ [42])
  | Plus e => paren (2 <? level)%nat (written 3 e ++ [43])
  | Opt e => paren (2 <? level)%nat (written 3 e ++ [63])
  end.

(** A class is not empty; no item but the first begins with a closing bracket, and the first item of a class that is not
    complemented does not begin with a caret. *)
Fixpoint writable (e : re) : Prop :=
  match e with
  | Char _ | Dot => True
  | Class complement items =>
      items <> [] /\ Forall (fun i => item_first i <> 93) (tail items) /\ no_dash items /\
      (complement = false -> forall i, head items = Some i -> item_first i <> 94)
  | Alt e1 e2 | Seq e1 e2 => writable e1 /\ writable e2
  | Star e | Plus e | Opt e => writable e
  end.

Inductive re_matches : re -> list Z -> Prop :=
| m_char c : re_matches (Char c) [c]
| m_dot c : byte c -> c <> 10 -> re_matches Dot [c]
| m_class items c : in_items c items -> re_matches (Class false items) [c]
| m_not_class items c : byte c -> ~ in_items c items -> re_matches (Class true items) [c]
| m_alt1 e1 e2 w : re_matches e1 w -> re_matches (Alt e1 e2) w
| m_alt2 e1 e2 w : re_matches e2 w -> re_matches (Alt e1 e2) w
| m_seq e1 e2 v w : re_matches e1 v -> re_matches e2 w -> re_matches (Seq e1 e2) (v ++ w)
| m_star_nil e : re_matches (Star e) []
| m_star_app e v w : re_matches e v -> re_matches (Star e) w -> re_matches (Star e) (v ++ w)
| m_plus e v w : re_matches e v -> re_matches (Star e) w -> re_matches (Plus e) (v ++ w)
| m_opt_nil e : re_matches (Opt e) []
| m_opt e w : re_matches e w -> re_matches (Opt e) w.
