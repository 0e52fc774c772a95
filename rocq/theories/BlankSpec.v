(** Whitespace and comments (C56), by the Dylan Reference Manual. *)
From Verif Require Import Base.
From Coq Require Import ZArith.
Local Open Scope Z_scope.

(** space, tab, form feed, newline, return *)
Definition is_white (c : Z) : bool := (c =? 32) || (c =? 9) || (c =? 12) || (c =? 10) || (c =? 13).
Definition is_eol (c : Z) : bool := (c =? 10) || (c =? 13).

(** The characters source text may contain. *)
Definition is_legal (c : Z) : bool := is_white c || ((32 <=? c) && (c <=? 126)) || ((128 <=? c) && (c <=? 255)).

(** What follows a comment that begins with two slashes: it goes up to the end of the line. *)
Fixpoint after_line_comment (text : list Z) : option (list Z) :=
  match text with
  | [] => None
  | c :: text => if is_eol c then Some text else after_line_comment text
  end.

(** What follows a comment in slash-star brackets, of which [depth] are open: such comments nest, and two
    slashes in it hide the rest of the line ([hidden]). *)
Fixpoint after_comment (depth : nat) (hidden : bool) (text : list Z) : option (list Z) :=
  match text with
  | [] => None
  | c :: text =>
      if hidden then after_comment depth (negb (is_eol c)) text
      else match text with
           | [] => None
           | x :: text' =>
               if (c =? 47) && (x =? 47) then after_comment depth true text
               else if (c =? 47) && (x =? 42) then after_comment (S depth) false text'
               else if (c =? 42) && (x =? 47) then
                 match depth with S (S d) => after_comment (S d) false text' | _ => Some text' end
               else after_comment depth false text
           end
  end.

(** [skips text rest]: [text] is whitespace and comments, and then [rest]. *)
Inductive skips : list Z -> list Z -> Prop :=
  | skips_none rest : skips rest rest
  | skips_white c text rest : is_white c = true -> skips text rest -> skips (c :: text) rest
  | skips_line text text' rest : after_line_comment text = Some text' -> skips text' rest -> skips (47 :: 47 :: text) rest
  | skips_comment text text' rest : after_comment 1 false text = Some text' -> skips text' rest -> skips (47 :: 42 :: text) rest.

(** No whitespace or comment begins here. *)
Definition no_blank (text : list Z) : Prop :=
  match text with
  | [] => True
  | c :: rest => is_white c = false /\ ~ (c = 47 /\ (head rest = Some 47 \/ head rest = Some 42))
  end.

(** No comment bracket is closed right before another slash or star. *)
Definition no_tight_close (text : list Z) : Prop :=
  forall before c after, text = before ++ 42 :: 47 :: c :: after -> c <> 47 /\ c <> 42.
