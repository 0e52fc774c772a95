(** What choose, remove, remove-duplicates, intersection, union (C59), and add, reverse, last and
    concatenate (C60) have to give, in terms of the lists of elements of sequences. *)
From Verif Require Import Base CollModel CollSpec AccModel AccSpec SeqOpSpec.
From Coq Require Import ZArith.
Local Open Scope Z_scope.

(** The result is a sequence of the class of the one given; for a range it is a list. *)
Definition of_class_of (c c' : coll) : Prop :=
  match c with CRange _ _ _ | CRangeInf _ _ => exists l, c' = CList l | _ => same_class c c' end.

(** [l] without its elements that satisfy [p]; with a count, without the first [n] of them. *)
Fixpoint without (p : value -> bool) (count : option nat) (l : list value) : list value :=
  match l with
  | [] => []
  | x :: l =>
      match count with
      | Some O => x :: l
      | Some (S n) => if p x then without p (Some n) l else x :: without p count l
      | None => if p x then without p None l else x :: without p None l
      end
  end.

(** The elements that are not the same as an earlier one. *)
Fixpoint firsts (test : value -> value -> bool) (earlier l : list value) : list value :=
  match l with
  | [] => []
  | x :: l => if existsb (fun y => test y x) earlier then firsts test (earlier ++ [x]) l else x :: firsts test (earlier ++ [x]) l
  end.

(** No two elements left are the same, and one that was left out is the same as one left. *)
Record no_duplicates (test : value -> value -> bool) (l r : list value) : Prop := {
  nd_sublist : sublist r l;
  nd_distinct : forall i j x y, (i < j)%nat -> r !! i = Some x -> r !! j = Some y -> test x y = false;
  nd_covered : forall x, x ∈ l -> x ∈ r \/ exists y, y ∈ r /\ test y x = true
}.

(** [x] is the same as an element of [l]; member? passes it as the first argument of the test. *)
Definition among (test : value -> value -> bool) (l : list value) (x : value) : bool := existsb (fun y => test x y) l.

(** A string holds characters only. *)
Definition fits (ty : ttype) (l : list value) : Prop := ty = TVec VkString -> Forall (fun v => is_char v = true) l.

(** Types of sequences. *)
Definition sequence_type (ty : ttype) : Prop := match ty with TTab _ => False | _ => True end.

(** member? on a byte string calls the test with the element first (see C59_member_string_refuted); what the other
    methods do is the same only if the test is symmetric. *)
Definition symmetric_if_string (test : value -> value -> bool) (c : coll) : Prop :=
  match c with CVec VkString _ => forall a b, test a b = test b a | _ => True end.

(** add puts the new element at the end of a vector and at the front of a deque or a list. *)
Definition added (c : coll) (l : list value) (v : value) : list value :=
  match c with CVec _ _ => l ++ [v] | _ => v :: l end.

(** What [concatenate] of sequences with elements [m] and [ms] has. *)
Definition joined (m : list value) (ms : list (list value)) : list value := m ++ concat ms.
