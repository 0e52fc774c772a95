(** Format control strings (C61), after the io library's reference manual. *)
From Verif Require Import Base NumStrSpec FmtModel.
From Coq Require Import ZArith.
Local Open Scope Z_scope.

(** A field: flush left (a minus sign) or right, and its width in decimal digits. *)
Record field := Field { flush_left : bool; width_digits : list Z }.
Definition width (f : field) : Z := fold_left (fun v c => v * 10 + (c - 48)) (width_digits f) 0.

(** The pieces of a control string. *)
Inductive piece :=
  | Text (c : Z)
  | Percent (f : option field)
  | Directive (f : option field) (d : Z).

Definition spell_field (f : option field) : list Z :=
  match f with None => [] | Some f => (if flush_left f then [45] else []) ++ width_digits f end.
Definition spell_piece (p : piece) : list Z :=
  match p with
  | Text c => [c]
  | Percent f => 37 :: spell_field f ++ [37]
  | Directive f d => 37 :: spell_field f ++ [d]
  end.
Definition spell (ps : list piece) : list Z := concat (map spell_piece ps).

(** s S c C  =  d D b B o O x X  m M *)
Definition message_directives : list Z := [115; 83; 99; 67].
Definition integer_directives : list (Z * (Z * bool)) :=
  [(100, (10, false)); (68, (10, false)); (98, (2, false)); (66, (2, false)); (111, (8, false)); (79, (8, false)); (120, (16, true)); (88, (16, false))].
Definition known (d : Z) : Prop :=
  In d message_directives \/ d = 61 \/ In d (map fst integer_directives) \/ d = 109 \/ d = 77.

(** A well-formed piece: the width is a positive <integer>. *)
Definition field_ok (f : option field) : Prop :=
  match f with None => True | Some f => Forall (fun c => 48 <= c <= 57) (width_digits f) /\ 0 < width f /\ fits (width f) end.
Definition piece_ok (p : piece) : Prop :=
  match p with Text c => c <> 37 | Percent f => field_ok f | Directive f d => field_ok f /\ known d end.

(** The numeral of an integer: a sign, digits of the base in one case, no needless zeros. *)
Definition numeral_text (base : Z) (lower : bool) (z : Z) (text : list Z) : Prop :=
  exists ds, text = (if bool_decide (z < 0) then [45] else []) ++ ds /\ numeral base ds (Z.abs z) /\
    (z = 0 -> ds = [48]) /\ (z <> 0 -> exists c ds', ds = c :: ds' /\ c <> 48) /\
    Forall (fun c => if lower then ~ (65 <= c <= 90) else ~ (97 <= c <= 122)) ds.

(** What a directive writes for an argument. *)
Inductive renders (p : printer) : Z -> arg -> list Z -> Prop :=
  | R_string d s : In d message_directives -> renders p d (AStr s) s
  | R_character d c : In d message_directives -> renders p d (AChr c) [c]
  | R_message d a : In d message_directives -> (forall s, a <> AStr s) -> (forall c, a <> AChr c) -> renders p d a (pr_message p a)
  | R_object a : renders p 61 a (pr_escaped p a)
  | R_integer d base lower z text : In (d, (base, lower)) integer_directives -> numeral_text base lower z text -> renders p d (AInt z) text
  | R_float d n : d = 100 \/ d = 68 -> renders p d (AFloat n) (pr_escaped p (AFloat n))
  | R_call d text : d = 109 \/ d = 77 -> renders p d (AFun text) text.

(** Justified in its field; text that is too long is left as it is. *)
Definition justified (f : option field) (text : list Z) : list Z :=
  match f with
  | None => text
  | Some f =>
      let spaces := replicate (Z.to_nat (width f - Z.of_nat (length text))) 32 in
      if flush_left f then text ++ spaces else spaces ++ text
  end.

(** The output: text as it is, and the directives in order, each with the next argument. *)
Inductive outputs (p : printer) : list piece -> list arg -> list Z -> Prop :=
  | O_nil args : outputs p [] args []
  | O_text c ps args out : outputs p ps args out -> outputs p (Text c :: ps) args (c :: out)
  | O_percent f ps args out : outputs p ps args out -> outputs p (Percent f :: ps) args (justified f [37] ++ out)
  | O_directive f d a text ps args out : renders p d a text -> outputs p ps args out ->
      outputs p (Directive f d :: ps) (a :: args) (justified f text ++ out).

(** The arguments suit the directives: there are enough, numbers for %d, integers for %b %o %x, functions for %m. *)
Definition accepts (d : Z) (a : arg) : Prop :=
  In d message_directives \/ d = 61 \/
  (In d (map fst integer_directives) /\ exists z, a = AInt z /\ fits z) \/
  ((d = 100 \/ d = 68) /\ exists n, a = AFloat n) \/
  ((d = 109 \/ d = 77) /\ exists text, a = AFun text).
Fixpoint suits (ps : list piece) (args : list arg) : Prop :=
  match ps with
  | [] => True
  | Directive _ d :: ps => match args with a :: args => accepts d a /\ suits ps args | [] => False end
  | _ :: ps => suits ps args
  end.

(** How many arguments the pieces take. *)
Fixpoint taken (ps : list piece) : nat :=
  match ps with [] => 0 | Directive _ _ :: ps => S (taken ps) | _ :: ps => taken ps end.

(** ** common-dylan's format-to-string: the same without fields and %m; %c wants a character, and hexadecimal
    digits are uppercase. *)
Definition no_field (p : piece) : Prop :=
  match p with Text c => c <> 37 | Percent f => f = None | Directive f d => f = None /\ known d /\ d <> 109 /\ d <> 77 end.

Inductive simple_renders (p : printer) : Z -> arg -> list Z -> Prop :=
  | SR_string d s : d = 115 \/ d = 83 -> simple_renders p d (AStr s) s
  | SR_character d c : In d message_directives -> simple_renders p d (AChr c) [c]
  | SR_integer d z text : d = 115 \/ d = 83 \/ d = 61 -> numeral_text 10 false z text -> simple_renders p d (AInt z) text
  | SR_message d a : d = 115 \/ d = 83 -> (forall s, a <> AStr s) -> (forall c, a <> AChr c) -> (forall z, a <> AInt z) -> simple_renders p d a (pr_message p a)
  | SR_quoted s : simple_renders p 61 (AStr s) (34 :: s ++ [34])
  | SR_quoted_character c : simple_renders p 61 (AChr c) [39; c; 39]
  | SR_object a : (forall s, a <> AStr s) -> (forall c, a <> AChr c) -> (forall z, a <> AInt z) -> simple_renders p 61 a (pr_escaped p a)
  | SR_number d base lower z text : In (d, (base, lower)) integer_directives -> numeral_text base false z text -> simple_renders p d (AInt z) text
  | SR_float d n : d = 100 \/ d = 68 -> simple_renders p d (AFloat n) (pr_escaped p (AFloat n)).

Inductive simple_outputs (p : printer) : list piece -> list arg -> list Z -> Prop :=
  | SO_nil args : simple_outputs p [] args []
  | SO_text c ps args out : simple_outputs p ps args out -> simple_outputs p (Text c :: ps) args (c :: out)
  | SO_percent ps args out : simple_outputs p ps args out -> simple_outputs p (Percent None :: ps) args (37 :: out)
  | SO_directive d a text ps args out : simple_renders p d a text -> simple_outputs p ps args out ->
      simple_outputs p (Directive None d :: ps) (a :: args) (text ++ out).

Definition simple_accepts (d : Z) (a : arg) : Prop :=
  ((d = 115 \/ d = 83 \/ d = 61) /\ forall z, a = AInt z -> fits z) \/
  ((d = 99 \/ d = 67) /\ exists c, a = AChr c) \/
  (In d (map fst integer_directives) /\ exists z, a = AInt z /\ fits z) \/
  ((d = 100 \/ d = 68) /\ exists n, a = AFloat n).
Fixpoint simple_suits (ps : list piece) (args : list arg) : Prop :=
  match ps with
  | [] => True
  | Directive _ d :: ps => match args with a :: args => simple_accepts d a /\ simple_suits ps args | [] => False end
  | _ :: ps => simple_suits ps args
  end.
