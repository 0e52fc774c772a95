(** What the operators of an expression mean (C53): the table of the Dylan Reference Manual
    (Operators, p. 18), binding most tightly first:
      ^ (right to left);  * /;  + -;  = == < > <= >= ~= ~==;  & |;  := (right to left). *)
From Verif Require Import Base BinopModel.
From Coq Require Import ZArith.

Definition level (o : op) : nat :=
  match o with
  | OPow => 6
  | OMul | ODiv => 5
  | OAdd | OSub => 4
  | OEq | OId | OLt | OGt | OLe | OGe | ONe | ONid => 3
  | OAnd | OOr => 2
  | OSet => 1
  end.
Definition right_to_left (o : op) : Prop := o = OPow \/ o = OSet.

(** An expression as written: operands and operators in turn. *)
Inductive word := WOperand (n : nat) (pos : Z * Z) | WOp (o : op).

Fixpoint words (f : frag) : list word :=
  match f with
  | Operand n p => [WOperand n p]
  | MacroCall o l r _ | OpCall o l r _ => words l ++ WOp o :: words r
  end.

(** The operator at the top of a fragment. *)
Definition top (f : frag) : option op := match f with Operand _ _ => None | MacroCall o _ _ _ | OpCall o _ _ _ => Some o end.

(** [o'] may be at the top of the left (right) operand of [o]: it binds more tightly, or as tightly and
    the level is left to right (right to left). *)
Definition left_ok (o' o : op) : Prop := (level o < level o')%nat \/ (level o = level o' /\ ~ right_to_left o).
Definition right_ok (o' o : op) : Prop := (level o < level o')%nat \/ (level o = level o' /\ right_to_left o).

(** The whole of [f] is where its first and last operands are. *)
Fixpoint first_pos (f : frag) : Z := match f with Operand _ p => p.1 | MacroCall _ l _ _ | OpCall _ l _ _ => first_pos l end.
Fixpoint last_pos (f : frag) : Z := match f with Operand _ p => p.2 | MacroCall _ _ r _ | OpCall _ _ r _ => last_pos r end.

(** The operators := & | are macro calls, the others function calls. *)
Definition is_macro (o : op) : Prop := o = OSet \/ o = OAnd \/ o = OOr.

Definition node_ok (o : op) (l r : frag) (pos : Z * Z) : Prop :=
  (forall o', top l = Some o' -> left_ok o' o) /\ (forall o', top r = Some o' -> right_ok o' o) /\ pos = (first_pos l, last_pos r).

(** A fragment that groups its operators the way the table says. *)
Fixpoint grouped (f : frag) : Prop :=
  match f with
  | Operand _ _ => True
  | MacroCall o l r pos => is_macro o /\ node_ok o l r pos /\ grouped l /\ grouped r
  | OpCall o l r pos => ~ is_macro o /\ node_ok o l r pos /\ grouped l /\ grouped r
  end.

Definition is_operand (f : frag) : Prop := match f with Operand _ _ => True | _ => False end.

(** Operands follow one another in the text. *)
Fixpoint in_text_order (from : Z) (fs : list frag) : Prop :=
  match fs with
  | [] => True
  | f :: fs => (from <= (frag_pos f).1 <= (frag_pos f).2)%Z /\ in_text_order (frag_pos f).2 fs
  end.
