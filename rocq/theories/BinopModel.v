(** Series of binary operators in expressions: sources/dfmc/reader/parser-support.dylan:48-216 and the
    productions that use it, parser.dylgram:614-632. *)
From Verif Require Import Base.
From Coq Require Import ZArith.
Local Open Scope outcome_scope.
Local Open Scope nat_scope.

(** The names operator-precedence knows, parser-support.dylan:184-193. *)
Inductive op := OPow | OMul | ODiv | OAdd | OSub | OEq | ONe | OId | ONid | OLt | OGt | OLe | OGe | OAnd | OOr | OSet.

(** Fragments: operands, <function-macro-fragment>s and <binary-operator-call-fragment>s, each with
    its source position (first and last).  Operands are whatever binary-operand (parser.dylgram:634-648)
    builds and are only told apart by a number. *)
Inductive frag :=
  | Operand (n : nat) (pos : Z * Z)
  | MacroCall (o : op) (l r : frag) (pos : Z * Z)
  | OpCall (o : op) (l r : frag) (pos : Z * Z).

Definition frag_pos (f : frag) : Z * Z := match f with Operand _ p | MacroCall _ _ _ p | OpCall _ _ _ p => p end.

(** position-between on two fragments, fragments.dylan:76-79 with compute-position-between*, 47-56.
    (Positions missing altogether, #f, are not modelled.) *)
Definition position_between (l r : frag) : Z * Z :=
  let start_offset := (frag_pos l).1 in
  let end_offset := (frag_pos r).2 in
  if (end_offset <? start_offset)%Z then ((frag_pos r).1, (frag_pos l).2) else (start_offset, end_offset).

(** operator-precedence, parser-support.dylan:184-193 *)
Definition operator_precedence (o : op) : nat :=
  match o with
  | OPow => 9
  | OMul | ODiv => 7
  | OAdd | OSub => 5
  | OEq | ONe | OId | ONid | OLt | OGt | OLe | OGe => 4
  | OAnd | OOr => 2
  | OSet => 1
  end.

(** right-associative? and left-associative?, parser-support.dylan:195-204 *)
Definition right_associative (o : op) : bool := match o with OSet | OPow => true | _ => false end.
Definition left_associative (o : op) : bool := negb (right_associative o).

(** macro-operator-fragment?, parser-support.dylan:167-172 *)
Definition macro_operator (o : op) : bool := match o with OSet | OAnd | OOr => true | _ => false end.

(** <binop-sequence>, parser-support.dylan:76-83.  binop-previous is a fragment ([BOne]) or another
    sequence ([BMore]). *)
Inductive bseq :=
  | BOne (previous : frag) (o : op) (argument : frag)
  | BMore (previous : bseq) (o : op) (argument : frag).
Inductive item := IFrag (f : frag) | ISeq (s : bseq).

Definition bop (s : bseq) : op := match s with BOne _ o _ | BMore _ o _ => o end.
Definition barg (s : bseq) : frag := match s with BOne _ _ a | BMore _ _ a => a end.
(** binop-argument-setter.  (The sequence is used only once, so a new one will do.) *)
Definition set_barg (s : bseq) (f : frag) : bseq :=
  match s with BOne p o _ => BOne p o f | BMore p o _ => BMore p o f end.

(** fold-one-binop-aux! on a fragment, parser-support.dylan:142-165 *)
Definition fold_frag (l : frag) (o : op) (r : frag) : frag :=
  let loc := position_between l r in
  if macro_operator o then MacroCall o l r loc else OpCall o l r loc.

(** fold-one-binop!, parser-support.dylan:138-140,174-179 *)
Definition fold_one (s : bseq) : item :=
  match s with
  | BOne f o a => IFrag (fold_frag f o a)
  | BMore p o a => ISeq (set_barg p (fold_frag (barg p) o a))
  end.

(** fold-tighter-binops, parser-support.dylan:121-136 *)
Fixpoint fold_tighter (fuel : nat) (i : item) (prec : nat) (is_left : bool) : outcome item :=
  match fuel with
  | O => NoFuel
  | S fuel =>
      match i with
      | IFrag f => Val (IFrag f)
      | ISeq s =>
          let lead := operator_precedence (bop s) in
          if (prec <? lead) || ((lead =? prec) && is_left) then fold_tighter fuel (fold_one s) prec is_left
          else Val (ISeq s)
      end
  end.

(** append-binop!, parser-support.dylan:93-119 *)
Fixpoint append_binop (fuel : nat) (i : item) (new_op : op) (new_arg : frag) : outcome bseq :=
  match fuel with
  | O => NoFuel
  | S fuel =>
      match i with
      | IFrag f => Val (BOne f new_op new_arg)
      | ISeq s =>
          let new_prec := operator_precedence new_op in
          let lead_prec := operator_precedence (bop s) in
          let new_left := left_associative new_op in
          if (lead_prec <? new_prec) || ((lead_prec =? new_prec) && negb new_left) then Val (BMore s new_op new_arg)
          else
            do reduced <- fold_tighter fuel (fold_one s) new_prec new_left ;
            append_binop fuel reduced new_op new_arg
      end
  end.

(** binop-fragment, parser-support.dylan:85-91 *)
Fixpoint binop_fragment (fuel : nat) (i : item) : outcome frag :=
  match fuel with
  | O => NoFuel
  | S fuel =>
      match i with
      | IFrag f => Val f
      | ISeq s => binop_fragment fuel (fold_one s)
      end
  end.

(** expression-guts, parser.dylgram:618-622: an operand, then operators with an operand each *)
Fixpoint expression_guts (fuel : nat) (i : item) (rest : list (op * frag)) : outcome item :=
  match rest with
  | [] => Val i
  | (o, a) :: rest => do s <- append_binop fuel i o a ; expression_guts fuel (ISeq s) rest
  end.

(** expression, parser.dylgram:614-616 *)
Definition expression (fuel : nat) (first : frag) (rest : list (op * frag)) : outcome frag :=
  do i <- expression_guts fuel (IFrag first) rest ; binop_fragment fuel i.
