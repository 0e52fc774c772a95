(** C53: binary operators group by the precedence and associativity of the language. *)
From Verif Require Import Base BinopModel BinopSpec BinopProofs.
From Coq Require Import ZArith Lia.
Local Open Scope nat_scope.

(** An expression of any length is parsed: the result has the same operands and operators in the same
    order, grouped as the table says, with the source position of each subexpression running from its
    first operand to its last and := & | turned into macro calls. *)
Theorem C53_precedence : forall first rest fuel,
  is_operand first -> Forall (fun p => is_operand p.2) rest -> in_text_order (frag_pos first).1 (first :: map snd rest) ->
  length rest < fuel ->
  exists f, expression fuel first rest = Val f /\ grouped f /\
    words f = words first ++ concat (map (fun p => WOp p.1 :: words p.2) rest).
Proof.
  intros first rest fuel H1 H2 H3 H4. destruct (expression_ok fuel first rest H1 H2 H3 H4) as (f & -> & Hg & Hw).
  exists f. split_and!; auto. rewrite Hw. f_equal. clear. induction rest as [|[o a] rest IH]; [done|]. cbn. by rewrite IH.
Qed.
Print Assumptions C53_precedence.

(** There is no other way to group them. *)
Theorem C53_unique : forall f f', grouped f -> grouped f' -> words f = words f' -> f = f'.
Proof. intros f f'. apply grouped_unique. Qed.
Print Assumptions C53_unique.

(** Two consequences a reader of programs uses: a - b - c is (a - b) - c, and x := a | b * c ^ d ^ e = f
    is x := (a | ((b * (c ^ (d ^ e))) = f)). *)
Definition at_ (n : nat) : frag := Operand n (Z.of_nat (2 * n), Z.of_nat (2 * n)).
Example left_to_right : expression 10 (at_ 0) [(OSub, at_ 1); (OSub, at_ 2)] =
  Val (OpCall OSub (OpCall OSub (at_ 0) (at_ 1) (0, 2)%Z) (at_ 2) (0, 4)%Z).
Proof. vm_compute. reflexivity. Qed.
Example long : expression 10 (at_ 0) [(OSet, at_ 1); (OOr, at_ 2); (OMul, at_ 3); (OPow, at_ 4); (OPow, at_ 5); (OEq, at_ 6)] =
  Val (MacroCall OSet (at_ 0)
        (MacroCall OOr (at_ 1)
           (OpCall OEq (OpCall OMul (at_ 2) (OpCall OPow (at_ 3) (OpCall OPow (at_ 4) (at_ 5) (8, 10)%Z) (6, 10)%Z) (4, 10)%Z)
              (at_ 6) (4, 12)%Z) (2, 12)%Z) (0, 12)%Z).
Proof. vm_compute. reflexivity. Qed.
Example long_meets : is_operand (at_ 0) /\ Forall (fun p => is_operand p.2) [(OSub, at_ 1); (OSub, at_ 2)] /\
  in_text_order (frag_pos (at_ 0)).1 (at_ 0 :: map snd [(OSub, at_ 1); (OSub, at_ 2)]).
Proof. split_and!; [done | repeat constructor | cbn; lia]. Qed.
