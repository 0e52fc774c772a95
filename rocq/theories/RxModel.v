(** Model of parse-regular-expression, sources/lib/jam/jam-regular-expression.dylan.  A node is given by the parts it is made of
    ([rx] of GlobSpec.v); GlobModel.build is what making them does, in the order they are made: the copy that + needs
    (copy-regular-expression, regular-expression.dylan:20-102, copies all parts) is made after the node.  The string is what is left
    of it from pos on.  Not modelled: the cache of parsed expressions. *)
From Verif Require Import Base GlobSpec GlobModel.
From Coq Require Import ZArith.
Local Open Scope outcome_scope.
Local Open Scope Z_scope.

Definition regexp_missing : string := "regexp missing at end".
Definition missing_paren : string := "closing ')' missing in regular expression".
Definition ended_prematurely : string := "regular expression ended prematurely".

(** dot-set, jam-regular-expression.dylan:91-96 *)
Definition dot_set (c : Z) : bool := any_char_set c && negb (c =? 10).

(** One local function for each case, and one for each of their while loops. *)
Inductive step :=
| Regexp0                (** parse-regexp0, 15-28 *)
| Loop0 (node : rx)      (** its while loop, 20-26 *)
| Regexp1                (** parse-regexp1, 30-43 *)
| Loop1 (node : rx)      (** its while loop, 35-41 *)
| Regexp2                (** parse-regexp2, 45-71 *)
| Regexp3.               (** parse-regexp3, 72-142 *)

Fixpoint parse (fuel : nat) (f : step) (s : list Z) : outcome (rx * list Z) :=
  match fuel with
  | O => NoFuel
  | S fuel =>
      match f with
      | Regexp0 => do ' (node, s) <- parse fuel Regexp1 s ; parse fuel (Loop0 node) s
      | Loop0 node =>
          match s with
          | c :: s' =>
              if c =? 124 then do ' (new_node, s) <- parse fuel Regexp1 s' ; parse fuel (Loop0 (Union node new_node)) s
              else Val (node, s)
          | [] => Val (node, s)
          end
      | Regexp1 => do ' (node, s) <- parse fuel Regexp2 s ; parse fuel (Loop1 node) s
      | Loop1 node =>
          match s with
          | c :: _ =>
              if negb (c =? 124) && negb (c =? 41) then
                do ' (new_node, s) <- parse fuel Regexp2 s ; parse fuel (Loop1 (Concatenation node new_node)) s
              else Val (node, s)
          | [] => Val (node, s)
          end
      | Regexp2 =>
          do ' (node, s) <- parse fuel Regexp3 s ;
          match s with
          | c :: s' =>
              if c =? 42 then Val (Closure node, s')
              else if c =? 43 then Val (Concatenation node (Closure node), s')
              else if c =? 63 then Val (Union Epsilon node, s')
              else Val (node, s)
          | [] => Val (node, s)
          end
      | Regexp3 =>
          match s with
          | [] => Signal regexp_missing
          | c :: s =>
              if c =? 40 then
                do ' (node, s) <- parse fuel Regexp0 s ;
                match s with
                | d :: s => if d =? 41 then Val (node, s) else Signal missing_paren
                | [] => Signal missing_paren
                end
              else if (c =? 92) && negb (Nat.eqb (length s) 0) then
                match s with
                | d :: s => Val (Symbol_set (fun x => x =? d), s)
                | [] => UB
                end
              else if c =? 46 then Val (Symbol_set dot_set, s)
              else if c =? 91 then
                let '(complement, s) := match s with d :: s' => if d =? c_caret then (true, s') else (false, s) | [] => (false, s) end in
                do ' (set, s) <- parse_class true (fun _ => false) s ;
                Val (Symbol_set (if complement : bool then (fun x => any_char_set x && negb (set x)) else set), s)
              else Val (Symbol_set (fun x => x =? c), s)
          end
      end
  end.

(** parse-regular-expression, 144-155, without the cache; C72_returns shows that the fuel is enough *)
Definition parse_regular_expression (s : list Z) : outcome rx :=
  do ' (node, s) <- parse (6 * length s + 4) Regexp0 s ;
  match s with [] => Val node | _ => Signal ended_prematurely end.
