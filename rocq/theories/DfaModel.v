(** Model of the worklist of regular-expression-dfa, sources/lib/jam/regular-expression.dylan:208-269.  A state is its label, as in
    GlobModel.v. *)
From Verif Require Import Base GlobSpec GlobModel.
From Coq Require Import ZArith.
Local Open Scope outcome_scope.
Local Open Scope Z_scope.

(** One step of the inner loop, 257-266, with locate-state, 218-240: the label a transition has is looked up in the table of states;
    if there is none, the state is put into the table and at the end of the worklist. *)
Definition visit (st : store) (label : list nat) (acc : list (list nat) * list (list nat)) (c : Z) : list (list nat) * list (list nat) :=
  let '(states, worklist) := acc in
  match transition st label c with
  | None => (states, worklist)
  | Some l =>
      match List.find (fun l' => equal_sets l' l) states with
      | Some _ => (states, worklist)
      | None => (l :: states, worklist ++ [l])
      end
  end.

(** while (~empty?(worklist)), 244-267.  [order] is the order in which the transitions of a state are gone through. *)
Fixpoint dfa_loop (fuel : nat) (order : list nat -> list Z) (st : store) (states worklist : list (list nat)) : outcome (list (list nat)) :=
  match worklist with
  | [] => Val states
  | label :: worklist =>
      match fuel with
      | O => NoFuel
      | S fuel =>
          let '(states, worklist) := fold_left (visit st label) (order label) (states, worklist) in
          dfa_loop fuel order st states worklist
      end
  end.

(** regular-expression-dfa, 242-268: the states in the table at the end; the fuel is two to the number of positions, and C71_worklist
    shows that it is enough *)
Definition dfa (order : list nat -> list Z) (st : store) (r : regex) : outcome (list (list nat)) :=
  dfa_loop (Nat.pow 2 (next st)) order st [firsts r] [firsts r].

(** The matcher, jam-glob.dylan:132-142, on the states that were made: a transition to a state that was not is UB *)
Fixpoint run_table (st : store) (states : list (list nat)) (state : list nat) (match_string : list Z) : outcome bool :=
  match match_string with
  | [] => Val (accepting st state)
  | char :: match_string =>
      match transition st state char with
      | None => Val false
      | Some label =>
          match List.find (fun l => equal_sets l label) states with
          | Some state => run_table st states state match_string
          | None => UB
          end
      end
  end.

(** The expression followed by the accepting position, its automaton, and the call of the matcher *)
Definition with_accept (e : rx) : store * regex := let '(st, r) := build empty_store e in append_leaf st r Accept.
Definition table_accepts (order : list nat -> list Z) (e : rx) (match_string : list Z) : outcome bool :=
  let '(st, r) := with_accept e in
  do states <- dfa order st r ;
  run_table st states (firsts r) match_string.

(** num-dfa-states, 268 *)
Definition num_dfa_states (order : list nat -> list Z) (e : rx) : outcome nat :=
  let '(st, r) := with_accept e in
  do states <- dfa order st r ;
  Val (length states).
