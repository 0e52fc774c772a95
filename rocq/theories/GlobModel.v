(** Model of the glob patterns of Jam: sources/lib/jam/jam-glob.dylan (parse-glob-pattern, glob-match-function), and of the
    regular expressions and their deterministic automata: sources/lib/jam/regular-expression.dylan and
    jam-regular-expression.dylan (<match-dfa-state>).
    Characters are their codes.  A <bit-set> of symbols is its characteristic function (bit sets are in BitsModel.v).
    Simplified: the automaton is not built in advance with a worklist; the transition out of a state is computed when the
    string is matched.  The table of states is kept: a set of positions that is equal, by the test of the table, to one that
    has a state already is replaced by it.  Hashing of the labels is not modelled. *)
From Verif Require Import Base GlobSpec.
From Coq Require Import ZArith.
Local Open Scope outcome_scope.
Local Open Scope Z_scope.

(** ** Regular expressions *)

(** What a position reads: a symbol of a set (<symbol-regular-expression>, <symbol-set-regular-expression>), or nothing, at the
    end (<match-accept-regular-expression>). *)
Inductive kind := Reads (set : Z -> bool) | Accept.

(** The leaves made so far, numbered, with the slot regular-expression-follow-positions, regular-expression.dylan:13-18 *)
Record store := Store { next : nat; kind_of : nat -> kind; follow : nat -> list nat }.

(** The other slots of a <regular-expression>, regular-expression.dylan:13-18 *)
Record regex := Regex { nullable : bool; firsts : list nat; lasts : list nat }.

Definition set_follow (st : store) (node : nat) (l : list nat) : store :=
  Store (next st) (kind_of st) (fun n => if decide (n = node) then l else follow st n).

(** initialize on <epsilon-regular-expression>, 108-112 *)
Definition make_epsilon : regex := Regex true [] [].

(** initialize on a leaf, 114-136 *)
Definition make_leaf (st : store) (k : kind) : store * regex :=
  let instance := next st in
  (Store (S instance) (fun n => if decide (n = instance) then k else kind_of st n)
     (fun n => if decide (n = instance) then [] else follow st n),
   Regex false [instance] [instance]).

(** initialize on <union-regular-expression>, 138-152 *)
Definition make_union (union1 union2 : regex) : regex :=
  Regex (nullable union1 || nullable union2) (firsts union1 ++ firsts union2) (lasts union1 ++ lasts union2).

(** initialize on <concatenation-regular-expression>, 154-183 *)
Definition make_concatenation (st : store) (re_head re_tail : regex) : store * regex :=
  (fold_left (fun st node => set_follow st node (follow st node ++ firsts re_tail)) (lasts re_head) st,
   Regex (nullable re_head && nullable re_tail)
     (if nullable re_head then firsts re_head ++ firsts re_tail else firsts re_head)
     (if nullable re_tail then lasts re_head ++ lasts re_tail else lasts re_tail)).

(** union(a, b, test: \==) on lists of positions, dylan/sequence.dylan:413-427 (C59) *)
Definition mem (x : nat) (l : list nat) : bool := existsb (Nat.eqb x) l.
Definition union_positions (a b : list nat) : list nat := rev (List.filter (fun x => negb (mem x b)) a) ++ b.

(** initialize on <closure-regular-expression>, 185-200 *)
Definition make_closure (st : store) (enclosed : regex) : store * regex :=
  (fold_left (fun st node => set_follow st node (union_positions (follow st node) (firsts enclosed))) (lasts enclosed) st,
   Regex true (firsts enclosed) (lasts enclosed)).

(** ** parse-glob-pattern *)

Definition c_question : Z := 63.
Definition c_star : Z := 42.
Definition c_open : Z := 91.
Definition c_close : Z := 93.
Definition c_caret : Z := 94.
Definition c_dash : Z := 45.
Definition c_backslash : Z := 92.

(** $any-char-set, jam-glob.dylan:8-15 *)
Definition any_char_set (c : Z) : bool := (0 <=? c) && (c <? 256).

Definition missing_close : string := "closing ']' missing".
Definition ends_in_backslash : string := "glob pattern ends in '\'".

(** The loop over the characters of a class, 53-67; [s] is the string from pos on, and [first] says that pos = i + 1.
    The answer is the set and the string behind the closing bracket. *)
Fixpoint parse_class (first : bool) (set : Z -> bool) (s : list Z) : outcome ((Z -> bool) * list Z) :=
  match s with
  | [] => Signal missing_close
  | c :: s =>
      if (c =? c_close) && negb first then Val (set, s)
      else
        match s with
        | d :: e :: s' =>
            if d =? c_dash then parse_class false (fun x => set x || ((c <=? x) && (x <=? e))) s'
            else parse_class false (fun x => set x || (x =? c)) s
        | _ => parse_class false (fun x => set x || (x =? c)) s
        end
  end.

(** loop(make(<concatenation-regular-expression>, head: node, tail: ...)) with a leaf as the tail *)
Definition append_leaf (st : store) (node : regex) (k : kind) : store * regex :=
  let '(st, tail) := make_leaf st k in make_concatenation st node tail.

(** parse-glob-pattern, 17-109; [s] is the string from i on *)
Fixpoint parse_loop (fuel : nat) (st : store) (node : regex) (s : list Z) : outcome (store * regex) :=
  match s with
  | [] => Val (st, node)
  | char :: s =>
      match fuel with
      | O => NoFuel
      | S fuel =>
          if char =? c_question then
            let '(st, node) := append_leaf st node (Reads any_char_set) in parse_loop fuel st node s
          else if char =? c_star then
            let '(st, leaf) := make_leaf st (Reads any_char_set) in
            let '(st, tail) := make_closure st leaf in
            let '(st, node) := make_concatenation st node tail in
            parse_loop fuel st node s
          else if char =? c_open then
            let '(complement, s) := match s with c :: s' => if c =? c_caret then (true, s') else (false, s) | [] => (false, s) end in
            do ' (set, s) <- parse_class true (fun _ => false) s ;
            let set := if complement : bool then (fun x => any_char_set x && negb (set x)) else set in
            let '(st, node) := append_leaf st node (Reads set) in parse_loop fuel st node s
          else if char =? c_backslash then
            match s with
            | c :: s => let '(st, node) := append_leaf st node (Reads (fun x => x =? c)) in parse_loop fuel st node s
            | [] => Signal ends_in_backslash
            end
          else let '(st, node) := append_leaf st node (Reads (fun x => x =? char)) in parse_loop fuel st node s
      end
  end.
Definition parse_glob_pattern (st : store) (s : list Z) : outcome (store * regex) := parse_loop (length s) st make_epsilon s.

(** ** The automaton *)

(** The test of <set-table>, regular-expression.dylan:275-281 *)
Definition equal_sets (set1 set2 : list nat) : bool :=
  Nat.eqb (length set1) (length set2) && forallb (fun x => mem x set2) set1.

(** locate-state, 218-240: a state is its label; [states] are the labels of the states made *)
Definition locate_state (states : list (list nat)) (label : list nat) : list nat * list (list nat) :=
  match List.find (fun l => equal_sets l label) states with
  | Some l => (l, states)
  | None => (label, label :: states)
  end.

(** The transition on [c] that do-regular-expression-dfa-state-position, 309-351, leaves for the positions of a label, 249-252;
    None is #f *)
Definition transition (st : store) (label : list nat) (c : Z) : option (list nat) :=
  fold_left (fun present position =>
    match kind_of st position with
    | Reads set =>
        if set c then
          match present with
          | Some present => Some (union_positions present (follow st position))
          | None => Some (follow st position)
          end
        else present
    | Accept => present
    end) label None.

(** match-dfa-state-accepting?, jam-regular-expression.dylan:158-172 *)
Definition accepting (st : store) (label : list nat) : bool :=
  existsb (fun position => match kind_of st position with Accept => true | Reads _ => false end) label.

(** The matcher, jam-glob.dylan:132-142 *)
Fixpoint run (st : store) (states : list (list nat)) (state : list nat) (match_string : list Z) : bool :=
  match match_string with
  | [] => accepting st state
  | char :: match_string =>
      match transition st state char with
      | None => false
      | Some label => let '(state, states) := locate_state states label in run st states state match_string
      end
  end.

(** for (pattern in more-patterns), jam-glob.dylan:116-120 *)
Fixpoint parse_more (st : store) (re : regex) (more : list (list Z)) : outcome (store * regex) :=
  match more with
  | [] => Val (st, re)
  | pattern :: more =>
      do ' (st, r) <- parse_glob_pattern st pattern ;
      parse_more st (make_union re r) more
  end.

(** glob-match-function, 111-143, and the call of the function it gives *)
Definition empty_store : store := Store 0 (fun _ => Accept) (fun _ => []).
Definition glob_match (pattern : list Z) (more : list (list Z)) (match_string : list Z) : outcome bool :=
  do ' (st, r) <- parse_glob_pattern empty_store pattern ;
  do ' (st, r) <- parse_more st r more ;
  let '(st, r) := append_leaf st r Accept in
  let '(state, states) := locate_state [] (firsts r) in
  Val (run st states state match_string).

(** Making a regular expression from its parts: the nested calls of make(<...-regular-expression>, ...), parts first.  A
    <symbol-regular-expression> is a set of one symbol. *)
Fixpoint build (st : store) (e : rx) : store * regex :=
  match e with
  | Epsilon => (st, make_epsilon)
  | Symbol_set set => make_leaf st (Reads set)
  | Union e1 e2 => let '(st, r1) := build st e1 in let '(st, r2) := build st e2 in (st, make_union r1 r2)
  | Concatenation e1 e2 => let '(st, r1) := build st e1 in let '(st, r2) := build st e2 in make_concatenation st r1 r2
  | Closure e => let '(st, r) := build st e in make_closure st r
  end.

(** regular-expression-dfa, regular-expression.dylan:208-269, of the expression followed by the accepting position, run on a
    string; jam-regular-expression.dylan and jam-glob.dylan call it so *)
Definition accepts (e : rx) (match_string : list Z) : bool :=
  let '(st, r) := build empty_store e in
  let '(st, r) := append_leaf st r Accept in
  let '(state, states) := locate_state [] (firsts r) in
  run st states state match_string.
