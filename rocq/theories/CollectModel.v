(** Model of the collector protocol, sources/collections/collectors.dylan, and of tokenize-environment-variable,
    sources/system/tokenize-variable.dylan.  Objects and the heap of pairs are those of [ListModel].  The macro that
    calls the protocol is left out; the deque collector is push and push-last of [DequeModel]. *)
From Verif Require Import Base ListModel.
From Coq Require Import ZArith.
Local Open Scope outcome_scope.
Local Open Scope Z_scope.

(** #f is some atom. *)
Definition fls : obj := OAtom (-1).

(** *** Lists, collectors.dylan:59-91 *)
(** The new collector, 67-70: the head of the pair is the pair itself. *)
Definition new_collector (h : heap) : outcome (obj * heap) :=
  let '(head_pair, h) := pair h fls nil in
  do h <- set_head h head_pair head_pair ;
  Val (head_pair, h).
(** add-first, 71-79 *)
Definition add_first (h : heap) (collector value : obj) : outcome heap :=
  do t <- tail h collector ;
  let '(new_pair, h) := pair h value t in
  do h <- set_tail h collector new_pair ;
  if is_nil t then set_head h collector new_pair else Val h.
(** add-last, 80-85; the binding c-head is declared a <pair>. *)
Definition add_last (h : heap) (collector value : obj) : outcome heap :=
  let '(new_pair, h) := pair h value nil in
  do c_head <- head h collector ;
  if is_pair c_head then
    do h <- set_tail h c_head new_pair ;
    set_head h collector new_pair
  else type_error.
(** collection, 88-90 *)
Definition collection (h : heap) (collector : obj) : outcome obj := tail h collector.

(** What is added *)
Inductive event := First (x : obj) | Last (x : obj).
Definition add_event (h : heap) (collector : obj) (e : event) : outcome heap :=
  match e with First x => add_first h collector x | Last x => add_last h collector x end.
(** Additions to two collectors, in some order *)
Fixpoint add_events (h : heap) (c1 c2 : obj) (es : list (bool * event)) : outcome heap :=
  match es with
  | [] => Val h
  | (b, e) :: es => do h <- add_event h (if b then c1 else c2) e ; add_events h c1 c2 es
  end.

(** *** Stretchy sequences, collectors.dylan:99-124: the collector is the sequence; size := fills with #f, an access
    outside of the sequence is UB here *)
Definition set_size (v : list obj) (n : Z) : list obj := take (Z.to_nat n) (v ++ replicate (Z.to_nat n - length v) fls).
Definition vsize (v : list obj) : Z := Z.of_nat (length v).
(** The loop [for (i from ... to 0 by -1)], 110-112; [n] is i + 1. *)
Fixpoint shift_up (n : nat) (v : list obj) : outcome (list obj) :=
  match n with
  | O => Val v
  | S i => do x <- zread v (Z.of_nat i) ; do v <- zwrite v (Z.of_nat i + 1) x ; shift_up i v
  end.
Definition add_first_stretchy (v : list obj) (value : obj) : outcome (list obj) :=
  let v := set_size v (vsize v + 1) in
  do v <- shift_up (Z.to_nat (vsize v - 2 + 1)) v ;
  zwrite v 0 value.
Definition add_last_stretchy (v : list obj) (value : obj) : outcome (list obj) :=
  let v := set_size v (vsize v + 1) in
  zwrite v (vsize v - 1) value.
Definition add_stretchy (v : list obj) (e : event) : outcome (list obj) :=
  match e with First x => add_first_stretchy v x | Last x => add_last_stretchy v x end.
Fixpoint add_all_stretchy (v : list obj) (es : list event) : outcome (list obj) :=
  match es with [] => Val v | e :: es => do v <- add_stretchy v e ; add_all_stretchy v es end.

(** *** Numbers, collectors.dylan:160-180, for any operation [by] *)
Definition add_number {A} (by_ : A -> A -> A) (object : A) (first : bool) (value : A) : A :=
  if first then by_ value object else by_ object value.
Fixpoint add_numbers {A} (by_ : A -> A -> A) (object : A) (es : list (bool * A)) : A :=
  match es with [] => object | (first, value) :: es => add_numbers by_ (add_number by_ object first value) es end.

(** *** tokenize-environment-variable, tokenize-variable.dylan:11-30; [delimiter] is $environment-variable-delimiter *)
Definition copy_part (var : list Z) (old_pos pos : Z) : list Z := take (Z.to_nat (pos - old_pos)) (drop (Z.to_nat old_pos) var).
(** The local method collect-string, 17-22: the strings and the new old-pos *)
Definition collect_string (var : list Z) (strings : list (list Z)) (old_pos pos : Z) : list (list Z) * Z :=
  ((if pos =? old_pos then strings else strings ++ [copy_part var old_pos pos]), pos + 1).
Fixpoint tokenize_loop (fuel : nat) (delimiter : Z) (var : list Z) (strings : list (list Z)) (old_pos pos : Z) : outcome (list (list Z)) :=
  match fuel with
  | O => NoFuel
  | S fuel =>
      if pos <? Z.of_nat (length var) then
        do c <- zread var pos ;
        let '(strings, old_pos) := if c =? delimiter then collect_string var strings old_pos pos else (strings, old_pos) in
        tokenize_loop fuel delimiter var strings old_pos (pos + 1)
      else Val (collect_string var strings old_pos pos).1
  end.
Definition tokenize (delimiter : Z) (var : list Z) : outcome (list (list Z)) := tokenize_loop (S (length var)) delimiter var [] 0 0.
