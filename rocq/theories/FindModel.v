(** Model of position, difference, find-element and fill-table!:
    sources/common-dylan/common-extensions.dylan, and of find-key on sequences, sources/dylan/sequence.dylan.
    Functions passed by the user are total Coq functions without side effects, and <integer>s are unbounded.
    position is modelled on lists (the method on <sequence>, with the iteration protocol of lists) and on vectors and
    strings (the method on <vector>). *)
From Verif Require Import Base CollModel AccModel SeqOpModel SelModel.
From Coq Require Import ZArith.
Local Open Scope outcome_scope.
Local Open Scope Z_scope.

(** The errors signalled. *)
Definition element_range_error : string := "element-range-error".

Section Find.
Context {A : Type}.

(** ** position *)

(** if (count) count - 1 else skip end, common-extensions.dylan:126 and 157: the initial value of the variable skip of the
    loop.  [count] is the keyword argument kept for compatibility; None is #f. *)
Definition initial_skip (skip : Z) (count : option Z) : Z :=
  match count with Some count => count - 1 | None => skip end.

(** for (index from 0 below _start, state = initial-state then next-state(sequence, state)), 120-122, on a list: [n] rounds
    are left; list-next-state is tail, and the tail of the empty list is the empty list. *)
Fixpoint skip_states (n : nat) (state : list A) : list A :=
  match n with O => state | S n => skip_states n (List.tl state) end.

(** _end & index >= _end, 128 *)
Definition at_end (end_ : option Z) (index : Z) : bool :=
  match end_ with Some end_ => end_ <=? index | None => false end.

(** The search of position on a list, 125-139 *)
Fixpoint position_loop (test : A -> A -> bool) (target : A) (end_ : option Z) (index skip : Z) (state : list A) : option Z :=
  match state with
  | [] => None
  | current_element :: next_state =>
      if at_end end_ index then None
      else if test target current_element then
        if skip =? 0 then Some index
        else position_loop test target end_ (index + 1) (skip - 1) next_state
      else position_loop test target end_ (index + 1) skip next_state
  end.

(** position on a list, 111-142 *)
Definition position_list (test : A -> A -> bool) (start : Z) (end_ : option Z) (skip : Z) (count : option Z)
    (sequence : list A) (target : A) : option Z :=
  position_loop test target end_ start (initial_skip skip count) (skip_states (Z.to_nat start) sequence).

(** sequence[index] on a vector: an element-range-error outside it (vector.dylan) *)
Definition checked_element (sequence : list A) (index : Z) : outcome A :=
  if index <? 0 then Signal element_range_error
  else match sequence !! Z.to_nat index with Some x => Val x | None => Signal element_range_error end.

(** The loop of position on a vector, 155-168 *)
Fixpoint position_vector_loop (fuel : nat) (test : A -> A -> bool) (sequence : list A) (target : A) (end_ index skip : Z) : outcome (option Z) :=
  match fuel with
  | O => NoFuel
  | S fuel =>
      if end_ <=? index then Val None
      else
        do x <- checked_element sequence index ;
        if test target x then
          if skip =? 0 then Val (Some index)
          else position_vector_loop fuel test sequence target end_ (index + 1) (skip - 1)
        else position_vector_loop fuel test sequence target end_ (index + 1) skip
  end.

(** position on a vector or a string, 145-187; _end is the size by default *)
Definition position_vector (fuel : nat) (test : A -> A -> bool) (start : Z) (end_ : option Z) (skip : Z) (count : option Z)
    (sequence : list A) (target : A) : outcome (option Z) :=
  position_vector_loop fuel test sequence target (default (Z.of_nat (length sequence)) end_) start (initial_skip skip count).

(** ** find-key and find-element on sequences *)

(** find-key, sequence.dylan:686-697.  One round of the for loop: the next values found = fn(e) & ((skip := skip - 1) < 0) and
    index + 1 are computed with the e of the round, and then the loop ends if found or if the collection is finished. *)
Fixpoint find_key_loop (fn : A -> bool) (skip index : Z) (rest : list A) : option Z :=
  match rest with
  | [] => None
  | e :: rest =>
      let skip' := if fn e then skip - 1 else skip in
      if fn e && (skip' <? 0) then Some (index + 1)
      else find_key_loop fn skip' (index + 1) rest
  end.
Definition find_key_seq (fn : A -> bool) (skip : Z) (collection : list A) : option Z := find_key_loop fn skip (-1) collection.

(** find-element, common-extensions.dylan:409-420, on sequences: element(collection, key, default: failure) *)
Definition find_element (fn : A -> bool) (skip : Z) (failure : A) (collection : list A) : A :=
  match find_key_seq fn skip collection with
  | None => failure
  | Some key => if key <? 0 then failure else default failure (collection !! Z.to_nat key)
  end.

(** ** fill-table! *)

(** The objects of the sequence: #f or another object. *)
Inductive object := False_ | Obj (a : A).

(** fill-table!, 422-436.  The result is the sequence of the stores table[key] := object, in the order they are made.
    [key] holds #f or the key waiting for its element. *)
Fixpoint fill_loop (key : object) (objects : list object) : list (object * object) :=
  match objects with
  | [] => []
  | object :: objects =>
      match key with
      | False_ => fill_loop object objects
      | Obj _ => (key, object) :: fill_loop False_ objects
      end
  end.
Definition fill_table (keys_and_elements : list object) : list (object * object) := fill_loop False_ keys_and_elements.
End Find.
Arguments object A : clear implicits.

(** ** difference *)

(** difference, common-extensions.dylan:92-98: choose(~member?(item, sequence-2, test: test), sequence-1), with choose of
    sequence.dylan:361-369 and the predicate run in each round *)
Definition difference (fuel : nat) (test : value -> value -> bool) (sequence1 sequence2 : coll) : outcome coll :=
  do result <- for_in fuel sequence1
    (fun result item => do b <- member_of fuel test item sequence2 ; Val (if negb b then item :: result else result)) [] ;
  as_type (type_for_copy sequence1) (rev result).
