(** Model of <t-list>, sources/lib/t-lists/t-lists.dylan: a deque made of a list and a reference to the last pair of
    it.  Objects and the heap of pairs are those of [ListModel].  An operation that changes the slots of a t-list returns
    the new slots.  Loops take [fuel], a bound on the number of steps.
    Simplifications: printing is left out; <integer> counters do not overflow. *)
From Verif Require Import Base ListModel.
From Coq Require Import ZArith.
Local Open Scope outcome_scope.
Local Open Scope Z_scope.

(** t-lists.dylan:10-13; the slots are declared [:: <list>]. *)
Record t_list := TList { first_pair : obj; last_pair : obj }.
Definition no_pairs : t_list := TList nil nil.

(** t-lists.dylan:55-57 *)
Definition is_empty (t : t_list) : bool := is_nil (first_pair t).

(** t-lists.dylan:59-67 *)
Definition push (h : heap) (t : t_list) (new_element : obj) : t_list * heap :=
  if is_empty t then let '(p, h) := pair h new_element nil in (TList p p, h)
  else let '(p, h) := pair h new_element (first_pair t) in (TList p (last_pair t), h).

(** t-lists.dylan:69-79 *)
Definition push_last (h : heap) (t : t_list) (new_element : obj) : outcome (t_list * heap) :=
  if is_empty t then let '(p, h) := pair h new_element nil in Val (TList p p, h)
  else
    do lt <- tail h (last_pair t) ;
    let '(new_pair, h) := pair h new_element lt in
    do h <- set_tail h (last_pair t) new_pair ;
    Val (TList (first_pair t) new_pair, h).

(** make(<t-list>, size:, fill:), t-lists.dylan:19-33, the loop and the method *)
Fixpoint fill_tl (n : nat) (h : heap) (t : t_list) (fill : obj) : outcome (t_list * heap) :=
  match n with
  | O => Val (t, h)
  | S n => do ' (t, h) <- push_last h t fill ; fill_tl n h t fill
  end.
Definition make_tl (h : heap) (size : Z) (fill : obj) : outcome (t_list * heap) := fill_tl (Z.to_nat size) h no_pairs fill.

(** t-lists.dylan:81-93 *)
Definition pop (h : heap) (t : t_list) : outcome (obj * t_list) :=
  if is_empty t then Signal "pop from an empty <t-list>"
  else
    do result <- head h (first_pair t) ;
    if same (first_pair t) (last_pair t) then Val (result, no_pairs)
    else
      do ft <- tail h (first_pair t) ;
      do ft <- check_list ft ;
      Val (result, TList ft (last_pair t)).

(** The loop of pop-last, t-lists.dylan:106-112 *)
Fixpoint next_to_last (fuel : nat) (h : heap) (p last : obj) : outcome obj :=
  match fuel with
  | O => NoFuel
  | S fuel => do t <- tail h p ; if same t last then Val p else next_to_last fuel h t last
  end.
(** t-lists.dylan:98-116 *)
Definition pop_last (fuel : nat) (h : heap) (t : t_list) : outcome (obj * t_list * heap) :=
  if is_empty t then Signal "pop-last from an empty <t-list>"
  else
    do result <- head h (last_pair t) ;
    if same (first_pair t) (last_pair t) then Val (result, no_pairs, h)
    else
      do p <- next_to_last fuel h (first_pair t) (last_pair t) ;
      do h <- set_tail h p nil ;
      Val (result, TList (first_pair t) p, h).

(** The iteration protocol, t-lists.dylan:327-359: a state is a pair, the limit is #(). *)
Definition initial_state (t : t_list) : obj := first_pair t.
Definition next_state (h : heap) (state : obj) : outcome obj := do s <- tail h state ; check_list s.
Definition finished_state (state : obj) : bool := is_nil state.
(** The variable key-counter of the iteration before and after a call, and the result of the call. *)
Definition current_key (key_counter : Z) (state : obj) : Z * Z := (key_counter + 1, key_counter + 1).
Definition initial_key_counter : Z := -1.
Definition current_element (h : heap) (state : obj) : outcome obj := head h state.
Definition current_element_setter (h : heap) (v state : obj) : outcome heap := set_head h state v.
Definition copy_state (h : heap) (state : obj) : outcome (obj * heap) :=
  do x <- head h state ; do t <- tail h state ; Val (pair h x t).

(** shallow-copy, t-lists.dylan:119-126: the loop [for (thing in the-t-list) push-last(...)] *)
Fixpoint copy_loop (fuel : nat) (h : heap) (state : obj) (new : t_list) : outcome (t_list * heap) :=
  match fuel with
  | O => NoFuel
  | S fuel =>
      if finished_state state then Val (new, h)
      else
        do thing <- current_element h state ;
        do ' (new, h) <- push_last h new thing ;
        do state <- next_state h state ;
        copy_loop fuel h state new
  end.
Definition shallow_copy (fuel : nat) (h : heap) (t : t_list) : outcome (t_list * heap) :=
  copy_loop fuel h (initial_state t) no_pairs.

(** A loop [for (key keyed-by ...)] over a t-list as sources/dylan/macros.dylan expands it: current-key and
    current-element are called once in each step. *)
Fixpoint keyed_loop (fuel : nat) (h : heap) (state : obj) (key_counter : Z) (acc : list (Z * obj)) : outcome (list (Z * obj)) :=
  match fuel with
  | O => NoFuel
  | S fuel =>
      if finished_state state then Val acc
      else
        do thing <- current_element h state ;
        let '(key_counter, key) := current_key key_counter state in
        do state <- next_state h state ;
        keyed_loop fuel h state key_counter (acc ++ [(key, thing)])
  end.
Definition keyed (fuel : nat) (h : heap) (t : t_list) : outcome (list (Z * obj)) :=
  keyed_loop fuel h (initial_state t) initial_key_counter [].

(** append!, t-lists.dylan:129-141; the second t-list keeps its slots. *)
Definition append_bang (h : heap) (t1 t2 : t_list) : outcome (t_list * heap) :=
  if is_empty t2 then Val (t1, h)
  else if is_empty t1 then Val (TList (first_pair t2) (last_pair t2), h)
  else
    do h <- set_tail h (last_pair t1) (first_pair t2) ;
    Val (TList (first_pair t1) (last_pair t2), h).

(** as(<t-list>, <list>), t-lists.dylan:173-181 *)
Fixpoint last_pair_loop (fuel : nat) (h : heap) (p : obj) : outcome obj :=
  match fuel with
  | O => NoFuel
  | S fuel => do t <- tail h p ; if is_nil t then Val p else last_pair_loop fuel h t
  end.
Definition of_list (fuel : nat) (h : heap) (l : obj) : outcome t_list :=
  do p <- last_pair_loop fuel h l ; do p <- check_list p ; Val (TList l p).
(** as(<list>, <t-list>), t-lists.dylan:168-171 *)
Definition to_list (t : t_list) : obj := first_pair t.
(** as(<t-list>, <collection>), t-lists.dylan:159-166; the collection is given by its elements. *)
Fixpoint of_elements (h : heap) (xs : list obj) (t : t_list) : outcome (t_list * heap) :=
  match xs with
  | [] => Val (t, h)
  | x :: xs => do ' (t, h) <- push_last h t x ; of_elements h xs t
  end.

(** The arguments of concatenate!: a t-list, a list, or another collection. *)
Inductive source := STList (t : t_list) | SList (l : obj) | SOther (xs : list obj).
Definition as_t_list (fuel : nat) (h : heap) (s : source) : outcome (t_list * heap) :=
  match s with
  | STList t => Val (t, h)
  | SList l => do t <- of_list fuel h l ; Val (t, h)
  | SOther xs => of_elements h xs no_pairs
  end.
(** t-lists.dylan:145-152 *)
Fixpoint concatenate_tl (fuel : nat) (h : heap) (t : t_list) (more : list source) : outcome (t_list * heap) :=
  match more with
  | [] => Val (t, h)
  | s :: more =>
      do ' (t2, h) <- as_t_list fuel h s ;
      do ' (t, h) <- append_bang h t t2 ;
      concatenate_tl fuel h t more
  end.

(** t-lists.dylan:183-185; the result is declared an <integer>. *)
Definition size_tl (fuel : nat) (h : heap) (t : t_list) : outcome Z :=
  do n <- list_size fuel h (first_pair t) ;
  match n with Some n => Val n | None => type_error end.

Definition missing (default : option obj) : outcome obj :=
  match default with Some d => Val d | None => Signal "element: <t-list> has no such element" end.

(** The loops of element and element-setter, t-lists.dylan:293-295 and 313-315: the state and the counter at the end *)
Fixpoint walk (fuel : nat) (h : heap) (state : obj) (counter : Z) : outcome (obj * Z) :=
  match fuel with
  | O => NoFuel
  | S fuel =>
      if (counter <=? 0) || finished_state state then Val (state, counter)
      else do state <- next_state h state ; walk fuel h state (counter - 1)
  end.
(** element, t-lists.dylan:192-228 for the indices 0, 1 and 2, and 286-305 for the others; [None] is an unsupplied
    default *)
Definition element_tl (fuel : nat) (h : heap) (t : t_list) (index : Z) (default : option obj) : outcome obj :=
  if index =? 0 then if is_empty t then missing default else head h (first_pair t)
  else if index =? 1 then
    if is_empty t then missing default
    else do p <- tail h (first_pair t) ; if is_nil p then missing default else head h p
  else if index =? 2 then
    if is_empty t then missing default
    else
      do p <- tail h (first_pair t) ;
      if is_nil p then missing default
      else do p <- tail h p ; if is_nil p then missing default else head h p
  else
    do ' (state, counter) <- walk fuel h (initial_state t) index ;
    if counter =? 0 then current_element h state else missing default.

Definition no_element {A} : outcome A := Signal "element-setter: <t-list> has no such element".
(** element-setter, t-lists.dylan:230-263 and 307-324 *)
Definition element_setter_tl (fuel : nat) (h : heap) (v : obj) (t : t_list) (index : Z) : outcome heap :=
  if index =? 0 then if is_empty t then no_element else set_head h (first_pair t) v
  else if index =? 1 then
    if is_empty t then no_element
    else do p <- tail h (first_pair t) ; if is_nil p then no_element else set_head h p v
  else if index =? 2 then
    if is_empty t then no_element
    else
      do p <- tail h (first_pair t) ;
      if is_nil p then no_element
      else do p <- tail h p ; if is_nil p then no_element else set_head h p v
  else
    do ' (state, counter) <- walk fuel h (initial_state t) index ;
    if counter =? 0 then current_element_setter h v state else no_element.

(** last and last-setter, t-lists.dylan:265-284 *)
Definition last_tl (h : heap) (t : t_list) (default : option obj) : outcome obj :=
  if negb (is_nil (last_pair t)) then head h (last_pair t) else missing default.
Definition last_setter_tl (h : heap) (v : obj) (t : t_list) : outcome heap :=
  if negb (is_nil (last_pair t)) then set_head h (last_pair t) v else no_element.

(** A call, and what it returns; a call that signals an error changes nothing. *)
Inductive call := CPush (x : obj) | CPushLast (x : obj) | CPop | CPopLast | CSize | CFirst | CLast | CSetLast (x : obj).
Inductive reply := RObj (o : obj) | RInt (n : Z) | RError.
Definition perform (fuel : nat) (h : heap) (t : t_list) (c : call) : outcome (reply * t_list * heap) :=
  let total {A} (m : outcome A) (k : A -> reply * t_list * heap) :=
    match m with Val a => Val (k a) | Signal _ => Val (RError, t, h) | UB => UB | NoFuel => NoFuel end in
  match c with
  | CPush x => let '(t, h) := push h t x in Val (RObj x, t, h)
  | CPushLast x => total (push_last h t x) (fun '(t, h) => (RObj x, t, h))
  | CPop => total (pop h t) (fun '(x, t) => (RObj x, t, h))
  | CPopLast => total (pop_last fuel h t) (fun '(x, t, h) => (RObj x, t, h))
  | CSize => total (size_tl fuel h t) (fun n => (RInt n, t, h))
  | CFirst => total (element_tl fuel h t 0 None) (fun x => (RObj x, t, h))
  | CLast => total (last_tl h t None) (fun x => (RObj x, t, h))
  | CSetLast x => total (last_setter_tl h x t) (fun h => (RObj x, t, h))
  end.
Fixpoint perform_all (fuel : nat) (h : heap) (t : t_list) (cs : list call) : outcome (list reply * t_list * heap) :=
  match cs with
  | [] => Val ([], t, h)
  | c :: cs =>
      do ' (r, t, h) <- perform fuel h t c ;
      do ' (rs, t, h) <- perform_all fuel h t cs ;
      Val (r :: rs, t, h)
  end.
