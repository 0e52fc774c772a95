(** Model of the operations on lists of sources/dylan/list.dylan, on a heap of
    pairs.
    Simplifications: an object is a list cell or an atom (anything else; atoms
    are told apart by a number); functions passed by the user ([test],
    [function]) compute a value and do not change pairs; <integer> counters do
    not overflow, because a list that long does not fit in memory.
    Loops take [fuel], a bound on the number of steps; [NoFuel] says that the
    loop takes more steps than that. *)
From Verif Require Import Base.
Local Open Scope Z_scope.
Local Open Scope outcome_scope.

(** A list is a reference to a cell; cell 0 is the empty list. *)
Inductive obj := OList (a : nat) | OAtom (z : Z).
Definition nil : obj := OList 0.
#[global] Instance obj_eq_dec : EqDecision obj.
Proof. solve_decision. Defined.

(** dfmc/modeling/objects.dylan:287-299 <list>, <pair>, <empty-list>: the slots
    head and tail (and their setters) belong to <list>, so the empty list has
    them too; its initial head and tail are itself. *)
Notation heap := (list (obj * obj)).
Definition initial_heap : heap := [(nil, nil)].

Definition is_pair (o : obj) : bool := match o with OList (S _) => true | _ => false end.
Definition is_list (o : obj) : bool := match o with OList _ => true | _ => false end.
(** list.dylan:76-78 [empty?], and [== #()]. *)
Definition is_nil (o : obj) : bool := match o with OList O => true | _ => false end.
(** The identity test [==]. *)
Definition same (a b : obj) : bool := bool_decide (a = b).

Definition type_error {A} : outcome A := Signal "type error".
Definition range_error {A} : outcome A := Signal "ELEMENT outside of range".

(** Applied to something that is not a list: no applicable method. *)
Definition head (h : heap) (o : obj) : outcome obj :=
  match o with OList a => do c <- vread h a ; Val c.1 | OAtom _ => type_error end.
Definition tail (h : heap) (o : obj) : outcome obj :=
  match o with OList a => do c <- vread h a ; Val c.2 | OAtom _ => type_error end.
Definition set_head (h : heap) (o v : obj) : outcome heap :=
  match o with OList a => do c <- vread h a ; vwrite h a (v, c.2) | OAtom _ => type_error end.
Definition set_tail (h : heap) (o v : obj) : outcome heap :=
  match o with OList a => do c <- vread h a ; vwrite h a (c.1, v) | OAtom _ => type_error end.
(** list.dylan:23-28 [pair]. *)
Definition pair (h : heap) (x t : obj) : obj * heap := (OList (length h), h ++ [(x, t)]).

(** The check of a binding declared [:: <list>]. *)
Definition check_list (o : obj) : outcome obj := if is_list o then Val o else type_error.

(** list.dylan:35-45 [list], 98-105 [as(<list>, v)]: from the last element. *)
Fixpoint list_loop (h : heap) (rev_objects : list obj) (result : obj) : obj * heap :=
  match rev_objects with
  | [] => (result, h)
  | x :: rest => let '(p, h) := pair h x result in list_loop h rest p
  end.
Definition make_list (h : heap) (objects : list obj) : obj * heap :=
  list_loop h (rev objects) nil.

(** list.dylan:116-123 [make(<list>, size:, fill:)]. *)
Fixpoint fill_loop (n : nat) (h : heap) (fill result : obj) : obj * heap :=
  match n with
  | O => (result, h)
  | S n => let '(p, h) := pair h fill result in fill_loop n h fill p
  end.
Definition make_filled (h : heap) (size : Z) (fill : obj) : obj * heap :=
  fill_loop (Z.to_nat size) h fill nil.

(** list.dylan:176-206 [size]; [None] is #f. *)
Fixpoint size_loop (fuel : nat) (h : heap) (count : Z) (fast slow : obj) : outcome (option Z) :=
  match fuel with
  | O => NoFuel
  | S f =>
    do ft <- tail h fast ;
    if is_nil ft then Val (Some (count + 1))
    else if same fast slow && (0 <? count) then Val None
    else if is_pair ft then
      do ftt <- tail h ft ;
      if is_nil ftt then Val (Some (count + 2))
      else if is_pair ftt then
        do st <- tail h slow ;
        if is_pair st then size_loop f h (count + 2) ftt st else type_error
      else Signal "Taking size of an improper list"
    else Signal "Taking size of an improper list"
  end.
Definition list_size (fuel : nat) (h : heap) (l : obj) : outcome (option Z) :=
  if is_nil l then Val (Some 0) else size_loop fuel h 0 l l.

(** list.dylan:236-253 [element]; [default] is [None] when unsupplied. *)
Fixpoint element_loop (fuel : nat) (h : heap) (key : Z) (default : option obj) (l : obj) (i : Z)
  : outcome obj :=
  match fuel with
  | O => NoFuel
  | S f =>
    if is_pair l then
      if i =? key then head h l
      else do t <- tail h l ; element_loop f h key default t (i + 1)
    else match default with None => range_error | Some d => Val d end
  end.
Definition element (fuel : nat) (h : heap) (l : obj) (key : Z) (default : option obj)
  : outcome obj :=
  if key <? 0 then match default with None => range_error | Some d => Val d end
  else element_loop fuel h key default l 0.

(** list.dylan:292-302 [element-setter]. *)
Fixpoint element_setter_loop (fuel : nat) (h : heap) (v : obj) (key : Z) (l : obj) (i : Z)
  : outcome heap :=
  match fuel with
  | O => NoFuel
  | S f =>
    if is_pair l then
      if i =? key then set_head h l v
      else do t <- tail h l ; element_setter_loop f h v key t (i + 1)
    else range_error
  end.
Definition element_setter (fuel : nat) (h : heap) (v : obj) (l : obj) (key : Z) : outcome heap :=
  element_setter_loop fuel h v key l 0.

(** list.dylan:323-338 [member?] with a test other than [==]. *)
Fixpoint there_loop (fuel : nat) (h : heap) (test : obj -> obj -> bool) (v first remaining : obj)
  : outcome bool :=
  match fuel with
  | O => NoFuel
  | S f =>
    if test v first then Val true
    else if is_nil remaining then Val false
    else
      do x <- head h remaining ;
      do t <- tail h remaining ;
      do t <- check_list t ;
      there_loop f h test v x t
  end.
Definition member_test (fuel : nat) (h : heap) (test : obj -> obj -> bool) (v l : obj)
  : outcome bool :=
  if is_nil l then Val false
  else
    do x <- head h l ;
    do t <- tail h l ;
    do t <- check_list t ;
    there_loop fuel h test v x t.

(** list.dylan:341-364 [member-eql?]: the loop [for (itm in list)]. *)
Fixpoint member_eql (fuel : nat) (h : heap) (v l : obj) : outcome bool :=
  match fuel with
  | O => NoFuel
  | S f =>
    if is_nil l then Val false
    else
      do x <- head h l ;
      if same v x then Val true
      else do t <- tail h l ; do t <- check_list t ; member_eql f h v t
  end.

(** The [test:] argument: [None] is [==]. *)
Definition apply_test (test : option (obj -> obj -> bool)) : obj -> obj -> bool :=
  default same test.
(** list.dylan:323-338 [member?]. *)
Definition member (fuel : nat) (h : heap) (v l : obj) (test : option (obj -> obj -> bool))
  : outcome bool :=
  match test with
  | None => member_eql fuel h v l
  | Some test => member_test fuel h test v l
  end.

(** list.dylan:366-374 [xmember?]. *)
Fixpoint xmember (fuel : nat) (h : heap) (l v : obj) (test : obj -> obj -> bool) : outcome bool :=
  match fuel with
  | O => NoFuel
  | S f =>
    if is_pair l then
      do x <- head h l ;
      if test v x then Val true else do t <- tail h l ; xmember f h t v test
    else Val false
  end.

(** list.dylan:380-422 [add], [add!], [add-new], [add-new!] (the destructive ones do the
    same). *)
Definition add (h : heap) (l v : obj) : obj * heap := pair h v l.
Definition add_new (fuel : nat) (h : heap) (l v : obj) (test : obj -> obj -> bool)
  : outcome (obj * heap) :=
  do b <- xmember fuel h l v test ;
  Val (if b : bool then (l, h) else add h l v).

(** collection.dylan:1078-1086 [check-nat], for the [count:] of [remove]. *)
Definition check_count (count : option Z) : outcome Z :=
  match count with
  | None => Val (-1)
  | Some n => if 0 <=? n then Val n else Signal "number >= 0 expected"
  end.

(** list.dylan:463-468, 866-869: the pairs of [acc] are moved in front of
    [result] one by one. *)
Fixpoint relink (fuel : nat) (h : heap) (acc result : obj) : outcome (obj * heap) :=
  match fuel with
  | O => NoFuel
  | S f =>
    if is_nil acc then Val (result, h)
    else
      do t <- tail h acc ;
      do h <- set_tail h acc result ;
      relink f h t acc
  end.

(** list.dylan:440-455 [remove]: the first loop; returns [rev-accumulator],
    [remaining] and [result]. *)
Fixpoint remove_loop (fuel : nat) (h : heap) (test : obj -> obj -> bool) (v : obj)
    (acc remaining result : obj) (count : Z) : outcome (obj * obj * obj * heap) :=
  match fuel with
  | O => NoFuel
  | S f =>
    if is_pair remaining then
      do x <- head h remaining ;
      do t <- tail h remaining ;
      if test x v then
        let count := count - 1 in
        if count =? 0 then remove_loop f h test v acc nil t count
        else remove_loop f h test v acc t result count
      else
        let '(acc, h) := pair h x acc in
        remove_loop f h test v acc t result count
    else Val (acc, remaining, result, h)
  end.
(** list.dylan:430-472 [remove]. *)
Definition remove (fuel : nat) (h : heap) (l v : obj) (test : obj -> obj -> bool)
    (count : option Z) : outcome (obj * heap) :=
  do count <- check_count count ;
  if count =? 0 then Val (l, h)
  else
    do ' (acc, remaining, result, h) <- remove_loop fuel h test v nil l nil count ;
    if negb (is_nil remaining) then Signal "Improper list in call to remove"
    else relink fuel h acc result.

(** list.dylan:522-537 [remove!]: the loop; [prev] is [None] for #f. *)
Fixpoint remove_bang_loop (fuel : nat) (h : heap) (test : obj -> obj -> bool) (v : obj)
    (result : obj) (prev : option obj) (remaining : obj) (count : Z)
  : outcome (obj * obj * heap) :=
  match fuel with
  | O => NoFuel
  | S f =>
    if is_pair remaining then
      do x <- head h remaining ;
      if negb (test x v) then
        do t <- tail h remaining ;
        remove_bang_loop f h test v result (Some remaining) t count
      else
        do t <- tail h remaining ;
        do ' (result, h) <-
          match prev with
          | Some p => do h <- set_tail h p t ; Val (result, h)
          | None => Val (t, h)
          end ;
        let count := count - 1 in
        let remaining := if count =? 0 then nil else remaining in
        do t <- tail h remaining ;
        remove_bang_loop f h test v result prev t count
    else Val (result, remaining, h)
  end.
(** list.dylan:513-546 [remove!]. *)
Definition remove_bang (fuel : nat) (h : heap) (l v : obj) (test : obj -> obj -> bool)
    (count : option Z) : outcome (obj * heap) :=
  do count <- check_count count ;
  if count =? 0 then Val (l, h)
  else
    do ' (result, remaining, h) <- remove_bang_loop fuel h test v l None l count ;
    if negb (is_nil remaining) then Signal "Improper list in call to remove!"
    else Val (result, h).

(** list.dylan:552-582 [remove-duplicates]. *)
Fixpoint remove_duplicates_loop (fuel : nat) (h : heap) (test : option (obj -> obj -> bool))
    (result : obj) (prev : option obj) (remaining : obj) : outcome (obj * obj * heap) :=
  match fuel with
  | O => NoFuel
  | S f =>
    if is_pair remaining then
      do x <- head h remaining ;
      do t <- tail h remaining ;
      do b <- member f h x t test ;
      if b : bool then remove_duplicates_loop f h test result prev t
      else
        let '(new, h) := make_list h [x] in
        match prev with
        | Some p => do h <- set_tail h p new ; remove_duplicates_loop f h test result (Some new) t
        | None => remove_duplicates_loop f h test new (Some new) t
        end
    else Val (result, remaining, h)
  end.
Definition remove_duplicates (fuel : nat) (h : heap) (l : obj)
    (test : option (obj -> obj -> bool)) : outcome (obj * heap) :=
  do ' (result, remaining, h) <- remove_duplicates_loop fuel h test nil None l ;
  if negb (is_nil remaining) then Signal "Improper list in call to remove-duplicates"
  else Val (result, h).

(** list.dylan:588-615 [remove-duplicates!]. *)
Fixpoint remove_duplicates_bang_loop (fuel : nat) (h : heap) (test : option (obj -> obj -> bool))
    (result : obj) (prev : option obj) (remaining : obj) : outcome (obj * obj * heap) :=
  match fuel with
  | O => NoFuel
  | S f =>
    if is_pair remaining then
      do x <- head h remaining ;
      do t <- tail h remaining ;
      do b <- member f h x t test ;
      if negb b then remove_duplicates_bang_loop f h test result (Some remaining) t
      else
        match prev with
        | Some p => do h <- set_tail h p t ; remove_duplicates_bang_loop f h test result prev t
        | None => remove_duplicates_bang_loop f h test t prev t
        end
    else Val (result, remaining, h)
  end.
Definition remove_duplicates_bang (fuel : nat) (h : heap) (l : obj)
    (test : option (obj -> obj -> bool)) : outcome (obj * heap) :=
  do ' (result, remaining, h) <- remove_duplicates_bang_loop fuel h test l None l ;
  if negb (is_nil remaining) then Signal "Improper list in call to remove-duplicates!"
  else Val (result, h).

(** list.dylan:621-637 [last]. *)
Fixpoint last_loop (fuel : nat) (h : heap) (l : obj) : outcome obj :=
  match fuel with
  | O => NoFuel
  | S f =>
    do t <- tail h l ;
    if is_pair t then last_loop f h t else head h l
  end.
Definition last (fuel : nat) (h : heap) (l : obj) (default : option obj) : outcome obj :=
  if is_nil l then match default with None => range_error | Some d => Val d end
  else last_loop fuel h l.

(** list.dylan:643-653 [last-setter]; [empty?] of something that is not a list is
    an error. *)
Fixpoint last_setter_loop (fuel : nat) (h : heap) (v l : obj) : outcome heap :=
  match fuel with
  | O => NoFuel
  | S f =>
    do t <- tail h l ;
    if is_nil t then set_head h l v
    else if is_list t then last_setter_loop f h v t else type_error
  end.
Definition last_setter (fuel : nat) (h : heap) (v l : obj) : outcome heap :=
  if is_nil l then range_error else last_setter_loop fuel h v l.

(** list.dylan:670-679 [list-current-key]: the position of a state. *)
Fixpoint current_key (fuel : nat) (h : heap) (state l : obj) (k : Z) : outcome Z :=
  match fuel with
  | O => NoFuel
  | S f =>
    if same l state then Val k
    else do t <- tail h l ; do t <- check_list t ; current_key f h state t (k + 1)
  end.

(** list.dylan:804-814 [reverse]. *)
Fixpoint reverse_loop (fuel : nat) (h : heap) (l ans : obj) : outcome (obj * heap) :=
  match fuel with
  | O => NoFuel
  | S f =>
    if is_pair l then
      do t <- tail h l ;
      do x <- head h l ;
      let '(ans, h) := pair h x ans in
      reverse_loop f h t ans
    else Val (ans, h)
  end.
Definition reverse (fuel : nat) (h : heap) (l : obj) : outcome (obj * heap) :=
  reverse_loop fuel h l nil.

(** list.dylan:834-845 [reverse!]. *)
Fixpoint reverse_bang_loop (fuel : nat) (h : heap) (l result : obj) : outcome (obj * heap) :=
  match fuel with
  | O => NoFuel
  | S f =>
    if is_pair l then
      do nxt <- tail h l ;
      do h <- set_tail h l result ;
      reverse_bang_loop f h nxt l
    else Val (result, h)
  end.
Definition reverse_bang (fuel : nat) (h : heap) (l : obj) : outcome (obj * heap) :=
  reverse_bang_loop fuel h l nil.

(** The loops [for (v in source, result = #() then pair(v, result))] of
    list.dylan:717, 741, 862 and [for (item in collection) ...] of 89-96. *)
Fixpoint push_all (fuel : nat) (h : heap) (f : obj -> obj) (l result : obj)
  : outcome (obj * heap) :=
  match fuel with
  | O => NoFuel
  | S fl =>
    if is_nil l then Val (result, h)
    else
      do x <- head h l ;
      do t <- tail h l ;
      do t <- check_list t ;
      let '(result, h) := pair h (f x) result in
      push_all fl h f t result
  end.

(** list.dylan:723-726: skip to [first]; returns the rest and the index. *)
Fixpoint skip_to (fuel : nat) (h : heap) (first : Z) (l : obj) (i : Z) : outcome (obj * Z) :=
  match fuel with
  | O => NoFuel
  | S f =>
    if (i <? first) && negb (is_nil l) then
      do t <- tail h l ; skip_to f h first t (i + 1)
    else Val (l, i)
  end.
(** list.dylan:732-738: copy up to [last]. *)
Fixpoint copy_to (fuel : nat) (h : heap) (last : Z) (l : obj) (i : Z) (result : obj)
  : outcome (obj * Z * obj * heap) :=
  match fuel with
  | O => NoFuel
  | S f =>
    if (i <? last) && negb (is_nil l) then
      do t <- tail h l ;
      do x <- head h l ;
      let '(result, h) := pair h x result in
      copy_to f h last t (i + 1) result
    else Val (l, i, result, h)
  end.
(** list.dylan:712-747 [copy-sequence]; [last] is [None] when unsupplied. *)
Definition copy_sequence (fuel : nat) (h : heap) (source : obj) (first : Z) (last : option Z)
  : outcome (obj * heap) :=
  if (first =? 0) && match last with None => true | _ => false end then
    do ' (result, h) <- push_all fuel h id source nil ;
    reverse_bang fuel h result
  else if first <? 0 then Signal "invalid sequence start"
  else
    do ' (l, i) <- skip_to fuel h first source 0 ;
    if i <? first then Signal "invalid sequence start"
    else
      match last with
      | Some last =>
        if last <? first then Signal "invalid sequence bounds"
        else
          do ' (_, i, result, h) <- copy_to fuel h last l i nil ;
          if i <? last then Signal "invalid sequence end" else reverse_bang fuel h result
      | None =>
        do ' (result, h) <- push_all fuel h id l nil ;
        reverse_bang fuel h result
      end.

(** list.dylan:754-785 [replace-subsequence!], for an [insert] that is a list. *)
Fixpoint advance (n : nat) (h : heap) (l : obj) : outcome obj :=
  match n with
  | O => Val l
  | S n => do t <- tail h l ; advance n h t
  end.
Fixpoint find_hole (fuel : nat) (h : heap) (after_hole : obj) (index last : Z) : outcome obj :=
  match fuel with
  | O => NoFuel
  | S f =>
    if index =? last then Val after_hole
    else do t <- tail h after_hole ; find_hole f h t (index + 1) last
  end.
Fixpoint insert_loop (fuel : nat) (h : heap) (insert prev : obj) : outcome (obj * heap) :=
  match fuel with
  | O => NoFuel
  | S f =>
    if is_nil insert then Val (prev, h)
    else
      do elt <- head h insert ;
      let '(next, h) := pair h elt (OAtom 0) in
      do h <- set_tail h prev next ;
      do t <- tail h insert ;
      do t <- check_list t ;
      insert_loop f h t next
  end.
Definition replace_subsequence_bang (fuel : nat) (h : heap) (target insert : obj) (start : Z)
    (last : option Z) : outcome (obj * heap) :=
  let '(result, h) := pair h (OAtom 0) target in
  do prev <- advance (Z.to_nat start) h result ;
  do last <-
    match last with
    | Some last => Val last
    | None =>
      do n <- list_size fuel h insert ;
      match n with Some n => Val (start + n) | None => type_error end
    end ;
  do t <- tail h prev ;
  do after_hole <- find_hole fuel h t start last ;
  do ' (prev, h) <- insert_loop fuel h insert prev ;
  do h <- set_tail h prev after_hole ;
  do r <- tail h result ;
  Val (r, h).

(** list.dylan:852-874 [concatenate-as-two], for lists; 85-87 [as(<list>, list)] is
    the list itself. *)
Definition concatenate_as_two (fuel : nat) (h : heap) (l1 l2 : obj) : outcome (obj * heap) :=
  if is_nil l2 then Val (l1, h)
  else if is_nil l1 then Val (l2, h)
  else
    do ' (revcpy, h) <- push_all fuel h id l1 nil ;
    relink fuel h revcpy l2.

(** list.dylan:880-888 [concatenate-as]: [rev_rest] are the other lists, last
    one first. *)
Fixpoint concatenate_loop (fuel : nat) (h : heap) (rev_rest : list obj) (acc : obj)
  : outcome (obj * heap) :=
  match rev_rest with
  | [] => Val (acc, h)
  | s :: rest => do ' (acc, h) <- concatenate_as_two fuel h s acc ; concatenate_loop fuel h rest acc
  end.
Definition concatenate (fuel : nat) (h : heap) (first : obj) (rest : list obj)
  : outcome (obj * heap) :=
  do ' (acc, h) <- concatenate_loop fuel h (rev rest) nil ;
  concatenate_as_two fuel h first acc.

(** list.dylan:895-903 [reduce]. *)
Fixpoint reduce {R} (fuel : nat) (h : heap) (f : R -> obj -> R) (result : R) (l : obj) : outcome R :=
  match fuel with
  | O => NoFuel
  | S fl =>
    if is_nil l then Val result
    else
      do x <- head h l ;
      do t <- tail h l ;
      do t <- check_list t ;
      reduce fl h f (f result x) t
  end.

(** collection.dylan:265-274 [map-as-one(<list>, ...)], what [map] does on a list. *)
Definition map_list (fuel : nat) (h : heap) (f : obj -> obj) (l : obj) : outcome (obj * heap) :=
  do ' (result, h) <- push_all fuel h f l nil ;
  reverse_bang fuel h result.

(** collection.dylan:1036-1049 [=] on lists; atoms are [=] when they are the
    same, and never [=] to a list. *)
Fixpoint equal (fuel : nat) (h : heap) (o1 o2 : obj) : outcome bool :=
  match fuel with
  | O => NoFuel
  | S f =>
    if is_pair o1 && is_pair o2 then
      if same o1 o2 then Val true
      else
        do x1 <- head h o1 ;
        do x2 <- head h o2 ;
        do b <- equal f h x1 x2 ;
        if b : bool then
          do t1 <- tail h o1 ;
          do t2 <- tail h o2 ;
          equal f h t1 t2
        else Val false
    else Val (same o1 o2)
  end.
