(** Model of sources/dylan/deque.dylan (<object-deque> over <island-deque>).

    Values are of an arbitrary type [A]; [ff] is the value #f; [ok] is the element type
    (check-type(x, element-type(deque)) signals when [ok x = false]).  The slot accessor
    island-deque-element is an unchecked access: outside the slots it is [UB].
    Single-threaded executions only (the code's "thread problem" escapes are kept as
    tests but the model has no concurrent mutation).  <integer> overflow of sizes is not
    modelled. *)
From Verif Require Import Base.
Local Open Scope Z_scope.
Local Open Scope outcome_scope.

Section deque.
Context {A : Type} (ff : A) (ok : A -> bool).

(** deque.dylan:151-160 <island-deque>. *)
Record rep := Rep { rfirst : Z; rlast : Z; rslots : list A }.

Definition rep_size (r : rep) : Z := Z.of_nat (length (rslots r)).

(** Responses seen by the caller.  [RErr] is a signalled condition; the deque is then in
    the returned state. *)
Inductive resp :=
| RUnit
| RVal (a : A)
| RInt (z : Z)
| RBool (b : bool)
| RList (l : list A)
| RPairs (l : list (Z * A))
| RErr (m : string).

(** for (i from [i], [n] times) island-deque-element(rep, i) := x. *)
Fixpoint fill_loop (s : list A) (i : Z) (x : A) (n : nat) : outcome (list A) :=
  match n with
  | O => Val s
  | S n' => do s' <- zwrite s i x; fill_loop s' (i + 1) x n'
  end.

(** for (src-index from [si], dst-index from [di], [n] times)
      island-deque-element(new, dst-index) := island-deque-element(old, src-index). *)
Fixpoint copy_loop (old new : list A) (si di : Z) (n : nat) : outcome (list A) :=
  match n with
  | O => Val new
  | S n' =>
      do x <- zread old si;
      do new' <- zwrite new di x;
      copy_loop old new' (si + 1) (di + 1) n'
  end.

(** The same inside one vector, ascending. *)
Fixpoint move_up_loop (s : list A) (si di : Z) (n : nat) : outcome (list A) :=
  match n with
  | O => Val s
  | S n' =>
      do x <- zread s si;
      do s' <- zwrite s di x;
      move_up_loop s' (si + 1) (di + 1) n'
  end.

(** The same inside one vector, descending. *)
Fixpoint move_down_loop (s : list A) (si di : Z) (n : nat) : outcome (list A) :=
  match n with
  | O => Val s
  | S n' =>
      do x <- zread s si;
      do s' <- zwrite s di x;
      move_down_loop s' (si - 1) (di - 1) n'
  end.

(** Number of iterations of "from a to b" (step 1). *)
Definition upto (a b : Z) : nat := Z.to_nat (b - a + 1).

(** deque.dylan:147. *)
Definition min_data_size : Z := 4.

(** deque.dylan:166-181 initialize.  [fill] = None stands for fill: not supplied. *)
Definition make_deque (size : Z) (fill : option A) : outcome rep :=
  if bool_decide (size < 0) then Signal "natural-number-error"%string
  else
    let data_size := Z.max (size * 2) min_data_size in
    let slots := replicate (Z.to_nat data_size) ff in
    let f := Z.quot data_size 2 in
    let l := f + size - 1 in
    do slots' <- match fill with
                 | None => Val slots
                 | Some x => fill_loop slots f x (upto f l)
                 end;
    Val (Rep f l slots').

(** deque.dylan:217-220 size. *)
Definition deque_size (r : rep) : Z := (rlast r - rfirst r) + 1.

(** deque.dylan:262-265 empty?. *)
Definition deque_empty (r : rep) : bool := bool_decide (rlast r < rfirst r).

(** deque.dylan:406-423 grow!. *)
Definition grow (r : rep) : outcome rep :=
  let old_size := (rlast r - rfirst r) + 1 in
  let new := replicate (Z.to_nat (old_size * 2)) ff in
  let nf := Z.quot old_size 2 in
  do new' <- copy_loop (rslots r) new (rfirst r) nf (upto (rfirst r) (rlast r));
  (* finally: dst-index has been incremented once per iteration *)
  Val (Rep nf (nf + Z.of_nat (upto (rfirst r) (rlast r)) - 1) new').

(** deque.dylan:426-449 make-room-at-first!. *)
Definition make_room_at_first (r0 : rep) : outcome rep :=
  do r <- (if bool_decide (rep_size r0 = deque_size r0) then grow r0 else Val r0);
  let m1 := rep_size r - 1 in
  let delta := m1 - (rlast r - rfirst r) in
  if bool_decide (rlast r = m1 \/ delta < 0) then Val r
  else
    do s <- move_down_loop (rslots r) ((m1 - delta) + rfirst r) m1 (upto delta m1);
    Val (Rep delta m1 s).

(** deque.dylan:452-471 make-room-at-last!. *)
Definition make_room_at_last (r0 : rep) : outcome rep :=
  do r <- (if bool_decide (rep_size r0 = deque_size r0) then grow r0 else Val r0);
  let new_last := rlast r - rfirst r in
  if bool_decide (rfirst r = 0 \/ new_last < -1) then Val r
  else
    do s <- move_up_loop (rslots r) (rfirst r) 0 (upto 0 new_last);
    Val (Rep 0 new_last s).

(** deque.dylan:478-491 push.  The [while] gets fuel 2; needing more is [NoFuel]. *)
Fixpoint push_loop (fuel : nat) (r : rep) : outcome rep :=
  match fuel with
  | O => NoFuel
  | S fuel' =>
      if bool_decide (rfirst r = 0) then
        do r' <- make_room_at_first r; push_loop fuel' r'
      else Val r
  end.

Definition push (r : rep) (x : A) : outcome (rep * resp) :=
  if ok x then
    do r' <- push_loop 2 r;
    let f := rfirst r' - 1 in
    do s <- zwrite (rslots r') f x;
    Val (Rep f (rlast r') s, RVal x)
  else Val (r, RErr "type-error"%string).

(** deque.dylan:498-512 pop. *)
Definition pop (r : rep) : outcome (rep * resp) :=
  if bool_decide (rlast r < rfirst r) then Val (r, RErr "empty-collection-error"%string)
  else
    do x <- zread (rslots r) (rfirst r);
    do s <- zwrite (rslots r) (rfirst r) ff;
    Val (Rep (rfirst r + 1) (rlast r) s, RVal x).

(** deque.dylan:519-533 trusted-push-last. *)
Fixpoint push_last_loop (fuel : nat) (r : rep) : outcome rep :=
  match fuel with
  | O => NoFuel
  | S fuel' =>
      if bool_decide (rlast r = rep_size r - 1) then
        do r' <- make_room_at_last r; push_last_loop fuel' r'
      else Val r
  end.

Definition trusted_push_last (r : rep) (x : A) : outcome rep :=
  do r' <- push_last_loop 2 r;
  let l := rlast r' + 1 in
  do s <- zwrite (rslots r') l x;
  Val (Rep (rfirst r') l s).

(** deque.dylan:535-539 push-last. *)
Definition push_last (r : rep) (x : A) : outcome (rep * resp) :=
  if ok x then do r' <- trusted_push_last r x; Val (r', RVal x)
  else Val (r, RErr "type-error"%string).

(** deque.dylan:546-560 pop-last. *)
Definition pop_last (r : rep) : outcome (rep * resp) :=
  if bool_decide (rlast r < rfirst r) then Val (r, RErr "empty-collection-error"%string)
  else
    do x <- zread (rslots r) (rlast r);
    do s <- zwrite (rslots r) (rlast r) ff;
    Val (Rep (rfirst r) (rlast r - 1) s, RVal x).

(** deque.dylan:227-243 trusted-size-setter.  A pop-last that signalled would end the
    loop; it is modelled as a signal. *)
Fixpoint pop_last_n (r : rep) (n : nat) : outcome rep :=
  match n with
  | O => Val r
  | S n' =>
      do ' (r', e) <- pop_last r;
      match e with
      | RErr m => Signal m
      | _ => pop_last_n r' n'
      end
  end.

Fixpoint push_last_n (r : rep) (x : A) (n : nat) : outcome rep :=
  match n with
  | O => Val r
  | S n' => do r' <- trusted_push_last r x; push_last_n r' x n'
  end.

Definition trusted_size_setter (new_size : Z) (r : rep) : outcome rep :=
  let difference := new_size - deque_size r in
  if bool_decide (difference < 0) then pop_last_n r (Z.to_nat (- difference))
  else if bool_decide (difference > 0) then push_last_n r ff (Z.to_nat difference)
  else Val r.

(** deque.dylan:245-255 size-setter. *)
Definition size_setter (new_size : Z) (r : rep) : outcome (rep * resp) :=
  if bool_decide (new_size < 0) then Val (r, RErr "natural-number-error"%string)
  else if negb (bool_decide (new_size <= deque_size r)) && negb (ok ff)
  then Val (r, RErr "type-error"%string)
  else do r' <- trusted_size_setter new_size r; Val (r', RInt new_size).

(** deque.dylan:272-294 element; [d] = None stands for default: not supplied. *)
Definition element (r : rep) (index : Z) (d : option A) : outcome (rep * resp) :=
  let m1 := rlast r - rfirst r in
  if bool_decide (index < 0 \/ index > m1) then
    match d with
    | None => Val (r, RErr "element-range-error"%string)
    | Some x => if ok x then Val (r, RVal x) else Val (r, RErr "type-error"%string)
    end
  else
    do x <- zread (rslots r) (index + rfirst r);
    Val (r, RVal x).

(** deque.dylan:313-337 element-setter; "collection[index] := new-value // Let's try
    again" is the recursive call, with fuel. *)
Fixpoint element_setter (fuel : nat) (x : A) (r : rep) (index : Z) : outcome (rep * resp) :=
  match fuel with
  | O => NoFuel
  | S fuel' =>
      if ok x then
        let m1 := rlast r - rfirst r in
        if bool_decide (index < 0) then Val (r, RErr "element-range-error"%string)
        else if bool_decide (index > m1) then
          if bool_decide (deque_size r = index) then
            do r' <- trusted_size_setter (index + 1) r;
            element_setter fuel' x r' index
          else
            do ' (r', e) <- size_setter (index + 1) r;
            match e with
            | RErr m => Val (r', RErr m)
            | _ => element_setter fuel' x r' index
            end
        else
          do s <- zwrite (rslots r) (index + rfirst r) x;
          Val (Rep (rfirst r) (rlast r) s, RVal x)
      else Val (r, RErr "type-error"%string)
  end.

(** deque.dylan:356-382 remove!, the loop [grovel]; [n] = iterations left, i.e.
    rep-last-index + 1 - src-index.  The result is the slots and the final dst-index. *)
Fixpoint grovel (p : A -> bool) (s : list A) (count src dst : Z) (n : nat)
  : outcome (list A * Z) :=
  match n with
  | O => Val (s, dst)
  | S n' =>
      do item <- zread s src;
      if bool_decide (count > 0) && p item then grovel p s (count - 1) (src + 1) dst n'
      else
        do s' <- zwrite s dst item;
        grovel p s' count (src + 1) (dst + 1) n'
  end.

(** [p item] is test(item, target); [count] = None stands for count: not supplied. *)
Definition remove_bang (p : A -> bool) (count : option Z) (r : rep) : outcome (rep * resp) :=
  let count := match count with None => deque_size r | Some c => c end in
  do ' (s, dst) <- grovel p (rslots r) count (rfirst r) (rfirst r) (upto (rfirst r) (rlast r));
  do s' <- fill_loop s dst ff (Z.to_nat (Z.max (rlast r + 1) (rfirst r) - dst));
  Val (Rep (rfirst r) (dst - 1) s', RUnit).

(** deque.dylan:389-401 reverse!; [n] = iterations left. *)
Fixpoint swap_loop (s : list A) (i j : Z) (n : nat) : outcome (list A) :=
  match n with
  | O => Val s
  | S n' =>
      do tmp <- zread s i;
      do y <- zread s j;
      do s1 <- zwrite s i y;
      do s2 <- zwrite s1 j tmp;
      swap_loop s2 (i + 1) (j - 1) n'
  end.

Definition ceiling_div2 (x : Z) : Z := - ((- x) / 2).

Definition reverse_bang (r : rep) : outcome (rep * resp) :=
  let stopping := ceiling_div2 (rfirst r + rlast r) in
  do s <- swap_loop (rslots r) (rfirst r) (rlast r) (Z.to_nat (stopping - rfirst r));
  Val (Rep (rfirst r) (rlast r) s, RUnit).

(** deque.dylan:570-601 forward-iteration-protocol: the state runs from first-index to
    the limit last-index + 1 (sequence.dylan:744-758); the key is state - first-index.
    [n] bounds the number of steps; a run that does not meet the limit is [NoFuel]. *)
Fixpoint forward_iter (r : rep) (state limit : Z) (n : nat) : outcome (list (Z * A)) :=
  if bool_decide (state = limit) then Val []
  else
    match n with
    | O => NoFuel
    | S n' =>
        do x <- zread (rslots r) state;
        do l <- forward_iter r (state + 1) limit n';
        Val ((state - rfirst r, x) :: l)
    end.

Definition iterate_forward (r : rep) : outcome (list (Z * A)) :=
  forward_iter r (rfirst r) (rlast r + 1) (length (rslots r)).

(** deque.dylan:603-617 backward-iteration-protocol: the state runs from last-index + 1
    down to the limit first-index; current-key is the state itself
    (sequence-current-key). *)
Fixpoint backward_iter (r : rep) (state limit : Z) (n : nat) : outcome (list (Z * A)) :=
  if bool_decide (state = limit) then Val []
  else
    match n with
    | O => NoFuel
    | S n' =>
        do x <- zread (rslots r) state;
        do l <- backward_iter r (state - 1) limit n';
        Val ((state, x) :: l)
    end.

Definition iterate_backward (r : rep) : outcome (list (Z * A)) :=
  backward_iter r (rlast r + 1) (rfirst r) (length (rslots r)).

(** deque.dylan:624-643 copy-sequence without start:/end:. *)
Definition copy_sequence (r : rep) : outcome rep :=
  let size := (rlast r - rfirst r) + 1 in
  do t <- make_deque size None;
  do s <- copy_loop (rslots r) (rslots t) (rfirst r) (rfirst t)
            (Nat.min (upto (rfirst r) (rlast r)) (upto (rfirst t) (rlast t)));
  Val (Rep (rfirst t) (rlast t) s).

(** deque.dylan:669-677 as(<list>, deque): pairs are consed from the last index down;
    [n] = iterations left. *)
Fixpoint as_list_loop (r : rep) (index : Z) (result : list A) (n : nat) : outcome (list A) :=
  match n with
  | O => Val result
  | S n' =>
      do x <- zread (rslots r) index;
      as_list_loop r (index - 1) (x :: result) n'
  end.

Definition as_list (r : rep) : outcome (list A) :=
  as_list_loop r (rlast r) [] (upto (rfirst r) (rlast r)).

(** The operations of a history. *)
Inductive op :=
| Push (x : A)
| PushLast (x : A)
| Pop
| PopLast
| Element (i : Z) (default : option A)
| SetElement (i : Z) (x : A)
| Size
| SetSize (n : Z)
| IsEmpty
| RemoveBang (p : A -> bool) (count : option Z)
| ReverseBang
| Iterate          (* the key/element pairs seen by forward iteration *)
| AsList           (* as(<list>, deque) *)
| CopyThen (o : op). (* [o] applied to copy-sequence(deque), the copy being dropped *)

Fixpoint step (o : op) (r : rep) : outcome (rep * resp) :=
  match o with
  | Push x => push r x
  | PushLast x => push_last r x
  | Pop => pop r
  | PopLast => pop_last r
  | Element i d => element r i d
  | SetElement i x => element_setter 2 x r i
  | Size => Val (r, RInt (deque_size r))
  | SetSize n => size_setter n r
  | IsEmpty => Val (r, RBool (deque_empty r))
  | RemoveBang p c => remove_bang p c r
  | ReverseBang => reverse_bang r
  | Iterate => do l <- iterate_forward r; Val (r, RPairs l)
  | AsList => do l <- as_list r; Val (r, RList l)
  | CopyThen o' =>
      do c <- copy_sequence r;
      do ' (_, e) <- step o' c;
      Val (r, e)
  end.

Fixpoint run (ops : list op) (r : rep) : outcome (rep * list resp) :=
  match ops with
  | [] => Val (r, [])
  | o :: rest =>
      do ' (r', e) <- step o r;
      do ' (r'', es) <- run rest r';
      Val (r'', e :: es)
  end.

(** make(<deque>, size: n, fill: x) followed by a history. *)
Definition run_from_make (n : Z) (fill : option A) (ops : list op)
  : outcome (rep * list resp) :=
  do r <- make_deque n fill; run ops r.

End deque.
Global Arguments rep A : clear implicits.
Global Arguments resp A : clear implicits.
Global Arguments op A : clear implicits.
