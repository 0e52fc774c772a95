(** Model of sources/dylan/stretchy-vector.dylan and limited-stretchy-vector.dylan.

    One model covers the macro-generated classes: [ff] is the class' fill value
    (collection-fill), [ok] its element type.  <stretchy-object-vector> is [ok] = always
    true.  The representation accessor stretchy-vector-element is an unchecked access.
    The shared empty representation (capacity 0) is modelled as an empty slot vector; no
    operation changes it.  Integer overflow of sizes is not modelled. *)
From Verif Require Import Base DequeModel.
Local Open Scope Z_scope.
Local Open Scope outcome_scope.

Section stretchy.
Context {A : Type} (ff : A) (ok : A -> bool).

(** stretchy-vector.dylan:122-124 and 279-287: %size and the repeated slot. *)
Record srep := SRep { ssize : Z; sslots : list A }.

Definition capacity (r : srep) : Z := Z.of_nat (length (sslots r)).

(** integer.dylan:446-454 power-of-two-ceiling (search loop on fuel). *)
Fixpoint pot_search (fuel : nat) (p value : Z) : outcome Z :=
  if bool_decide (p >= value) then Val p
  else match fuel with O => NoFuel | S f => pot_search f (p + p) value end.

Definition power_of_two_ceiling (value : Z) : outcome Z :=
  pot_search (Z.to_nat value) 1 value.

(** stretchy-vector.dylan:559-576 stretchy-initialize. *)
Definition make_stretchy (cap size : Z) (fill : A) : outcome srep :=
  if bool_decide (size < 0) then Signal "natural-number-error"%string
  else if bool_decide (cap < 0) then Signal "natural-number-error"%string
  else if bool_decide (cap < size) then Signal "capacity-size-error"%string
  else if bool_decide (cap > 0) then Val (SRep size (replicate (Z.to_nat cap) fill))
  else Val (SRep 0 []).

(** stretchy-vector.dylan:183-212 trusted-size-setter.  The second loop starts at the
    final value of i, which is %size. *)
Definition strusted_size_setter (new_size : Z) (r : srep) : outcome srep :=
  if bool_decide (new_size > capacity r) then
    do cap <- power_of_two_ceiling new_size;
    let nv := replicate (Z.to_nat cap) ff in
    do nv1 <- copy_loop (sslots r) nv 0 0 (Z.to_nat (ssize r));
    do nv2 <- fill_loop nv1 (ssize r) ff (Z.to_nat (new_size - ssize r));
    Val (SRep new_size nv2)
  else if bool_decide (new_size < ssize r) then
    do s <- fill_loop (sslots r) new_size ff (Z.to_nat (ssize r - new_size));
    Val (SRep new_size s)
  else Val (SRep new_size (sslots r)).

(** stretchy-vector.dylan:214-219 size-setter. *)
Definition ssize_setter (new_size : Z) (r : srep) : outcome (srep * resp A) :=
  if bool_decide (new_size < 0) then Val (r, RErr "natural-number-error"%string)
  else do r' <- strusted_size_setter new_size r; Val (r', RInt new_size).

(** stretchy-vector.dylan:167-176 add!: the vector is extended before the type check. *)
Definition add_bang (r : srep) (x : A) : outcome (srep * resp A) :=
  let old_size := ssize r in
  do r' <- strusted_size_setter (old_size + 1) r;
  if ok x then
    do s <- zwrite (sslots r') old_size x;
    Val (SRep (ssize r') s, RUnit)
  else Val (r', RErr "type-error"%string).

(** stretchy-vector.dylan:330-346 element; element-range-check (sequence.dylan:725-733)
    is 0 <= index < below (the unsigned comparison trick is not modelled). *)
Definition selement (r : srep) (index : Z) (d : option A) : outcome (srep * resp A) :=
  if bool_decide (0 <= index < ssize r) then
    do x <- zread (sslots r) index; Val (r, RVal x)
  else
    match d with
    | None => Val (r, RErr "element-range-error"%string)
    | Some x => if ok x then Val (r, RVal x) else Val (r, RErr "type-error"%string)
    end.

(** stretchy-vector.dylan:599-618 and limited-stretchy-vector.dylan:45-62
    element-setter.  In the first the type check is the method's specializer. *)
Definition selement_setter (x : A) (r : srep) (index : Z) : outcome (srep * resp A) :=
  if ok x then
    if bool_decide (index < 0) then Val (r, RErr "element-range-error"%string)
    else
      do ' (r', e) <-
        (if bool_decide (index >= ssize r) then
           if bool_decide (index = ssize r) then
             do r1 <- strusted_size_setter (index + 1) r; Val (r1, RUnit)
           else ssize_setter (index + 1) r
         else Val (r, RUnit));
      match e with
      | RErr m => Val (r', RErr m)
      | _ => do s <- zwrite (sslots r') index x; Val (SRep (ssize r') s, RVal x)
      end
  else Val (r, RErr "type-error"%string).

(** stretchy-vector.dylan:226-255 remove!. *)
Definition sremove_bang (p : A -> bool) (count : option Z) (r : srep)
  : outcome (srep * resp A) :=
  let count := match count with None => ssize r | Some c => c end in
  do ' (s, dst) <- grovel p (sslots r) count 0 0 (Z.to_nat (ssize r));
  do s' <- fill_loop s dst ff (Z.to_nat (ssize r - dst));
  Val (SRep dst s', RUnit).

(** stretchy-vector.dylan:444-459 forward-iteration-protocol; the states are the keys. *)
Fixpoint siter (s : list A) (state limit : Z) (n : nat) : outcome (list (Z * A)) :=
  if bool_decide (state = limit) then Val []
  else
    match n with
    | O => NoFuel
    | S n' =>
        do x <- zread s state;
        do l <- siter s (state + 1) limit n';
        Val ((state, x) :: l)
    end.

Definition siterate (r : srep) : outcome (list (Z * A)) :=
  siter (sslots r) 0 (ssize r) (length (sslots r)).

(** stretchy-vector.dylan:461-479 backward-iteration-protocol. *)
Fixpoint siter_back (s : list A) (state limit : Z) (n : nat) : outcome (list (Z * A)) :=
  if bool_decide (state = limit) then Val []
  else
    match n with
    | O => NoFuel
    | S n' =>
        do x <- zread s state;
        do l <- siter_back s (state - 1) limit n';
        Val ((state, x) :: l)
    end.

Definition siterate_back (r : srep) : outcome (list (Z * A)) :=
  siter_back (sslots r) (ssize r - 1) (-1) (length (sslots r)).

Inductive sop :=
| SAdd (x : A)
| SElement (i : Z) (default : option A)
| SSetElement (i : Z) (x : A)
| SSize
| SSetSize (n : Z)
| SIsEmpty
| SRemove (p : A -> bool) (count : option Z)
| SIterate
| SIterateBack.

Definition sstep (o : sop) (r : srep) : outcome (srep * resp A) :=
  match o with
  | SAdd x => add_bang r x
  | SElement i d => selement r i d
  | SSetElement i x => selement_setter x r i
  | SSize => Val (r, RInt (ssize r))
  | SSetSize n => ssize_setter n r
  | SIsEmpty => Val (r, RBool (bool_decide (ssize r = 0)))
  | SRemove p c => sremove_bang p c r
  | SIterate => do l <- siterate r; Val (r, RPairs l)
  | SIterateBack => do l <- siterate_back r; Val (r, RPairs l)
  end.

Fixpoint srun (ops : list sop) (r : srep) : outcome (srep * list (resp A)) :=
  match ops with
  | [] => Val (r, [])
  | o :: rest =>
      do ' (r', e) <- sstep o r;
      do ' (r'', es) <- srun rest r';
      Val (r'', e :: es)
  end.

Definition srun_from_make (cap size : Z) (fill : A) (ops : list sop)
  : outcome (srep * list (resp A)) :=
  do r <- make_stretchy cap size fill; srun ops r.

(** stretchy-vector.dylan:497-509 as(<stretchy-vector>, collection): add! one by one. *)
Definition as_stretchy (l : list A) : outcome (srep * list (resp A)) :=
  srun_from_make 0 0 ff (map SAdd l).

End stretchy.
Global Arguments srep A : clear implicits.
Global Arguments sop A : clear implicits.
