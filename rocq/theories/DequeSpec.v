(** Specification of the deque operations on mathematical sequences. *)
From Verif Require Import Base DequeModel.
Local Open Scope Z_scope.

Section spec.
Context {A : Type} (ff : A) (ok : A -> bool).

(** Remove the first [c] elements satisfying [p]. *)
Fixpoint remove_first (p : A -> bool) (c : nat) (l : list A) : list A :=
  match l with
  | [] => []
  | x :: r =>
      match c with
      | O => x :: r
      | S c' => if p x then remove_first p c' r else x :: remove_first p c r
      end
  end.

(** All elements that do not satisfy [p]. *)
Definition remove_all (p : A -> bool) (l : list A) : list A :=
  List.filter (fun x => negb (p x)) l.

(** Grow or shrink to [n] elements, new ones being #f. *)
Definition resized (n : nat) (l : list A) : list A :=
  take n l ++ replicate (n - length l) ff.

(** The elements paired with their keys 0, 1, 2, ... *)
Fixpoint numbered (k : Z) (l : list A) : list (Z * A) :=
  match l with [] => [] | x :: r => (k, x) :: numbered (k + 1) r end.

Definition err (m : string) (l : list A) : list A * resp A := (l, RErr m).

Fixpoint spec_step (o : op A) (l : list A) : list A * resp A :=
  let n := Z.of_nat (length l) in
  match o with
  | Push x => if ok x then (x :: l, RVal x) else err "type-error" l
  | PushLast x => if ok x then (l ++ [x], RVal x) else err "type-error" l
  | Pop => match l with [] => err "empty-collection-error" l | x :: r => (r, RVal x) end
  | PopLast =>
      match last l with
      | None => err "empty-collection-error" l
      | Some x => (take (length l - 1)%nat l, RVal x)
      end
  | Element i d =>
      if bool_decide (0 <= i < n) then
        match l !! Z.to_nat i with Some x => (l, RVal x) | None => (l, RUnit) end
      else
        match d with
        | None => err "element-range-error" l
        | Some x => if ok x then (l, RVal x) else err "type-error" l
        end
  | SetElement i x =>
      if negb (ok x) then err "type-error" l
      else if bool_decide (i < 0) then err "element-range-error" l
      else if bool_decide (i < n) then (<[Z.to_nat i := x]> l, RVal x)
      else if bool_decide (i = n) then (l ++ [x], RVal x)
      else if ok ff then (l ++ replicate (Z.to_nat i - length l) ff ++ [x], RVal x)
      else err "type-error" l
  | Size => (l, RInt n)
  | SetSize m =>
      if bool_decide (m < 0) then err "natural-number-error" l
      else if bool_decide (n < m) && negb (ok ff) then err "type-error" l
      else (resized (Z.to_nat m) l, RInt m)
  | IsEmpty => (l, RBool (bool_decide (l = [])))
  | RemoveBang p None => (remove_all p l, RUnit)
  | RemoveBang p (Some c) => (remove_first p (Z.to_nat c) l, RUnit)
  | ReverseBang => (reverse l, RUnit)
  | Iterate => (l, RPairs (numbered 0 l))
  | AsList => (l, RList l)
  | CopyThen o' => (l, snd (spec_step o' l))
  end.

Fixpoint spec_run (ops : list (op A)) (l : list A) : list A * list (resp A) :=
  match ops with
  | [] => (l, [])
  | o :: rest =>
      let '(l', e) := spec_step o l in
      let '(l'', es) := spec_run rest l' in
      (l'', e :: es)
  end.

(** The sequence make(<deque>, size: n, fill: x) denotes. *)
Definition spec_make (n : Z) (fill : option A) : list A :=
  replicate (Z.to_nat n) (default ff fill).

End spec.
