(** Specification of the stretchy vector operations on mathematical sequences. *)
From Verif Require Import Base DequeModel DequeSpec StretchyModel.
Local Open Scope Z_scope.

Section spec.
Context {A : Type} (ff : A) (ok : A -> bool).

Definition sspec_step (o : sop A) (l : list A) : list A * resp A :=
  let n := Z.of_nat (length l) in
  match o with
  | SAdd x => if ok x then (l ++ [x], RUnit) else err "type-error" l
  | SElement i d =>
      if bool_decide (0 <= i < n) then
        match l !! Z.to_nat i with Some x => (l, RVal x) | None => (l, RUnit) end
      else
        match d with
        | None => err "element-range-error" l
        | Some x => if ok x then (l, RVal x) else err "type-error" l
        end
  | SSetElement i x =>
      if negb (ok x) then err "type-error" l
      else if bool_decide (i < 0) then err "element-range-error" l
      else if bool_decide (i < n) then (<[Z.to_nat i := x]> l, RVal x)
      else if bool_decide (i = n) then (l ++ [x], RVal x)
      else if ok ff then (l ++ replicate (Z.to_nat i - length l) ff ++ [x], RVal x)
      else err "type-error" l
  | SSize => (l, RInt n)
  | SSetSize m =>
      if bool_decide (m < 0) then err "natural-number-error" l
      else if bool_decide (n < m) && negb (ok ff) then err "type-error" l
      else (resized ff (Z.to_nat m) l, RInt m)
  | SIsEmpty => (l, RBool (bool_decide (l = [])))
  | SRemove p None => (remove_all p l, RUnit)
  | SRemove p (Some c) => (remove_first p (Z.to_nat c) l, RUnit)
  | SIterate => (l, RPairs (numbered 0 l))
  | SIterateBack => (l, RPairs (reverse (numbered 0 l)))
  end.

Fixpoint sspec_run (ops : list (sop A)) (l : list A) : list A * list (resp A) :=
  match ops with
  | [] => (l, [])
  | o :: rest =>
      let '(l', e) := sspec_step o l in
      let '(l'', es) := sspec_run rest l' in
      (l'', e :: es)
  end.

(** The history does not call add! with an object of the wrong type. *)
Definition adds_well_typed (o : sop A) : Prop :=
  match o with SAdd x => ok x = true | _ => True end.

End spec.
