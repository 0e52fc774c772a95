(** Model of sources/dylan/range.dylan for ranges of integers.  Simplification: the numbers are
    mathematical integers; the overflow of <integer> (modelled in IntModel.v) and ranges of
    other numbers are left out.  A mutable range is modelled by its value: a destructive
    function returns the new contents. *)
From Verif Require Import Base.
Local Open Scope Z_scope.
Local Open Scope outcome_scope.

(** range.dylan:24-43: <empty-range>, <constant-range>, <finite-range>, <infinite-range>. *)
Inductive range : Type :=
| REmpty
| RConst (from : Z) (size : option Z)
| RFinite (from by_ size : Z)
| RInfinite (from by_ : Z).

(** A sequence returned by add!, remove!: a range or a list. *)
Inductive range_or_list : Type := IsRange (r : range) | IsList (l : list Z).

(** 24-27 range-from, range-by; the empty range has from 0 by 0 (line 54). *)
Definition range_from (r : range) : Z :=
  match r with REmpty => 0 | RConst f _ => f | RFinite f _ _ => f | RInfinite f _ => f end.
Definition range_by (r : range) : Z :=
  match r with REmpty => 0 | RConst _ _ => 0 | RFinite _ b _ => b | RInfinite _ b => b end.

(** number.dylan / integer.dylan floor/, truncate/ and remainder (IntModel.v, C13). *)
Definition floor_div (x d : Z) : Z := x / d.
Definition truncate_div (x d : Z) : Z := Z.quot x d.
Definition trunc_rem (x d : Z) : Z := Z.rem x d.

(** integer.dylan:397-440 gcd and lcm (IntModel.v, C15) without overflow. *)
Definition dylan_gcd (n m : Z) : Z :=
  if bool_decide (n = 0) then m
  else if bool_decide (m = 0) then n
  else if bool_decide (n = m) then n
  else Z.gcd n m.
Definition dylan_lcm (n m : Z) : Z := truncate_div (Z.max n m) (dylan_gcd n m) * Z.min n m.

(** 65-116 make. *)
Definition make_range (from by_ : Z) (to below above size : option Z) : outcome range :=
  if bool_decide (by_ = 0) then
    if (match above with None => true | Some a => bool_decide (from > a) end)
       && (match below with None => true | Some b => bool_decide (from < b) end)
    then Val (RConst from size)
    else Val REmpty
  else
    let to' :=
      if bool_decide (by_ > 0) then
        match below with
        | None => to
        | Some b =>
            if (match to with None => true | Some t => bool_decide (t < b - by_) end)
            then Some (b - by_) else to
        end
      else
        match above with
        | None => to
        | Some a =>
            if (match to with None => true | Some t => bool_decide (t > a - by_) end)
            then Some (a - by_) else to
        end in
    match to', size with
    | None, None => Val (RInfinite from by_)
    | _, _ =>
        do size <-
          match size, to' with
          | Some s, Some t =>
              if bool_decide (s <> floor_div (t + by_ - from) by_)
              then Signal "range-size-mismatch-error"%string else Val s
          | Some s, None => Val s
          | None, Some t => Val (floor_div (t + by_ - from) by_)
          | None, None => Val 0 (* not reached *)
          end;
        if bool_decide (size = 0) then Val REmpty else Val (RFinite from by_ size)
    end.

(** 141-160 empty?, size. *)
Definition empty_p (r : range) : bool := match r with REmpty => true | _ => false end.
Definition size_of (r : range) : option Z :=
  match r with
  | REmpty => Some 0
  | RConst _ s => s
  | RFinite _ _ s => Some s
  | RInfinite _ _ => None
  end.

(** 163-205 element; [None] stands for the default or the element-range-error. *)
Definition element (r : range) (key : Z) : option Z :=
  match r with
  | REmpty => None
  | RConst f None => Some f
  | RConst f (Some s) => if bool_decide (key < s) then Some f else None
  | RInfinite f b => Some (f + key * b)
  | RFinite f b s => if bool_decide (key >= 0) && bool_decide (key < s) then Some (f + key * b) else None
  end.

(** 208-222 last (the empty range uses the generic method, which signals). *)
Definition last (r : range) : outcome Z :=
  match r with
  | REmpty => Signal "empty sequence"%string
  | RInfinite _ _ => Signal "infinite-range-error"%string
  | RConst f _ => Val f
  | RFinite f b s => Val (f + b * (s - 1))
  end.

(** 225-257 find-key-for-element. *)
Definition find_key (value : Z) (r : range) : option Z :=
  match r with
  | REmpty => None
  | RConst f _ => if bool_decide (value = f) then Some 0 else None
  | RInfinite f b =>
      let key := truncate_div (value - f) b in
      if bool_decide (trunc_rem (value - f) b = 0) && bool_decide (0 <= key) then Some key else None
  | RFinite f b s =>
      let key := truncate_div (value - f) b in
      if bool_decide (trunc_rem (value - f) b = 0) && bool_decide (0 <= key) && bool_decide (key < s)
      then Some key else None
  end.

(** 296-304 member?, default test. *)
Definition member (value : Z) (r : range) : bool :=
  match find_key value r with Some _ => true | None => false end.

(** 266-293 =. *)
Definition range_equal (r1 r2 : range) : bool :=
  match r1, r2 with
  | REmpty, REmpty => true
  | RConst f1 s1, RConst f2 s2 => bool_decide (f1 = f2) && bool_decide (s1 = s2)
  | RInfinite f1 b1, RInfinite f2 b2 => bool_decide (f1 = f2) && bool_decide (b1 = b2)
  | RFinite f1 b1 s1, RFinite f2 b2 s2 =>
      bool_decide (f1 = f2) && bool_decide (b1 = b2) && bool_decide (s1 = s2)
  | _, _ => false
  end.

(** *** Iteration protocols, 688-880 *)

(** 749-763, 774-788, 800-818, 840-858 forward-iteration-protocol: initial state, next-state, finished-state?,
    current-key, current-element.  For a constant range the state is the key. *)
Definition forward_init (r : range) : Z :=
  match r with RConst _ _ => 0 | _ => range_from r end.
Definition forward_next (r : range) (s : Z) : Z :=
  match r with RConst _ _ => s + 1 | _ => s + range_by r end.
Definition forward_finished (r : range) (s : Z) : bool :=
  match r with
  | REmpty => true
  | RInfinite _ _ => false
  | RConst _ None => false
  | RConst _ (Some n) => bool_decide (s = n)
  | RFinite f b n =>
      let limit := f + b * (n - 1) in
      if bool_decide (b > 0) then bool_decide (s > limit) else bool_decide (s < limit)
  end.
Definition current_key (r : range) (s : Z) : Z :=
  match r with RConst _ _ => s | _ => floor_div (s - range_from r) (range_by r) end.
Definition current_element (r : range) (s : Z) : Z :=
  match r with RConst f _ => f | _ => s end.

(** 765-772, 790-798, 820-838, 860-880 backward-iteration-protocol. *)
Definition backward_init (r : range) : outcome Z :=
  match r with
  | REmpty => Val 0
  | RInfinite _ _ | RConst _ None => Signal "infinite-range-error"%string
  | RConst _ (Some n) => Val (n - 1)
  | RFinite f b n => Val (f + b * (n - 1))
  end.
Definition backward_next (r : range) (s : Z) : Z :=
  match r with RConst _ _ => s - 1 | _ => s - range_by r end.
Definition backward_finished (r : range) (s : Z) : bool :=
  match r with
  | REmpty => true
  | RInfinite _ _ => false
  | RConst _ None => false
  | RConst _ (Some n) => bool_decide (s = -1)
  | RFinite f b n => if bool_decide (b > 0) then bool_decide (s < f) else bool_decide (s > f)
  end.

(** A loop over the range that stops after [n] steps: the keys and elements it sees. *)
Fixpoint forward_take (n : nat) (r : range) (s : Z) : list (Z * Z) :=
  match n with
  | O => []
  | S n =>
      if forward_finished r s then []
      else (current_key r s, current_element r s) :: forward_take n r (forward_next r s)
  end.
Fixpoint backward_take (n : nat) (r : range) (s : Z) : list (Z * Z) :=
  match n with
  | O => []
  | S n =>
      if backward_finished r s then []
      else (current_key r s, current_element r s) :: backward_take n r (backward_next r s)
  end.

(** The number of steps after which a loop over a finite range has ended. *)
Definition range_fuel (r : range) : nat :=
  match size_of r with Some n => Z.to_nat n | None => O end.

(** 131-138 shallow-copy: backward iteration, pushing on a list. *)
Definition shallow_copy (r : range) : outcome (list Z) :=
  do s <- backward_init r;
  Val (rev (map snd (backward_take (range_fuel r) r s))).

(** 319-373 add!.  add! on a list is pair(elt, list) (list.dylan). *)
Definition add_bang (r : range) (elt : Z) : outcome range_or_list :=
  match r with
  | REmpty => do r <- make_range elt 1 None None None (Some 1); Val (IsRange r)
  | RInfinite f b =>
      if bool_decide (elt <> f - b) then Signal "incompatible-range-error"%string
      else Val (IsRange (RInfinite (f - b) b))
  | RConst f s =>
      if bool_decide (elt = f) then
        Val (IsRange (RConst f (match s with Some n => Some (n + 1) | None => None end)))
      else if bool_decide (s = Some 1) then
        do r <- make_range f (elt - f) None None None (Some 2); Val (IsRange r)
      else do l <- shallow_copy r; Val (IsList (elt :: l))
  | RFinite f b n =>
      if bool_decide (elt = f + b * (n - 1) + b) then Val (IsRange (RFinite f b (n + 1)))
      else if bool_decide (elt = f - b) then Val (IsRange (RFinite (f - b) b (n + 1)))
      else if bool_decide (n = 1) then
        if bool_decide (elt = f) then
          do r <- make_range elt 0 None None None (Some 2); Val (IsRange r)
        else Val (IsRange (RFinite f (elt - f) (n + 1)))
      else do l <- shallow_copy r; Val (IsList (elt :: l))
  end.

(** remove! on a list with the default test: up to [count] occurrences from the front. *)
Fixpoint list_remove (l : list Z) (elt : Z) (count : nat) : list Z :=
  match l, count with
  | [], _ => []
  | _, O => l
  | x :: l, S c => if bool_decide (x = elt) then list_remove l elt c else x :: list_remove l elt (S c)
  end.

(** 386-454 remove!; [count] is the keyword argument, the test is the default. *)
Definition remove_bang (r : range) (elt : Z) (count : option Z) : outcome range_or_list :=
  let go := match count with None => true | Some c => bool_decide (c > 0) end in
  let as_list :=
    do l <- shallow_copy r;
    Val (IsList (list_remove l elt (match count with None => length l | Some c => Z.to_nat c end))) in
  match r with
  | REmpty => Val (IsRange r)
  | RInfinite f b =>
      if bool_decide (elt <> f) then Signal "incompatible-range-error"%string
      else Val (IsRange (if go then RInfinite (f + b) b else r))
  | RConst f s =>
      if go then
        if bool_decide (elt = f) then
          Val (IsRange (RConst f (match s with Some n => Some (n - 1) | None => None end)))
        else if bool_decide (s = Some 1) then Val (IsRange REmpty)
        else if member elt r then as_list else Val (IsRange r)
      else Val (IsRange r)
  | RFinite f b n =>
      if go then
        if bool_decide (n = 1) && bool_decide (elt = f) then Val (IsRange REmpty)
        else if bool_decide (elt = f + b * (n - 1)) then Val (IsRange (RFinite f b (n - 1)))
        else if bool_decide (elt = f) then Val (IsRange (RFinite (f + b) b (n - 1)))
        else if (match count with Some c => bool_decide (c > 0) | None => false end) && member elt r
        then as_list
        else Val (IsRange r)
      else Val (IsRange r)
  end.

(** 457-476 copy-sequence. *)
Definition copy_sequence (r : range) (start : Z) (endp : option Z) : outcome range :=
  match r with
  | REmpty => Val REmpty
  | _ =>
      match element r start with
      | None => Signal "element-range-error"%string
      | Some from =>
          match endp with
          | Some e =>
              let new_end :=
                match size_of r with
                | Some n => if bool_decide (e > n) then n else e
                | None => e
                end in
              make_range from (range_by r) None None None (Some (new_end - start))
          | None => make_range from (range_by r) None None None None
          end
      end
  end.

(** 650-682 reverse!, reverse. *)
Definition reverse_bang (r : range) : outcome range :=
  match r with
  | REmpty => Val REmpty
  | RInfinite _ _ | RConst _ None => Signal "infinite-range-error"%string
  | RConst f s => Val (RConst f s)
  | RFinite f b n => Val (RFinite (f + b * (n - 1)) (- b) n)
  end.
Definition reverse (r : range) : outcome range :=
  do c <- copy_sequence r 0 (size_of r); reverse_bang c.

(** *** Intersection, 479-646 *)

(** 533-557 first-intersection: the inner loop ([steps] = by2 iterations). *)
Fixpoint first_loop (steps : nat) (n by1 from2 by2 : Z) : option Z :=
  match steps with
  | O => None
  | S k => if bool_decide (trunc_rem (n - from2) by2 = 0) then Some n
           else first_loop k (n + by1) by1 from2 by2
  end.
(** The part of first-intersection for positive steps; the recursive call only swaps. *)
Definition first_intersection_up (from1 by1 from2 by2 : Z) : option Z :=
  if bool_decide (from1 < from2) then first_loop (Z.to_nat by1) from2 by2 from1 by1
  else first_loop (Z.to_nat by2) from1 by1 from2 by2.
Definition first_intersection (from1 by1 from2 by2 : Z) : option Z :=
  if bool_decide (by1 < 0) then
    match first_intersection_up (- from1) (- by1) (- from2) (- by2) with
    | Some n => Some (- n)
    | None => None
    end
  else first_intersection_up from1 by1 from2 by2.

(** 559-577 ordered-finite-intersection. *)
Definition ordered_finite_intersection (lo1 by1 hi1 lo2 by2 hi2 : Z) : outcome range :=
  if bool_decide (hi1 < lo2) || bool_decide (hi2 < lo1) then Val REmpty
  else
    match first_intersection lo1 by1 lo2 by2 with
    | Some from =>
        if bool_decide (from >= lo1) && bool_decide (from >= lo2) then
          match first_intersection hi1 (- by1) hi2 (- by2) with
          | Some to =>
              if bool_decide (to <= hi1) && bool_decide (to <= hi2) then
                make_range from (dylan_lcm by1 by2) (Some to) None None None
              else Val REmpty
          | None => Val REmpty
          end
        else Val REmpty
    | None => Val REmpty
    end.

(** 579-594 finite-intersection. *)
Definition finite_intersection (from1 by1 to1 from2 by2 to2 : Z) : outcome range :=
  if bool_decide (by1 < 0) then
    if bool_decide (by2 < 0)
    then ordered_finite_intersection to1 (- by1) from1 to2 (- by2) from2
    else ordered_finite_intersection to1 (- by1) from1 from2 by2 to2
  else
    if bool_decide (by2 < 0)
    then ordered_finite_intersection from1 by1 to1 to2 (- by2) from2
    else ordered_finite_intersection from1 by1 to1 from2 by2 to2.

(** 528-531 same-sign?. *)
Definition same_sign (x y : Z) : bool :=
  if bool_decide (x > 0) then bool_decide (y > 0) else bool_decide (y < 0).

(** 596-607 last-of-in, [bound] being in.last or in.range-from. *)
Definition last_of_in (of_from of_by bound : Z) : Z :=
  truncate_div (bound - of_from) of_by * of_by + of_from.

(** 503-510 id?-intersection-with-constant. *)
Definition constant_intersection (value : Z) (r : range) : outcome range :=
  if member value r then make_range value 1 None None None (Some 1) else Val REmpty.

(** 479-646 id?-intersection, called by intersection with the default test. *)
Definition intersection (r1 r2 : range) : outcome range :=
  match r1, r2 with
  | REmpty, _ => Val REmpty
  | _, REmpty => Val REmpty
  | RConst f1 s1, RConst f2 s2 =>
      if bool_decide (f1 = f2) then
        Val (if match s1, s2 with
                | Some n1, Some n2 => bool_decide (n1 < n2)
                | Some _, None => true
                | None, _ => false
                end
             then r1 else r2)
      else Val REmpty
  | RConst f1 _, _ => constant_intersection f1 r2
  | _, RConst f2 _ => constant_intersection f2 r1
  | RFinite f1 b1 n1, RFinite f2 b2 n2 =>
      finite_intersection f1 b1 (f1 + b1 * (n1 - 1)) f2 b2 (f2 + b2 * (n2 - 1))
  | RFinite f1 b1 n1, RInfinite f2 b2 =>
      finite_intersection f1 b1 (f1 + b1 * (n1 - 1)) f2 b2
        (last_of_in f2 b2 (if same_sign b1 b2 then f1 + b1 * (n1 - 1) else f1))
  | RInfinite f1 b1, RFinite f2 b2 n2 =>
      finite_intersection f1 b1
        (last_of_in f1 b1 (if same_sign b2 b1 then f2 + b2 * (n2 - 1) else f2))
        f2 b2 (f2 + b2 * (n2 - 1))
  | RInfinite f1 b1, RInfinite f2 b2 =>
      if same_sign b1 b2 then
        match first_intersection f1 b1 f2 b2 with
        | Some from => make_range from (dylan_lcm b1 b2) None None None None
        | None => Val REmpty
        end
      else
        finite_intersection f1 b1 (last_of_in f1 b1 f2) f2 b2 (last_of_in f2 b2 f1)
  end.
