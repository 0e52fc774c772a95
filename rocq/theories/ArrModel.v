(** Model of multidimensional arrays, sources/dylan/array.dylan and sources/dylan/multidimensional-array.dylan
    (<simple-object-array>), and of the vectors that make(<array>) returns.  Memory cannot run out here. *)
From Verif Require Import Base IntModel NumStrModel.
From Coq Require Import ZArith.
Local Open Scope outcome_scope.
Local Open Scope Z_scope.


(** An object of class <array>: a <simple-object-vector> ([vec] = true; its dimensions are computed from its size,
    vector.dylan:123-125) or a <simple-object-array> with the slots dimensions and row-major-object-array-element
    (multidimensional-array.dylan:24-34). *)
Record array (A : Type) := Arr { vec : bool ; slot_dimensions : list Z ; elts : list A }.
Global Arguments Arr {A}. Global Arguments vec {A}. Global Arguments slot_dimensions {A}. Global Arguments elts {A}.

Section arrays.
Context {A : Type}.

(** The size slot of the repeated slot *)
Definition size (a : array A) : Z := Z.of_nat (length (elts a)).

(** dimensions, vector.dylan:123-125, or the slot *)
Definition dimensions (a : array A) : list Z := if vec a then [size a] else slot_dimensions a.

(** rank, array.dylan:51-53 *)
Definition rank (a : array A) : Z := Z.of_nat (length (dimensions a)).

(** dimension, array.dylan:145-148: element on the sequence of dimensions *)
Definition dimension (a : array A) (axis : Z) : outcome Z :=
  if axis <? 0 then Signal "element-range-error"%string
  else match dimensions a !! Z.to_nat axis with Some d => Val d | None => Signal "element-range-error"%string end.

(** element-range-check, sources/dylan/sequence.dylan:725-734: an unsigned comparison of the machine words *)
Definition element_range_check (index below : Z) : bool := index mod 2 ^ 64 <? below mod 2 ^ 64.

(** reduce with \* from an initial value, compute-size-from-dimensions, multidimensional-array.dylan:94-103 *)
Fixpoint product (acc : Z) (dims : list Z) : outcome Z :=
  match dims with [] => Val acc | d :: dims => do acc <- int_result (acc * d) ; product acc dims end.
Definition compute_size_from_dimensions (dims : list Z) : outcome Z :=
  match dims with [] => Val 0 | _ => product 1 dims end.

(** The allocation of the repeated slot does not check its size (sources/dylan/class.dylan:440-456). *)
Definition allocate (size : Z) (fill : A) : outcome (list A) :=
  if size <? 0 then UB else Val (replicate (Z.to_nat size) fill).

(** make(<simple-object-array>), multidimensional-array.dylan:105-116 and 139-147 *)
Definition make_simple_object_array (dims : list Z) (fill : A) : outcome (array A) :=
  do n <- compute_size_from_dimensions dims ; do v <- allocate n fill ; Val (Arr false dims v).

(** make(<simple-object-vector>), vector.dylan:749-761 *)
Definition make_vector (n : Z) (fill : A) : outcome (array A) := do v <- allocate n fill ; Val (Arr true [] v).

(** make(<array>), array.dylan:161-179 *)
Definition make_array (dims : option (list Z)) (sz : option Z) (fill : A) : outcome (array A) :=
  match sz, dims with
  | Some sz, Some dims =>
      match dims with
      | [d] => if d =? sz then make_vector sz fill else Signal "Dimensions incompatible to size in call to make(<array>)"%string
      | _ => Signal "Dimensions incompatible to size in call to make(<array>)"%string
      end
  | Some sz, None => make_vector sz fill
  | None, None => Signal "No dimensions in call to make(<array>)"%string
  | None, Some [d] => make_vector d fill
  | None, Some dims => make_simple_object_array dims fill
  end.

(** general-row-major-index, array.dylan:72-84: the two sequences are walked in parallel, up to the end of the
    shorter one *)
Fixpoint general_row_major_index (sum : Z) (dims subscripts : list Z) : outcome Z :=
  match dims, subscripts with
  | dimension :: dims, index :: subscripts =>
      if element_range_check index dimension then
        do p <- int_result (sum * dimension) ;
        do sum <- int_result (p + index) ;
        general_row_major_index sum dims subscripts
      else Signal "element-range-error"%string
  | _, _ => Val sum
  end.

(** two-row-major-index, array.dylan:86-100 *)
Definition two_row_major_index (dims subscripts : list Z) : outcome Z :=
  do dim_0 <- vread dims 0 ;
  do idx_0 <- vread subscripts 0 ;
  do dim_1 <- vread dims 1 ;
  do idx_1 <- vread subscripts 1 ;
  if element_range_check idx_0 dim_0 && element_range_check idx_1 dim_1 then
    do p <- int_result (idx_0 * dim_1) ; int_result (p + idx_1)
  else Signal "element-range-error"%string.

(** row-major-index of an <array> that is not a vector, array.dylan:102-114 *)
Definition row_major_index (a : array A) (subscripts : list Z) : outcome Z :=
  let n_subscripts := Z.of_nat (length subscripts) in
  if rank a =? n_subscripts then
    if n_subscripts =? 2 then two_row_major_index (dimensions a) subscripts
    else general_row_major_index 0 (dimensions a) subscripts
  else Signal "Number of subscripts not equal to rank of array"%string.

(** element, multidimensional-array.dylan:45-58 (vector.dylan:717-728 for vectors); [default] if supplied *)
Definition element (a : array A) (index : Z) (default : option A) : outcome A :=
  if element_range_check index (size a) then zread (elts a) index
  else match default with Some d => Val d | None => Signal "element-range-error"%string end.

Definition with_elts (a : array A) (v : list A) : array A := Arr (vec a) (slot_dimensions a) v.

(** element-setter, multidimensional-array.dylan:128-137 *)
Definition element_setter (new : A) (a : array A) (index : Z) : outcome (array A) :=
  if (0 <=? index) && (index <? size a) then do v <- zwrite (elts a) index new ; Val (with_elts a v)
  else Signal "element-range-error"%string.

(** aref, array.dylan:120-125, and on vectors, vector.dylan:227-236 *)
Definition aref (a : array A) (indices : list Z) : outcome A :=
  if vec a then
    match indices with
    | [i] => element a i None
    | _ => Signal "Invalid number of indices"%string
    end
  else do i <- row_major_index a indices ; zread (elts a) i.

(** aref-setter, array.dylan:132-138, and on vectors, vector.dylan:243-253 *)
Definition aref_setter (new : A) (a : array A) (indices : list Z) : outcome (array A) :=
  if vec a then
    match indices with
    | [i] => element_setter new a i
    | _ => Signal "Invalid number of indices"%string
    end
  else do i <- row_major_index a indices ; do v <- zwrite (elts a) i new ; Val (with_elts a v).

(** check-start-compute-end, sources/dylan/sequence.dylan:498-511 *)
Definition check_start_compute_end (size start : Z) (last : option Z) : outcome Z :=
  let last := match last with None => size | Some last => last end in
  if start <? 0 then Signal "Invalid start"%string
  else if size <? last then Signal "Invalid end"%string
  else if last <? start then Signal "Invalid bounds"%string
  else Val last.

(** The loop of fill!, multidimensional-array.dylan:80-84: [k] turns from index on, without bounds checks *)
Fixpoint fill_loop (k : nat) (index : Z) (v : list A) (value : A) : outcome (list A) :=
  match k with
  | O => Val v
  | S k => do v <- zwrite v index value ; fill_loop k (index + 1) v value
  end.

(** fill!, multidimensional-array.dylan:74-86 (on vectors the same, vector.dylan) *)
Definition fill (a : array A) (value : A) (start : Z) (last : option Z) : outcome (array A) :=
  do last <- check_start_compute_end (size a) start last ;
  do v <- fill_loop (Z.to_nat (last - start)) start (elts a) value ;
  Val (with_elts a v).

(** The loop of shallow-copy, array.dylan:194-196 *)
Fixpoint copy_loop (k : nat) (key : Z) (new_array a : array A) : outcome (array A) :=
  match k with
  | O => Val new_array
  | S k =>
      do x <- element a key None ;
      do new_array <- element_setter x new_array key ;
      copy_loop k (key + 1) new_array a
  end.

(** shallow-copy, array.dylan:185-199.  In the branch for size 0 the variable `dimensions' is the generic function of
    this name, not the dimensions of the array: make(<array>) asks for its size, to which no method applies.
    (A vector is copied by copy-sequence instead, vector.dylan:84-86: not modelled here.) *)
Definition shallow_copy (a : array A) : outcome (array A) :=
  let n := size a in
  if n =? 0 then Signal "no applicable method: size of a generic function"%string
  else
    do x <- element a 0 None ;
    do new_array <- make_array (Some (dimensions a)) None x ;
    copy_loop (Z.to_nat n) 0 new_array a.

(** empty?, multidimensional-array.dylan:14-16 *)
Definition is_empty (a : array A) : bool := size a =? 0.

(** A program working on one array: a call that signals leaves the array alone. *)
Inductive op := OAref (subscripts : list Z) (new : A) | OElement (index : Z) (new : A) | OFill (value : A) (start : Z) (last : option Z).
Definition run_op (o : op) (a : array A) : outcome (array A) :=
  match o with
  | OAref s x => aref_setter x a s
  | OElement i x => element_setter x a i
  | OFill x s e => fill a x s e
  end.
Fixpoint run (ops : list op) (a : array A) : outcome (array A) :=
  match ops with
  | [] => Val a
  | o :: ops =>
      match run_op o a with
      | Val a => run ops a
      | Signal _ => run ops a
      | UB => UB
      | NoFuel => NoFuel
      end
  end.
End arrays.
Global Arguments op : clear implicits.
