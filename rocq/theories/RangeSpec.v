(** Specification of ranges: an arithmetic progression that may or may not end. *)
From Verif Require Import Base RangeModel.
Local Open Scope Z_scope.

(** A sequence, finite or infinite: its [k]-th element, if any. *)
Definition seq_of : Type := nat -> option Z.

(** from, from + step, from + 2 step, ...; [count] elements if given. *)
Definition progression (from step : Z) (count : option nat) : seq_of :=
  fun k =>
    match count with
    | Some n => if bool_decide (k < n)%nat then Some (from + Z.of_nat k * step) else None
    | None => Some (from + Z.of_nat k * step)
    end.

(** The finite sequence of a list. *)
Definition seq_list (l : list Z) : seq_of := fun k => l !! k.

Definition in_seq (s : seq_of) (x : Z) : Prop := exists k, s k = Some x.

(** The members up to the [n]-th, with their keys. *)
Fixpoint prefix_from (s : seq_of) (k n : nat) : list (Z * Z) :=
  match n with
  | O => []
  | S n => match s k with
           | Some x => (Z.of_nat k, x) :: prefix_from s (S k) n
           | None => []
           end
  end.
Definition prefix_with_keys (s : seq_of) (n : nat) : list (Z * Z) := prefix_from s 0 n.

(** The terms a call of range is meant to produce: the longest prefix of the progression whose
    terms respect every bound given. *)
Definition respects (step : Z) (to below above : option Z) (x : Z) : Prop :=
  (forall t, to = Some t -> if bool_decide (step > 0) then x <= t else x >= t) /\
  (forall b, below = Some b -> x < b) /\
  (forall a, above = Some a -> x > a).
Definition requested (from step : Z) (to below above : option Z) (size : option Z) (s : seq_of) : Prop :=
  forall k : nat,
    let ok := (forall j : nat, (j <= k)%nat -> respects step to below above (from + Z.of_nat j * step)) /\
              (forall n, size = Some n -> Z.of_nat k < n) in
    (ok -> s k = Some (from + Z.of_nat k * step)) /\ (~ ok -> s k = None).

(** The sequence a range object stands for. *)
Definition denote (r : range) : seq_of :=
  match r with
  | REmpty => progression 0 0 (Some 0%nat)
  | RConst f s => progression f 0 (match s with Some n => Some (Z.to_nat n) | None => None end)
  | RFinite f b n => progression f b (Some (Z.to_nat n))
  | RInfinite f b => progression f b None
  end.

(** Range objects as documented in range.dylan:8-22: a finite range has at least one member and
    a nonzero step. *)
Definition wf_range (r : range) : Prop :=
  match r with
  | REmpty => True
  | RConst _ None => True
  | RConst _ (Some n) => 1 <= n
  | RFinite _ b n => b <> 0 /\ 1 <= n
  | RInfinite _ b => b <> 0
  end.

(** A range or a list holds the list [l]. *)
Definition holds (x : range_or_list) (l : list Z) : Prop :=
  match x with
  | IsRange r => forall i, denote r i = l !! i
  | IsList l' => l' = l
  end.

(** Remove the first occurrence. *)
Fixpoint remove_first (l : list Z) (x : Z) : list Z :=
  match l with
  | [] => []
  | y :: l => if bool_decide (y = x) then l else y :: remove_first l x
  end.
