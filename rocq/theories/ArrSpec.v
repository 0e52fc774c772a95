(** Specification of arrays.  The positions of an array with dimensions d1, ..., dn are the tuples (i1, ..., in) with
    0 <= ik < dk; they are numbered in lexicographic order, the last subscript varying fastest. *)
From stdpp Require Import list_numbers.
From Verif Require Import Base NumStrSpec ArrModel.
From Coq Require Import ZArith Sorted.
Local Open Scope Z_scope.

(** A tuple of subscripts names a position. *)
Definition position (dims subs : list Z) : Prop := Forall2 (fun i d => 0 <= i < d) subs dims.

(** All positions, in lexicographic order *)
Fixpoint positions (dims : list Z) : list (list Z) :=
  match dims with
  | [] => [[]]
  | d :: dims => flat_map (fun i => map (cons i) (positions dims)) (seqZ 0 d)
  end.

(** Lexicographic order on tuples of one length *)
Inductive before : list Z -> list Z -> Prop :=
| before_here i j s t : i < j -> length s = length t -> before (i :: s) (j :: t)
| before_there i s t : before s t -> before (i :: s) (i :: t).

(** The dimensions an array can have here: at least one, none negative, and such that no product of the first few is
    too large for an <integer>. *)
Definition good_dims (max : Z) (dims : list Z) : Prop :=
  dims <> [] /\ Forall (fun d => 0 <= d) dims /\
  forall k, (0 < k)%nat -> foldr Z.mul 1 (take k dims) <= max.

(** fill! may be applied to these bounds of an array of n elements. *)
Definition bounds_ok (n start stop : Z) : Prop := 0 <= start <= stop /\ stop <= n.

(** What a call does to the value v of position number p, subscripts s, of an array of n elements: aref-setter stores
    at its subscripts, element-setter at its number, fill! between its bounds if they are in order.  A call with other
    arguments is an error and stores nothing. *)
Definition effect {A} (n p : Z) (s : list Z) (v : A) (o : op A) : A :=
  match o with
  | OAref s' x => if decide (s' = s) then x else v
  | OElement i x => if decide (i = p) then x else v
  | OFill x start last =>
      let stop := match last with None => n | Some e => e end in
      if decide (0 <= start <= stop /\ stop <= n /\ start <= p < stop) then x else v
  end.

(** The subscripts given are <integer>s. *)
Definition op_fits {A} (o : op A) : Prop := match o with OAref s _ => Forall fits s | _ => True end.

