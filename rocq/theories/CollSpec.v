(** What it means to iterate over collections, and to map into one: small specification used by
    C47 and C48, in terms of the keys and elements of collections only. *)
From Verif Require Import Base CollModel.
From Coq Require Import ZArith.
Local Open Scope Z_scope.

(** The element of a collection under a key: [c[k]], [None] when there is none. *)
Definition value_at (c : coll) (k : key) : option value :=
  match c, k with
  | CTab _ t, _ => list_find (fun e => e.1 = k) t ≫= fun r => Some r.2.2
  | (CVec _ l | CDeq _ l | CList l), KInt z => if decide (0 <= z) then l !! Z.to_nat z else None
  | CRange f b n, KInt z => if decide (0 <= z < Z.of_nat n) then Some (VInt (f + z * b)) else None
  | CRangeInf f b, KInt z => if decide (0 <= z) then Some (VInt (f + z * b)) else None
  | _, _ => None
  end.

(** Well-formed collections: a table has an entry at most once, a range has a step, a string
    holds characters. *)
Definition wf_coll (c : coll) : Prop :=
  match c with
  | CTab _ t => NoDup t.*1
  | CRange _ b _ | CRangeInf _ b => b <> 0
  | CVec VkString l => Forall (fun v => is_char v = true) l
  | _ => True
  end.

Definition finite_coll (c : coll) : Prop := match c with CRangeInf _ _ => False | _ => True end.

(** [aligned cs k]: the elements of all the collections under key [k], if each of them has one. *)
Definition aligned (cs : list coll) (k : key) : option (list value) := mapM (fun c => value_at c k) cs.

(** Iterating over the collections [cs] visits the entries [out], each key that all of them have
    exactly once; when one of them is a sequence, in the order of the keys. *)
Record visits (cs : list coll) (out : list (key * list value)) : Prop := {
  visits_once : NoDup out.*1;
  visits_all : forall k vs, (k, vs) ∈ out <-> aligned cs k = Some vs;
  visits_order : existsb is_sequence cs = true ->
    forall i j k1 k2 v1 v2, (i < j)%nat -> out !! i = Some (k1, v1) -> out !! j = Some (k2, v2) ->
      exists z1 z2, k1 = KInt z1 /\ k2 = KInt z2 /\ z1 < z2
}.

(** What the function is called with: the element of a single collection, the vector of elements
    when there are several. *)
Definition argument (vs : list value) : value := match vs with [v] => v | _ => VVec vs end.

(** Same class. *)
Definition same_class (c c' : coll) : Prop :=
  match c, c' with
  | CVec k _, CVec k' _ => k = k'
  | CDeq _ _, CDeq _ _ | CList _, CList _ => True
  | CTab kt _, CTab kt' _ => kt = kt'
  | _, _ => False
  end.

(** The keys under which map-into may store into a collection: its own if it cannot stretch,
    the natural numbers for a sequence that can, all keys for a table. *)
Definition accepts (c : coll) (k : key) : Prop :=
  if is_stretchy c then
    if is_sequence c then exists z, k = KInt z /\ 0 <= z else True
  else value_at c k <> None.

(** A new key of a sequence below a larger key of the source. *)
Definition gap (A : key -> option value) (c : coll) (k : key) : Prop :=
  is_stretchy c = true /\ is_sequence c = true /\ exists z z', k = KInt z /\ 0 <= z < z' /\ A (KInt z') <> None.

(** [mapped_into fn A c c']: [c'] is [c] after map-into with the function [fn] and a source whose
    element under key [k] is [A k].  Under the keys of the source that it accepts [c'] has the
    results; under all other keys what [c] had; a sequence that had to stretch has #f under new
    keys the source skips. *)
Definition mapped_into (fn : value -> value) (A : key -> option value) (c c' : coll) : Prop :=
  same_class c c' /\ wf_coll c' /\
  (forall k v, accepts c k -> A k = Some v -> value_at c' k = Some (fn v)) /\
  (forall k, A k = None \/ ~ accepts c k ->
     value_at c' k = value_at c k \/ (value_at c k = None /\ value_at c' k = Some VFalse /\ gap A c k)).

(** Iterating over the collections ends: they are all tables, or one of them is a finite sequence,
    or exactly one is a table. *)
Definition bounded (cs : list coll) : Prop :=
  Forall (fun c => is_sequence c = false) cs \/
  Exists (fun c => is_sequence c = true /\ finite_coll c) cs \/
  length (filter (fun c => is_sequence c = false) cs) = 1%nat.

(** What the function is called with under key [k], if the collections all have it. *)
Definition source_at (cs : list coll) (k : key) : option value := match aligned cs k with Some vs => Some (argument vs) | None => None end.

(** The result of the function can be stored: only a string is particular about it. *)
Definition results_fit (fn : value -> value) (cs : list coll) (c : coll) : Prop :=
  match c with CVec VkString _ => forall k vs, aligned cs k = Some vs -> is_char (fn (argument vs)) = true | _ => True end.

Definition no_growth (cs : list coll) (c : coll) : Prop := forall k, aligned cs k <> None -> value_at c k <> None.

(** What is proved: all targets except lists from a string or a source that is not a sequence, and
    deques that have to grow, unless from a single list, range or table. *)
Definition covered (cs : list coll) (c : coll) : Prop :=
  match c with
  | CVec _ _ | CTab _ _ => True
  | CList _ => forallb is_sequence cs = true /\ forall l, cs <> [CVec VkString l]
  | CDeq _ _ =>
      (forallb is_sequence cs = true /\ no_growth cs c) \/
      exists s, cs = [s] /\ match s with CList _ | CRange _ _ _ | CTab _ _ => True | _ => False end
  | _ => False
  end.
