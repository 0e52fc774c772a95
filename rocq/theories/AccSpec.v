(** What map and map-as should do: small specification used by C49. *)
From Verif Require Import Base CollModel CollSpec AccModel.
From Coq Require Import ZArith.
Local Open Scope Z_scope.

(** Calling a function with side effects once on each of the arguments, in order. *)
Fixpoint call_all {S} (fn : S -> value -> S * value) (s : S) (args : list value) : S * list value :=
  match args with
  | [] => (s, [])
  | x :: args => let '(s, v) := fn s x in let '(s, vs) := call_all fn s args in (s, v :: vs)
  end.

(** A new collection of the type asked for. *)
Definition has_type (ty : ttype) (c : coll) : Prop :=
  match ty, c with
  | TVec k, CVec k' _ => k = k'
  | TDeq, CDeq _ _ | TList, CList _ => True
  | TTab kt, CTab kt' _ => kt = kt'
  | _, _ => False
  end.

(** The collection has exactly these entries. *)
Definition has_entries (c : coll) (kvs : list (key * value)) : Prop :=
  forall k v, value_at c k = Some v <-> (k, v) ∈ kvs.

(** There can be such a collection: it compares keys as the source does; the keys of a sequence are
    the first natural numbers; a string holds characters. *)
Definition possible (ty : ttype) (kt : nat) (kvs : list (key * value)) : Prop :=
  type_key_test ty = kt /\
  (type_is_sequence ty = true -> Forall (fun e => exists z, e.1 = KInt z /\ 0 <= z < Z.of_nat (length kvs)) kvs) /\
  (ty = TVec VkString -> Forall (fun e => is_char e.2 = true) kvs).
