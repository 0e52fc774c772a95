(** What the types mean, as sets of objects. *)
From Verif Require Import Base ClassModel ClassSpec TypeModel.

(** The objects [=] to [o], within the class of [o]. *)
Definition same_object (W : world) (x o : obj) : Prop :=
  match x, o with
  | OOther c i v, OOther c' i' v' =>
      c = c' /\ match w_equality W c with
                | EqIdentity => i = i' /\ v = v'
                | _ => exists n, v = Some n /\ v' = Some n
                end
  | _, _ => x = o
  end.

Fixpoint Inst (W : world) (x : obj) (t : ty) : Prop :=
  match t with
  | TClass c => Inherits (supers_table (w_classes W)) (class_of W x) c
  | TSing o => same_object W x o
  | TUnion t1 t2 => Inst W x t1 \/ Inst W x t2
  | TLimInt mn mx => exists i, x = OInt i /\
      (forall m, mn = Some m -> (m <= i)%Z) /\ (forall m, mx = Some m -> (i <= m)%Z)
  | TSubclass c => exists d, x = OClass d /\ Inherits (supers_table (w_classes W)) d c
  end.

(** A world: any history of class definitions in which every class has a superclass,
    with <integer> and <class> among the classes and without subclasses of their own. *)
Record wf_world (W : world) : Prop := {
  ww_history : exists ops, Forall rooted_op ops /\ w_classes W = run_classes ops;
  ww_integer : w_integer W < length (w_classes W);
  ww_class : w_class W < length (w_classes W);
  ww_different : w_integer W <> w_class W;
  ww_integer_leaf : forall c, Inherits (supers_table (w_classes W)) c (w_integer W) -> c = w_integer W;
  ww_class_leaf : forall c, Inherits (supers_table (w_classes W)) c (w_class W) -> c = w_class W }.

(** Integers are 62 bits wide; only tagged objects are integers, only classes are
    instances of <class>. *)
Definition int_range (i : Z) : Prop := (-2305843009213693952 <= i < 2305843009213693952)%Z.
Definition wf_obj (W : world) (x : obj) : Prop :=
  match x with
  | OInt i => int_range i
  | ODirect c _ | OOther c _ _ => c < length (w_classes W) /\ c <> w_integer W /\ c <> w_class W
  | OClass c => c < length (w_classes W)
  end.

(** Types: the classes exist, the bounds of a limited integer are not inverted (and are
    integers). *)
Fixpoint wf_ty (W : world) (t : ty) : Prop :=
  match t with
  | TClass c | TSubclass c => c < length (w_classes W)
  | TSing o => wf_obj W o
  | TUnion t1 t2 => wf_ty W t1 /\ wf_ty W t2
  | TLimInt mn mx =>
      (forall m, mn = Some m -> int_range m) /\ (forall m, mx = Some m -> int_range m) /\
      (forall m m', mn = Some m -> mx = Some m' -> (m <= m')%Z)
  end.

(** No [subclass(<class>)] in the type. *)
Fixpoint no_subclass_class (W : world) (t : ty) : Prop :=
  match t with
  | TSubclass c => c <> w_class W
  | TUnion t1 t2 => no_subclass_class W t1 /\ no_subclass_class W t2
  | _ => True
  end.

(** The singletons are of objects equal to themselves, on which [=] and [==] agree. *)
Definition simple_obj (W : world) (x : obj) : Prop :=
  match x with
  | OOther c _ v => w_equality W c <> EqContent /\ v <> None
  | _ => True
  end.
Fixpoint simple_singletons (W : world) (t : ty) : Prop :=
  match t with
  | TSing o => simple_obj W o
  | TUnion t1 t2 => simple_singletons W t1 /\ simple_singletons W t2
  | _ => True
  end.

(** The type has no limited integers; it has no subclass types. *)
Fixpoint no_limint (t : ty) : Prop :=
  match t with
  | TLimInt _ _ => False
  | TUnion t1 t2 => no_limint t1 /\ no_limint t2
  | _ => True
  end.
Fixpoint no_subclass (t : ty) : Prop :=
  match t with
  | TSubclass _ => False
  | TUnion t1 t2 => no_subclass t1 /\ no_subclass t2
  | _ => True
  end.
(** Not both kinds. *)
Definition unmixed (t : ty) : Prop := no_limint t \/ no_subclass t.
Definition unmixed2 (t1 t2 : ty) : Prop :=
  (no_limint t1 /\ no_limint t2) \/ (no_subclass t1 /\ no_subclass t2).

(** All the classes come from library definitions, none from make(<class>) at run time. *)
Definition loaded_world (W : world) : Prop :=
  exists ops, Forall is_load ops /\ Forall rooted_op ops /\ w_classes W = run_classes ops.
