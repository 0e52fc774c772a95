(** Model of [instance?], [subtype?] and [disjoint-types?] on classes, singletons,
    unions, limited integers and subclass types.

    Sources: dylan/type.dylan, union.dylan, singleton.dylan, limited-integer.dylan,
    subclass.dylan, comparison.dylan and dispatch.dylan (the parts cited below), on top
    of the class table of [ClassModel].  The subjunctive universe is the empty one and
    no dependent generic function is registered.  Not modelled: limited collections,
    limited functions, incomplete classes. *)
From Verif Require Import Base ClassModel.
Local Open Scope outcome_scope.

(** How [=] and [==] behave on the instances of a class.
    [EqIdentity]: both are identity (object.dylan:91-93, the default).
    [EqValue]: a value class, both compare the value (comparison.dylan:55-64; floats,
    double integers).
    [EqContent]: [=] compares contents and [==] identity (strings, vectors, ...). *)
Inductive equality := EqIdentity | EqValue | EqContent.

Record world := World {
  w_classes : list iclass;
  w_integer : cid;                (* <integer> *)
  w_class : cid;                  (* <class> *)
  w_equality : cid -> equality }.

(** Objects.  [ODirect] is a tagged object other than an integer (a character);
    [OOther c ident v] an instance of [c] in the heap, with its identity and the value
    that [=] looks at; [None] is a value not even equal to itself (a NaN). *)
Inductive obj :=
| OInt (i : Z)
| ODirect (c : cid) (code : Z)
| OClass (c : cid)
| OOther (c : cid) (ident : nat) (v : option nat).

Inductive ty :=
| TClass (c : cid)
| TSing (o : obj)
| TUnion (t1 t2 : ty)
| TLimInt (min max : option Z)
| TSubclass (c : cid).

Global Instance obj_eq_dec : EqDecision obj.
Proof. solve_decision. Defined.

(** [object-class], boot.dylan:191-245. *)
Definition class_of (W : world) (x : obj) : cid :=
  match x with
  | OInt _ => w_integer W
  | ODirect c _ => c
  | OClass _ => w_class W
  | OOther c _ _ => c
  end.

(** [indirect-object?], boot.dylan. *)
Definition indirect (x : obj) : bool :=
  match x with OInt _ | ODirect _ _ => false | OClass _ | OOther _ _ _ => true end.

(** [pointer-id?]. *)
Definition pointer_id (x y : obj) : bool := bool_decide (x = y).

(** [=] on two objects of the same class: classes have the default method
    (object.dylan:91-93), the others what their class says. *)
Definition value_equal (v v' : option nat) : bool :=
  match v, v' with Some a, Some b => bool_decide (a = b) | _, _ => false end.
Definition equal_same_class (W : world) (x y : obj) : bool :=
  match x, y with
  | OOther c _ v, OOther _ _ v' =>
      match w_equality W c with
      | EqIdentity => pointer_id x y
      | _ => value_equal v v'
      end
  | _, _ => pointer_id x y
  end.

(** comparison.dylan:46-64 [==]. *)
Definition value_class (W : world) (c : cid) : bool :=
  match w_equality W c with EqValue => true | _ => false end.
Definition id_equal (W : world) (x y : obj) : bool :=
  pointer_id x y
  || (indirect x && indirect y && bool_decide (class_of W x = class_of W y)
      && match x with OOther c _ _ => value_class W c | _ => false end
      && equal_same_class W x y).

(** singleton.dylan:56-85: the function chosen by [initialize]. *)
Definition singleton_instance (W : world) (x o : obj) : bool :=
  if indirect o then
    indirect x && bool_decide (class_of W x = class_of W o) && equal_same_class W x o
  else pointer_id x o.

(** [|] and [&] evaluate the second operand only if needed. *)
Definition oor (a b : outcome bool) : outcome bool := do x <- a ; if (x : bool) then Val true else b.
Definition oand (a b : outcome bool) : outcome bool := do x <- a ; if (x : bool) then b else Val false.

(** interpret-integer-as-machine-word: the tagged word, 64 bits, tag 01. *)
Definition word_modulus : Z := 18446744073709551616.
Definition tagged (i : Z) : Z := 4 * i + 1.

(** limited-integer.dylan:35-54 (unsigned comparison of differences), 56-69, 71-84 and
    the choice 86-96. *)
Definition limint_instance (i : Z) (mn mx : option Z) : bool :=
  match mx, mn with
  | Some mx, Some mn =>
      bool_decide ((tagged i - tagged mn) mod word_modulus <= (tagged mx - tagged mn) mod word_modulus)%Z
  | Some mx, None => bool_decide (tagged i <= tagged mx)%Z
  | None, Some mn => bool_decide (tagged mn <= tagged i)%Z
  | None, None => true  (* not constructed: limited-integer.dylan:16-26 *)
  end.

(** [primitive-instance?].  Classes: class.dylan:598-867.  Unions: union.dylan:98-100.
    Limited integers: above; an object of class <integer> that is not tagged cannot
    exist.  Subclasses: subclass.dylan:33-40. *)
Fixpoint instance (W : world) (x : obj) (t : ty) : outcome bool :=
  match t with
  | TClass c => class_instance (w_classes W) (class_of W x) c
  | TSing o => Val (singleton_instance W x o)
  | TUnion t1 t2 => oor (instance W x t1) (instance W x t2)
  | TLimInt mn mx =>
      do b <- class_instance (w_classes W) (class_of W x) (w_integer W) ;
      if (b : bool) then match x with OInt i => Val (limint_instance i mn mx) | _ => UB end
      else Val false
  | TSubclass c =>
      do b <- class_instance (w_classes W) (class_of W x) (w_class W) ;
      if (b : bool) then match x with OClass d => subclass (w_classes W) d c | _ => UB end
      else Val false
  end.

(** limited-integer.dylan:106-113 [satisifies-bound]. *)
Definition satisfies_bound (value bound : option Z) (satisfied : Z -> Z -> bool) : bool :=
  match bound with
  | None => true
  | Some b => match value with Some v => satisfied v b | None => false end
  end.

(** [subtype?] on two types neither of which is a union. *)
Definition subtype_base (W : world) (t1 t2 : ty) : outcome bool :=
  match t1, t2 with
  | TSing o1, TSing o2 => Val (id_equal W o1 o2)                  (* singleton.dylan:90-93 *)
  | TSing o, TSubclass c =>                                       (* subclass.dylan:67-76 *)
      do b <- class_instance (w_classes W) (class_of W o) (w_class W) ;
      if (b : bool) then match o with OClass d => subclass (w_classes W) d c | _ => UB end
      else Val false
  | TSing o, _ => instance W o t2                                 (* singleton.dylan:95-98 *)
  | _, TSing _ => Val false                                       (* singleton.dylan:100-103, subclass.dylan:62-65 *)
  | TClass c1, TClass c2 => subclass (w_classes W) c1 c2          (* class.dylan:935-938 *)
  | TClass c1, TSubclass c2 =>                                    (* subclass.dylan:105-108 *)
      Val (bool_decide (c1 = w_class W) && bool_decide (c2 = w_class W))
  | TClass _, TLimInt _ _ => Val false                            (* limited-integer.dylan:128-131 *)
  | TLimInt mn1 mx1, TLimInt mn2 mx2 =>                           (* limited-integer.dylan:103-116 *)
      Val (satisfies_bound mn1 mn2 (fun v b => bool_decide (b <= v)%Z)
           && satisfies_bound mx1 mx2 (fun v b => bool_decide (v <= b)%Z))
  | TLimInt _ _, TClass c => subclass (w_classes W) (w_integer W) c (* limited-integer.dylan:133-136 *)
  | TSubclass c1, TSubclass c2 => subclass (w_classes W) c1 c2    (* subclass.dylan:47-50 *)
  | TSubclass _, TClass c => subclass (w_classes W) (w_class W) c (* subclass.dylan:99-103 *)
  | TLimInt _ _, TSubclass _ | TSubclass _, TLimInt _ _ =>        (* no method at all *)
      Signal "no-applicable-method-error"
  | TUnion _ _, _ | _, TUnion _ _ => UB                           (* not used *)
  end.

(** [t1] is no union.  union.dylan:127-129; a singleton asks [instance?], 148-151. *)
Fixpoint subtype_right (W : world) (t1 t2 : ty) : outcome bool :=
  match t2 with
  | TUnion a b =>
      match t1 with
      | TSing o => oor (instance W o a) (instance W o b)
      | _ => oor (subtype_right W t1 a) (subtype_right W t1 b)
      end
  | _ => subtype_base W t1 t2
  end.

(** union.dylan:107-111, 123-125, 144-146: a union on the left is taken apart first. *)
Fixpoint subtype (W : world) (t1 t2 : ty) : outcome bool :=
  match t1 with
  | TUnion a b => oand (subtype W a t2) (subtype W b t2)
  | _ => subtype_right W t1 t2
  end.

(** limited-integer.dylan:152-168. *)
Definition limint_disjoint (mn1 mx1 mn2 mx2 : option Z) : bool :=
  match mx1, mn2 with Some a, Some b => bool_decide (a < b)%Z | _, _ => false end
  || match mn1, mx2 with Some a, Some b => bool_decide (b < a)%Z | _, _ => false end.

Definition onot (a : outcome bool) : outcome bool := do x <- a ; Val (negb x).

(** [has-instances?] of a class and a limited type, first value: type.dylan:558-570;
    singleton.dylan:163-170 with class.dylan:949-959; limited-integer.dylan:173-177. *)
Definition has_instances (W : world) (c : cid) (t : ty) : outcome bool :=
  match t with
  | TSing o => subclass (w_classes W) (class_of W o) c
  | TLimInt _ _ => oor (subclass (w_classes W) (w_integer W) c) (subclass (w_classes W) c (w_integer W))
  | _ => UB (* not used *)
  end.

(** [disjoint-types-1?] on types that are no unions. *)
Definition disjoint1 (W : world) (t1 t2 : ty) : outcome bool :=
  match t1, t2 with
  | TClass c1, TClass c2 => disjoint_classes (w_classes W) c1 c2          (* class.dylan:998-1015 *)
  | TSing o1, TSing o2 => Val (negb (id_equal W o1 o2))                   (* singleton.dylan:143-148 *)
  | TLimInt mn1 mx1, TLimInt mn2 mx2 => Val (limint_disjoint mn1 mx1 mn2 mx2)
  | TSubclass c1, TSubclass c2 => disjoint_classes (w_classes W) c1 c2    (* subclass.dylan:128-133 *)
  | TSubclass _, TClass c | TClass c, TSubclass _ =>                      (* subclass.dylan:136-149 *)
      disjoint_classes (w_classes W) (w_class W) c
  | TClass c, _ => onot (has_instances W c t2)                            (* type.dylan:583-592 *)
  | _, TClass c => onot (has_instances W c t1)                            (* type.dylan:572-581 *)
  | _, _ => oand (onot (subtype W t1 t2)) (onot (subtype W t2 t1))        (* type.dylan:48-63 *)
  end.

(** [disjoint-types?]: type.dylan:39-45, union.dylan:169-195. *)
Fixpoint disjoint (W : world) (t1 : ty) : ty -> outcome bool :=
  fix disjoint_2 (t2 : ty) : outcome bool :=
    match t1, t2 with
    | TUnion a b, TUnion c d =>
        oand (disjoint W a c) (oand (disjoint W a d) (oand (disjoint W b c) (disjoint W b d)))
    | TUnion a b, _ => oand (disjoint W a t2) (disjoint W b t2)
    | _, TUnion c d => oand (disjoint_2 c) (disjoint_2 d)
    | _, _ => disjoint1 W t1 t2
    end.

(** union.dylan:22-42 [type-union] of two types; [t1 == t2] is identity of the type
    objects, which is only certain for one class given twice. *)
Definition type_union (t1 t2 : ty) : ty :=
  match t1, t2 with
  | TClass c1, TClass c2 => if bool_decide (c1 = c2) then t1 else TUnion t1 t2
  | _, _ => TUnion t1 t2
  end.
