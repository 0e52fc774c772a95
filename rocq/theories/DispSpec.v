(** What generic function dispatch should do: which methods are applicable, when one
    method is more specific than another for given arguments, and what a call must run. *)
From Verif Require Import Base ClassModel ClassSpec TypeModel TypeSpec DispModel.
Local Open Scope nat_scope.

(** [c1] comes before [c2] in the list [l]. *)
Definition before (l : list nat) (c1 c2 : nat) : Prop :=
  exists l1 l2, l = l1 ++ c1 :: l2 /\ c2 ∈ l2.

(** The class precedence list of a class. *)
Definition precedence_list (W : world) (c : cid) : list cid :=
  match w_classes W !! c with Some ic => all_supers ic | None => [] end.

(** Specializer [t1] precedes [t2] for the argument [x], an instance of both: two classes
    by the precedence list of the class of the argument; two subclass types by that of
    the argument itself; a singleton precedes everything else; a subclass type precedes
    <class> (unless it contains all classes) and the superclasses of <class>; all other
    types by [subtype?]. *)
Definition more_specific (W : world) (x : obj) (t1 t2 : ty) : Prop :=
  match t1, t2 with
  | TClass c1, TClass c2 => before (precedence_list W (class_of W x)) c1 c2
  | TSubclass c1, TSubclass c2 => exists d, x = OClass d /\ before (precedence_list W d) c1 c2
  | TSing _, TSing _ => False
  | TSing _, _ => True
  | _, TSing _ => False
  | TSubclass c1, TClass c2 => ~ (c1 = object_class /\ c2 = w_class W)
  | TClass c1, TSubclass c2 => False
  | _, _ => subtype W t1 t2 = Val true /\ subtype W t2 t1 = Val false
  end.

(** Neither is more specific, and they are not ambiguous either. *)
Definition alike (W : world) (t1 t2 : ty) : Prop :=
  match t1, t2 with
  | TClass c1, TClass c2 => c1 = c2
  | TSubclass c1, TSubclass c2 => c1 = c2
  | TSing _, TSing _ => True
  | TSing _, _ | _, TSing _ => False
  | TSubclass c1, TClass c2 | TClass c2, TSubclass c1 => c1 = object_class /\ c2 = w_class W
  | _, _ => subtype W t1 t2 = Val true /\ subtype W t2 t1 = Val true
  end.

(** A method applies if every argument is an instance of its specializer. *)
Definition applicable (W : world) (m : meth) (args : list obj) : Prop :=
  Forall2 (Inst W) args (m_specs m).

(** Position by position. *)
Definition at_position (m1 m2 : meth) (args : list obj) (i : nat) (R : obj -> ty -> ty -> Prop) : Prop :=
  exists x t1 t2, args !! i = Some x /\ m_specs m1 !! i = Some t1 /\ m_specs m2 !! i = Some t2 /\ R x t1 t2.

(** [m1] is more specific than [m2] for these arguments: no specializer is less specific
    or ambiguous, and one is more specific. *)
Definition precedes (W : world) (args : list obj) (m1 m2 : meth) : Prop :=
  (forall i, i < length args ->
     at_position m1 m2 args i (fun x t1 t2 => alike W t1 t2 \/ more_specific W x t1 t2)) /\
  exists i, at_position m1 m2 args i (more_specific W).

(** All specializers alike. *)
Definition duplicates (W : world) (args : list obj) (m1 m2 : meth) : Prop :=
  forall i, i < length args -> at_position m1 m2 args i (fun _ t1 t2 => alike W t1 t2).

(** The arguments of a call. *)
Definition wf_args (W : world) (g : gfun) (args : list obj) : Prop :=
  length args = g_nreq g /\ Forall (wf_obj W) args.

(** Methods as the theorems need them: the specializers are types of this world, the
    singletons are of objects on which [=] and [==] agree, no [subclass(<class>)], and no
    position mixes limited integers with subclass types (on which [subtype?] fails). *)
Definition wf_specializer (W : world) (t : ty) : Prop :=
  wf_ty W t /\ simple_singletons W t /\ no_subclass_class W t.
Definition wf_method (W : world) (nreq : nat) (m : meth) : Prop :=
  length (m_specs m) = nreq /\ Forall (wf_specializer W) (m_specs m).
Definition specializers_at (ms : list meth) (i : nat) (t : ty) : Prop :=
  exists m, m ∈ ms /\ m_specs m !! i = Some t.
Definition unmixed_at (ms : list meth) (i : nat) : Prop :=
  (forall t, specializers_at ms i t -> no_limint t) \/ (forall t, specializers_at ms i t -> no_subclass t).
Definition wf_methods (W : world) (nreq : nat) (ms : list meth) : Prop :=
  Forall (wf_method W nreq) ms /\ forall i, unmixed_at ms i.

(** [m] is in the group [ms], and more specific than all the others, apart from duplicates. *)
Definition most_specific (W : world) (args : list obj) (ms : list meth) (m : meth) : Prop :=
  m ∈ ms /\ forall m', m' ∈ ms -> m' <> m -> precedes W args m m' \/ duplicates W args m m'.

(** [l] followed by the group [amb] is the order of the methods [ms]: each method of [l]
    is more specific than all that come later, the group has no most specific method, and
    what is left out is a duplicate. *)
Record sorted_order (W : world) (args : list obj) (ms l amb : list meth) : Prop := {
  so_from : forall m, m ∈ l ++ amb -> m ∈ ms;
  so_all : forall m, m ∈ ms -> m ∈ l ++ amb \/ exists m', m' ∈ l ++ amb /\ duplicates W args m m';
  so_ordered : forall l1 m l2, l = l1 ++ m :: l2 -> forall m', m' ∈ l2 ++ amb -> precedes W args m m';
  so_group : forall m, m ∈ amb -> exists m', m' ∈ amb /\ m' <> m /\ ~ precedes W args m m' }.

(** Types nested in a union. *)
Fixpoint atoms (t : ty) : list ty :=
  match t with TUnion a b => atoms a ++ atoms b | _ => [t] end.

(** The methods reached from the first of a list by calling next-method. *)
Fixpoint reachable (l : list meth) : list meth :=
  match l with [] => [] | m :: l' => m :: (if m_next m then reachable l' else []) end.

(** The emergency order of an ambiguous group: some of its methods, none before a more
    specific one. *)
Record emergency_order (W : world) (args : list obj) (group l amb : list meth) : Prop := {
  eo_from : forall m, m ∈ l ++ amb -> m ∈ group;
  eo_not_all : l ++ amb <> [];
  eo_order : forall l1 m l2, l = l1 ++ m :: l2 -> forall m', m' ∈ l2 ++ amb -> ~ precedes W args m' m }.

(** What a call with these applicable methods [ms] runs, and the warnings it gives.
    [None] is the no-applicable-method error. *)
Inductive runs (W : world) (args : list obj) (ms : list meth) keys : option terminal -> list warning -> Prop :=
| runs_nothing : ms = [] -> runs W args ms keys None []
(** The most specific method, with the others after it in order. *)
| runs_ordered m rest amb next :
    sorted_order W args ms (m :: rest) amb ->
    amb = [] \/ Exists (fun m' => m_next m' = false) (m :: rest) ->
    m :: ch_methods next = reachable (m :: rest) -> ch_ambiguous next = None ->
    runs W args ms keys (Some (TMethod m next keys)) []
(** The most specific method; next-method runs into an ambiguous group. *)
| runs_then_group m rest amb l' amb' next :
    sorted_order W args ms (m :: rest) amb -> amb <> [] ->
    Forall (fun m' => m_next m' = true) (m :: rest) ->
    emergency_order W args amb l' amb' ->
    m :: ch_methods next = (m :: rest) ++ reachable l' ->
    (ch_ambiguous next = None \/ ch_ambiguous next = Some (m :: rest, amb')) ->
    (l' = [] -> ch_ambiguous next = Some (m :: rest, amb')) ->
    runs W args ms keys (Some (TMethod m next keys)) (if l' then [] else [Warning (m :: rest) amb])
(** There is no most specific method: a warning, and the emergency order. *)
| runs_group m rest amb amb' next :
    sorted_order W args ms [] amb -> amb <> [] ->
    emergency_order W args amb (m :: rest) amb' ->
    m :: ch_methods next = reachable (m :: rest) ->
    runs W args ms keys (Some (TMethod m next keys)) [Warning [] amb]
(** The ambiguous-methods error. *)
| runs_error amb amb' :
    sorted_order W args ms [] amb -> amb <> [] ->
    emergency_order W args amb [] amb' ->
    runs W args ms keys (Some (TAmbiguous [] amb')) [].

(** ** What the theorem about the engine assumes of the specializers *)

Definition partial_type (u : ty) : Prop := match u with TClass _ | TUnion _ _ => False | _ => True end.

(** Of one specializer: no subclass type inside a union; no union of a class with a
    singleton or limited type it contains. *)
Definition plain_union (W : world) (t : ty) : Prop :=
  ((exists c, t = TSubclass c) \/ no_subclass t) /\
  forall u d, u ∈ atoms t -> TClass d ∈ atoms t -> partial_type u -> subtype W u (TClass d) = Val false.

(** Of one argument position: not both an integer as singleton and a limited integer; no
    limited integer type strictly inside another one; singletons of the same class are
    all tagged or all in the heap (as they are in reality). *)
Definition plain_position (W : world) (ms : list meth) (i : nat) : Prop :=
  (forall t, specializers_at ms i t -> plain_union W t) /\
  (forall t t' k u, specializers_at ms i t -> specializers_at ms i t' ->
     TSing (OInt k) ∈ atoms t -> u ∈ atoms t' -> match u with TLimInt _ _ => False | _ => True end) /\
  (forall t t' mn mx mn' mx', specializers_at ms i t -> specializers_at ms i t' ->
     TLimInt mn mx ∈ atoms t -> TLimInt mn' mx' ∈ atoms t' ->
     subtype W (TLimInt mn mx) (TLimInt mn' mx') = Val true ->
     subtype W (TLimInt mn' mx') (TLimInt mn mx) = Val true) /\
  (forall t t' c k ident v, specializers_at ms i t -> specializers_at ms i t' ->
     TSing (ODirect c k) ∈ atoms t -> ~ TSing (OOther c ident v) ∈ atoms t').

Record plain_gf (W : world) (g : gfun) : Prop := {
  pg_methods : wf_methods W (g_nreq g) (g_methods g);
  pg_nodup : NoDup (g_methods g);
  pg_first : forall i, i ∈ g_first g -> i < g_nreq g;
  pg_plain : forall i, plain_position W (g_methods g) i }.

(** [app] are the methods of [ms] that apply to the arguments. *)
Definition applicable_of (W : world) (ms : list meth) (args : list obj) (app : list meth) : Prop :=
  forall m, m ∈ app <-> m ∈ ms /\ applicable W m args.

(** ** Histories of a generic function *)

(** The methods defined in a history, in order. *)
Definition added (evs : list event) : list meth :=
  omap (fun ev => match ev with AddMethod m => Some m | Call _ => None end) evs.

Definition later (defs : list meth) (m m' : meth) : Prop :=
  exists d1 d2, defs = d1 ++ m :: d2 /\ m' ∈ d2.

(** The same specializers: singletons of the same object, otherwise the same types. *)
Definition same_type (W : world) (t1 t2 : ty) : Prop :=
  t1 = t2 \/ exists o1 o2, t1 = TSing o1 /\ t2 = TSing o2 /\ same_object W o1 o2.
Definition same_specs (W : world) (m1 m2 : meth) : Prop :=
  Forall2 (same_type W) (m_specs m1) (m_specs m2).
Definition no_union_specializer (ms : list meth) : Prop :=
  forall m t, m ∈ ms -> t ∈ m_specs m -> match t with TUnion _ _ => False | _ => True end.

(** [ms] are the methods in force after the definitions [defs]: a method is lost only to a
    later one that applies to the same arguments and, if there are no unions, always to
    a later one on the same specializers. *)
Record in_force (W : world) (defs ms : list meth) : Prop := {
  if_from : forall m, m ∈ ms -> m ∈ defs;
  if_nodup : NoDup ms;
  if_all : forall m, m ∈ defs -> m ∈ ms \/ exists m', m' ∈ ms /\ later defs m m' /\
    forall args, Forall (wf_obj W) args -> applicable W m args <-> applicable W m' args;
  if_last : no_union_specializer defs ->
    forall m m', m ∈ ms -> later defs m m' -> ~ same_specs W m m' }.

Record plain_methods (W : world) (nreq : nat) (ms : list meth) : Prop := {
  pm_methods : wf_methods W nreq ms;
  pm_nodup : NoDup ms;
  pm_plain : forall i, plain_position W ms i }.

(** A history that starts with no methods. *)
Record plain_history (W : world) (g : gfun) (evs : list event) : Prop := {
  ph_start : g_methods g = [];
  ph_first : forall i, i ∈ g_first g -> i < g_nreq g;
  ph_methods : plain_methods W (g_nreq g) (added evs);
  ph_calls : forall args, Call args ∈ evs -> wf_args W g args }.
