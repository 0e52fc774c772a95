(** Model of generic function dispatch: the ordering of methods, the terminal of a
    dispatch, the decision tree ("dispatch engine") that caches it, and what a miss of
    that tree does.

    Sources: dylan/discrimination.dylan, dispatch-prologue.dylan, new-dispatch.dylan,
    generic-function.dylan and dispatch.dylan (the parts cited below), on top of
    [ClassModel] and [TypeModel].

    Simplifications, beyond those of [TypeModel]:
    - only the required arguments are modelled, and exactly [g_nreq] of them are given;
    - slot accessor methods, call-site caches and profiling nodes are left out;
    - [*gracefully-dispatch-to-ambiguous-methods*] and
      [*gracefully-ignore-duplicate-methods*] have their initial value [#t];
    - one thread (the code runs under the lock of the generic function). *)
From Verif Require Import Base ClassModel TypeModel.
Local Open Scope outcome_scope.
Local Open Scope nat_scope.

Global Instance ty_eq_dec : EqDecision ty.
Proof. solve_decision. Defined.

(** A method: its identity, its specializers, whether it takes next-method
    ([function-next?]), and its keywords ([None]: #all-keys). *)
Record meth := Meth { m_id : nat; m_specs : list ty; m_next : bool; m_keys : option (list nat) }.

Global Instance meth_eq_dec : EqDecision meth.
Proof. solve_decision. Defined.

(** dispatch-prologue.dylan [%method-specializer]. *)
Definition spec_at (m : meth) (i : nat) : outcome ty := vread (m_specs m) i.
Definition arg_at (args : list obj) (i : nat) : outcome obj := vread args i.

(** * Ordering of specializers and methods *)

(** The symbols #"<", #">", #"=" and #"<>". *)
Inductive order := OLess | OGreater | OEqual | OAmbiguous.

Global Instance order_eq_dec : EqDecision order.
Proof. solve_decision. Defined.

(** discrimination.dylan:1022-1055 [%class<]: the first of the two in the class
    precedence list. *)
Fixpoint first_of (c1 c2 : cid) (l : list cid) : outcome bool :=
  match l with
  | [] => Signal "Can't order specializers"
  | c :: l' => if c =? c1 then Val true else if c =? c2 then Val false else first_of c1 c2 l'
  end.
Definition class_lt (W : world) (c1 c2 wrt : cid) : outcome bool :=
  do ic <- vread (w_classes W) wrt ;
  first_of c1 c2 (all_supers ic).

(** discrimination.dylan:1058-1068 [%order-specializers-default]; the canonical type is
    needed by the desperate ordering only.  [grounded-subtype?] (dispatch.dylan:115-133)
    answers as [subtype?] on every pair of types. *)
Definition order_default (W : world) (t1 t2 : ty) : outcome (order * ty) :=
  do a <- subtype W t1 t2 ;
  if (a : bool) then
    do b <- subtype W t2 t1 ;
    Val (if (b : bool) then OEqual else OLess, t1)
  else
    do b <- subtype W t2 t1 ;
    Val (if (b : bool) then (OGreater, t2) else (OAmbiguous, TClass object_class)).

(** discrimination.dylan:1157-1219 [%order-specializers] on two classes. *)
Definition order_classes (W : world) (c1 c2 : cid) (arg : obj) : outcome (order * ty) :=
  if c1 =? c2 then Val (OEqual, TClass c1)
  else
    do b <- class_lt W c1 c2 (class_of W arg) ;
    Val (if (b : bool) then (OLess, TClass c1) else (OGreater, TClass c2)).

(** discrimination.dylan:1157-1219 [%order-specializers].  [t1 == t2] compares the type
    objects; here two types of the same structure count as the same object.  The
    remaining cases give #"=" on these too, as long as [subtype?] is reflexive on them. *)
Definition order_specializers (W : world) (t1 t2 : ty) (arg : obj) : outcome (order * ty) :=
  if bool_decide (t1 = t2) then Val (OEqual, t1)
  else
    match t1, t2 with
    | TSing _, TSing _ => Val (OEqual, t1)
    | TSing _, _ => Val (OLess, t1)
    | _, TSing _ => Val (OGreater, t2)
    | TSubclass c1, TSubclass c2 =>
        match arg with
        | OClass d =>
            if c1 =? c2 then Val (OEqual, t1)
            else do b <- class_lt W c1 c2 d ; Val (if (b : bool) then (OLess, t1) else (OGreater, t2))
        | _ => Signal "type-error"
        end
    | TSubclass c1, TClass c2 =>
        do s <- subclass (w_classes W) (w_class W) c2 ;
        if (s : bool) then
          if c1 =? object_class then
            do ' (o, _) <- order_classes W (w_class W) c2 arg ; Val (o, t1)
          else Val (OLess, t1)
        else Val (OAmbiguous, t1)
    | TClass c1, TSubclass c2 =>
        do s <- subclass (w_classes W) (w_class W) c1 ;
        if (s : bool) then
          if c2 =? object_class then
            do ' (o, _) <- order_classes W c1 (w_class W) arg ; Val (o, t2)
          else Val (OGreater, t2)
        else Val (OAmbiguous, t2)
    | TClass c1, TClass c2 => order_classes W c1 c2 arg
    | _, _ => order_default W t1 t2
    end.

(** The number of nodes of a type, as fuel. *)
Fixpoint ty_size (t : ty) : nat :=
  match t with TUnion a b => S (ty_size a + ty_size b) | _ => 1 end.

(** discrimination.dylan:1071-1154 [%order-specializers-desperately]: takes unions apart
    as well. *)
Fixpoint order_desperately (fuel : nat) (W : world) (t1 t2 : ty) (arg : obj) : outcome (order * ty) :=
  match fuel with
  | O => NoFuel
  | S fuel =>
      if bool_decide (t1 = t2) then Val (OEqual, t1)
      else
        match t1, t2 with
        | TUnion lft rgt, _ =>
            do il <- instance W arg lft ;
            if (il : bool) then
              do ir <- instance W arg rgt ;
              if (ir : bool) then
                do ' (o, nt) <- order_desperately fuel W lft rgt arg ;
                if bool_decide (o = OAmbiguous) then Val (o, nt)
                else order_desperately fuel W nt t2 arg
              else order_desperately fuel W lft t2 arg
            else
              do ir <- instance W arg rgt ;
              if (ir : bool) then order_desperately fuel W rgt t2 arg
              else Signal "You shouldn't get here!"
        | _, TUnion lft rgt =>
            do il <- instance W arg lft ;
            if (il : bool) then
              do ir <- instance W arg rgt ;
              if (ir : bool) then
                do ' (o, nt) <- order_desperately fuel W lft rgt arg ;
                if bool_decide (o = OAmbiguous) then Val (o, nt)
                else order_desperately fuel W t1 nt arg
              else order_desperately fuel W t1 lft arg
            else
              do ir <- instance W arg rgt ;
              if (ir : bool) then order_desperately fuel W t1 rgt arg
              else Signal "You shouldn't get here either!"
        | _, _ => order_specializers W t1 t2 arg
        end
  end.

(** discrimination.dylan:994-1020 [%order-methods], the loop. *)
Fixpoint order_methods_loop (W : world) (s1 s2 : list ty) (args : list obj) (state : order) : outcome order :=
  match s1, s2, args with
  | [], _, _ => Val state
  | t1 :: s1', t2 :: s2', a :: args' =>
      do ' (cmp, _) <- order_specializers W t1 t2 a ;
      if bool_decide (cmp = OEqual) then order_methods_loop W s1' s2' args' state
      else if bool_decide (cmp <> OAmbiguous) && (bool_decide (state = OEqual) || bool_decide (cmp = state))
      then order_methods_loop W s1' s2' args' cmp
      else Val OAmbiguous
  | _, _, _ => UB
  end.
Definition order_methods (W : world) (m1 m2 : meth) (args : list obj) : outcome order :=
  order_methods_loop W (m_specs m1) (m_specs m2) args OEqual.

(** discrimination.dylan:964-992: the comparison of one position, and the loop of
    [%order-methods-desperately]. *)
Definition order_position (W : world) (t1 t2 : ty) (a : obj) : outcome order :=
  do ' (cmp0, _) <- order_specializers W t1 t2 a ;
  if bool_decide (cmp0 = OAmbiguous) then
    do ' (cmp, _) <- order_desperately (ty_size t1 + ty_size t2) W t1 t2 a ; Val cmp
  else Val cmp0.
Fixpoint order_methods_desperately_loop (W : world) (s1 s2 : list ty) (args : list obj) (ambigp : bool)
  : outcome order :=
  match s1, s2, args with
  | [], _, _ => Val (if ambigp then OAmbiguous else OEqual)
  | t1 :: s1', t2 :: s2', a :: args' =>
      do cmp <- order_position W t1 t2 a ;
      match cmp with
      | OLess | OGreater => Val cmp
      | _ => order_methods_desperately_loop W s1' s2' args' (ambigp || bool_decide (cmp = OAmbiguous))
      end
  | _, _, _ => UB
  end.
Definition order_methods_desperately (W : world) (m1 m2 : meth) (args : list obj) : outcome order :=
  order_methods_desperately_loop W (m_specs m1) (m_specs m2) args false.

(** * Sorting: discrimination.dylan:860-928 [compute-sorted-applicable-methods-1] *)

Section sorting.
  Context (cmp : meth -> meth -> outcome order).

  (** 881-892 [precedes-all?]. *)
  Fixpoint precedes_all (m : meth) (l : list meth) : outcome bool :=
    match l with
    | [] => Val true
    | x :: l' => do o <- cmp m x ; if bool_decide (o = OLess) then precedes_all m l' else Val false
    end.

  (** 869-880 [make-ambiguous]: the ordered methods from here on, one after the other,
      and then the method itself go to the front of the ambiguous ones. *)
  Definition make_ambiguous (m : meth) (rest ambig : list meth) : list meth * list meth :=
    ([], m :: rev rest ++ ambig).

  (** 893-899 [check-subsequent-ambiguities]. *)
  Definition check_subsequent (m : meth) (rest ambig : list meth) : outcome (list meth * list meth) :=
    do a <- precedes_all m rest ;
    if (a : bool) then
      do b <- precedes_all m ambig ;
      Val (if (b : bool) then (m :: rest, ambig) else make_ambiguous m rest ambig)
    else Val (make_ambiguous m rest ambig).

  (** 900-917 [insert]: the new ordered methods from here on, and the ambiguous ones. *)
  Fixpoint insert_method (m : meth) (osub ambig : list meth) : outcome (list meth * list meth) :=
    match osub with
    | [] => check_subsequent m [] ambig
    | x :: rest =>
        do indic <- cmp m x ;
        match indic with
        | OLess => check_subsequent m osub ambig
        | OGreater => do ' (o, a) <- insert_method m rest ambig ; Val (x :: o, a)
        | OEqual => Val (osub, ambig)
        | OAmbiguous => Val (make_ambiguous m osub ambig)
        end
    end.

  (** 863-927, the loop. *)
  Fixpoint sort_methods (ms ordered ambig : list meth) : outcome (list meth * list meth) :=
    match ms with
    | [] => Val (ordered, ambig)
    | m :: ms' =>
        do ' (o, a) <- insert_method m ordered ambig ;
        sort_methods ms' o a
    end.
End sorting.

(** discrimination.dylan:834-846 [sort-applicable-methods], [-desperately]. *)
Definition sort_applicable (W : world) (ms : list meth) (args : list obj) : outcome (list meth * list meth) :=
  sort_methods (fun m1 m2 => order_methods W m1 m2 args) ms [] [].
Definition sort_desperately (W : world) (ms : list meth) (args : list obj) : outcome (list meth * list meth) :=
  sort_methods (fun m1 m2 => order_methods_desperately W m1 m2 args) ms [] [].

(** discrimination.dylan:818-832 [%method-applicable?]. *)
Fixpoint applicable_loop (W : world) (specs : list ty) (args : list obj) : outcome bool :=
  match args, specs with
  | [], _ => Val true
  | a :: args', t :: specs' =>
      do b <- instance W a t ; if (b : bool) then applicable_loop W specs' args' else Val false
  | _ :: _, [] => UB
  end.
Definition method_applicable (W : world) (m : meth) (args : list obj) : outcome bool :=
  applicable_loop W (m_specs m) args.

(** discrimination.dylan:849-857 [compute-sorted-applicable-methods]
    (= [sorted-applicable-methods] of the language). *)
Fixpoint applicable_methods (W : world) (ms : list meth) (args : list obj) (ans : list meth)
  : outcome (list meth) :=
  match ms with
  | [] => Val ans
  | m :: ms' =>
      do b <- method_applicable W m args ;
      applicable_methods W ms' args (if (b : bool) then m :: ans else ans)
  end.
Definition sorted_applicable_methods (W : world) (ms : list meth) (args : list obj)
  : outcome (list meth * list meth) :=
  do app <- applicable_methods W ms args [] ;
  sort_applicable W app args.

(** * The terminal of a dispatch *)

(** A generic function: the number of required arguments, its methods, its keyword
    mode, and the argument positions to look at first (a mask computed by
    dispatch-caches.dylan:87-127 or by the compiler and kept in [%gf-cache]; here any
    list of positions, in ascending order). *)
Inductive keymode := NoKeys | SomeKeys | AllKeys.
Record gfun := Gf { g_nreq : nat; g_methods : list meth; g_keys : keymode; g_first : list nat }.

(** discrimination.dylan:639-675 [determine-call-keywords]: [None] is #f, [Some None] #t. *)
Fixpoint merge_keys (ks ans : list nat) : list nat :=
  match ks with
  | [] => ans
  | k :: ks' => merge_keys ks' (if bool_decide (k ∈ ans) then ans else k :: ans)
  end.
Fixpoint call_keywords_loop (ms : list meth) (ans : list nat) : option (list nat) :=
  match ms with
  | [] => Some ans
  | m :: ms' =>
      match m_keys m with
      | None => None
      | Some ks => call_keywords_loop ms' (merge_keys ks ans)
      end
  end.
Definition call_keywords (g : gfun) (ms : list meth) : option (option (list nat)) :=
  match g_keys g with
  | AllKeys => Some None
  | SomeKeys => Some (call_keywords_loop ms [])
  | NoKeys => None
  end.

(** The next-method chain of a method: the methods that follow, and whether the chain
    ends with the ambiguous-methods next method. *)
Record chain := Chain { ch_methods : list meth; ch_ambiguous : option (list meth * list meth) }.

(** What a terminal node of the engine does: run a method with a next-method chain and
    a set of keywords, or signal that the methods are ambiguous. *)
Inductive terminal :=
| TMethod (m : meth) (next : chain) (keys : option (option (list nat)))
| TAmbiguous (ordered ambig : list meth).

(** <ambiguous-methods-warning>: the ordered methods before the group, and the group. *)
Record warning := Warning { wn_ordered : list meth; wn_ambiguous : list meth }.

(** discrimination.dylan:773-815 [transmogrify-method-list-tail-grounded], with
    [kludge? = #f]. *)
Fixpoint chain_plain (ordered sub ambig : list meth) : chain :=
  match sub with
  | [] => match ambig with [] => Chain [] None | _ => Chain [] (Some (ordered, ambig)) end
  | m :: sub' =>
      let more := if m_next m then chain_plain ordered sub' ambig else Chain [] None in
      Chain (m :: ch_methods more) (ch_ambiguous more)
  end.
(** The same with [kludge? = #t]: an ambiguous rest is sorted desperately. *)
Fixpoint chain_kludge (W : world) (args : list obj) (ordered sub ambig : list meth)
  : outcome (chain * list warning) :=
  match sub with
  | [] =>
      match ambig with
      | [] => Val (Chain [] None, [])
      | _ =>
          do ' (nordered, nambig) <- sort_desperately W ambig args ;
          Val (chain_plain ordered nordered nambig,
               match nordered with [] => [] | _ => [Warning ordered ambig] end)
      end
  | m :: sub' =>
      do ' (more, ws) <- (if m_next m then chain_kludge W args ordered sub' ambig
                          else Val (Chain [] None, [])) ;
      Val (Chain (m :: ch_methods more) (ch_ambiguous more), ws)
  end.

(** discrimination.dylan:714-770 [transmogrify-method-list-grounded], [kludge? = #f].
    [None] is [dispinapplicable]. *)
Definition terminal_plain (ordered ambig : list meth) keys : option terminal :=
  match ordered with
  | [] => match ambig with [] => None | _ => Some (TAmbiguous ordered ambig) end
  | m :: rest =>
      Some (TMethod m (if m_next m then chain_plain ordered rest ambig else Chain [] None) keys)
  end.
(** [kludge? = #t]. *)
Definition terminal_kludge (W : world) (args : list obj) (ordered ambig : list meth) keys
  : outcome (option terminal * list warning) :=
  match ordered with
  | [] =>
      match ambig with
      | [] => Val (None, [])
      | _ =>
          do ' (nordered, nambig) <- sort_desperately W ambig args ;
          Val (terminal_plain nordered nambig keys,
               match nordered with [] => [] | _ => [Warning [] ambig] end)
      end
  | m :: rest =>
      do ' (more, ws) <- (if m_next m then chain_kludge W args ordered rest ambig
                          else Val (Chain [] None, [])) ;
      Val (Some (TMethod m more keys), ws)
  end.

(** discrimination.dylan:677-710 [compute-terminal-engine-node], for the methods left. *)
Definition compute_terminal (W : world) (g : gfun) (ms : list meth) (args : list obj)
  : outcome (option terminal * list warning) :=
  do ' (ordered, ambig) <- sort_applicable W ms args ;
  terminal_kludge W args ordered ambig (call_keywords g ms).

(** * The dispatch engine *)

(** Nodes of the engine (new-dispatch.dylan).  A class-keyed discriminator (monomorphic,
    linear or hashed by the address of the class wrapper, new-dispatch.dylan:600-1150) is
    a map from classes, absent where no entry has been made.  A typecheck discriminator
    is an if-type discriminator whose other branch is [EInapplicable].  A linear
    singleton discriminator has its keys, the position tried first ([lsd-index]), the
    engine of each position and the default. *)
Inductive engine :=
| EAbsent
| EInapplicable
| ETerminal (t : terminal)
| EByClass (argnum : nat) (table : cid -> engine)
| EBySingletonClass (argnum : nat) (table : cid -> engine)
| EIfType (argnum : nat) (t : ty) (thend elsed : engine)
| ETypecheck (argnum : nat) (t : ty) (next : engine)
| ESingleton (argnum : nat) (value_object : bool) (keys : list obj) (index : nat)
    (entries : nat -> engine) (dflt : engine).

Definition fupdate {A} (f : nat -> A) (k : nat) (v : A) : nat -> A :=
  fun k' => if k' =? k then v else f k'.

(** comparison.dylan:13-16 [value-object?]. *)
Definition is_value_object (W : world) (x : obj) : bool :=
  match x with OOther c _ _ => value_class W c | _ => false end.

(** new-dispatch.dylan:1281-1307 and 1331-1357: the comparison of a key with the
    argument.  [=] on objects of two classes: only used below a by-class discriminator,
    where both have the same class. *)
Definition key_hit (W : world) (vo : bool) (k x : obj) : bool :=
  if vo then bool_decide (class_of W k = class_of W x) && equal_same_class W k x
  else pointer_id k x.

(** new-dispatch.dylan:1281-1307, 1331-1357: the search goes around from [index].  The
    position found, if any. *)
Fixpoint singleton_loop (fuel : nat) (W : world) (vo : bool) (keys : list obj) (i : nat) (x : obj)
  : outcome (option nat) :=
  match fuel with
  | O => Val None
  | S fuel =>
      do k <- vread keys i ;
      if key_hit W vo k x then Val (Some i)
      else singleton_loop fuel W vo keys (if S i =? length keys then 0 else S i) x
  end.
Definition singleton_lookup (W : world) (vo : bool) (keys : list obj) (index : nat) (x : obj)
  : outcome (option nat) :=
  singleton_loop (length keys) W vo keys index x.

(** new-dispatch.dylan:1360-1377 [linear-singleton-discriminator-element-setter]: the
    position of the first key [==] to the argument. *)
Fixpoint setter_position (W : world) (keys : list obj) (x : obj) (i : nat) : outcome nat :=
  match keys with
  | [] => Signal "key not found"
  | k :: keys' => if id_equal W k x then Val i else setter_position W keys' x (S i)
  end.

(** Running an engine on the arguments: what it ends in, and the engine afterwards (the
    positions tried first by singleton discriminators change). *)
Inductive landing := Hit (t : terminal) | Inapplicable | Miss.

Fixpoint run_engine (W : world) (args : list obj) (e : engine) : outcome (landing * engine) :=
  match e with
  | EAbsent => Val (Miss, e)
  | EInapplicable => Val (Inapplicable, e)
  | ETerminal t => Val (Hit t, e)
  | EByClass i f =>
      do x <- arg_at args i ;
      do ' (r, e') <- run_engine W args (f (class_of W x)) ;
      Val (r, EByClass i (fupdate f (class_of W x) e'))
  | EBySingletonClass i f =>
      do x <- arg_at args i ;
      match x with
      | OClass d =>
          do ' (r, e') <- run_engine W args (f d) ;
          Val (r, EBySingletonClass i (fupdate f d e'))
      | _ => Signal "type-error"
      end
  | EIfType i t e1 e2 =>
      do x <- arg_at args i ;
      do b <- instance W x t ;
      if (b : bool) then
        do ' (r, e') <- run_engine W args e1 ; Val (r, EIfType i t e' e2)
      else
        do ' (r, e') <- run_engine W args e2 ; Val (r, EIfType i t e1 e')
  | ETypecheck i t e1 =>
      do x <- arg_at args i ;
      do b <- instance W x t ;
      if (b : bool) then
        do ' (r, e') <- run_engine W args e1 ; Val (r, ETypecheck i t e')
      else Val (Inapplicable, e)
  | ESingleton i vo keys index f d =>
      do x <- arg_at args i ;
      do found <- singleton_lookup W vo keys index x ;
      match found with
      | Some j =>
          do ' (r, e') <- run_engine W args (f j) ;
          Val (r, ESingleton i vo keys j (fupdate f j e') d)
      | None =>
          do ' (r, e') <- run_engine W args d ;
          Val (r, ESingleton i vo keys index f e')
      end
  end.

(** * Building the engine *)

(** <dispatch-state> (new-dispatch.dylan:1437-1448): the methods left, the positions
    already discriminated, those to look at first, the result if it is
    [$inapplicable-engine-node], and the warnings. *)
Record dstate := DS {
  ds_methods : list meth; ds_argnums : list nat; ds_first : list nat;
  ds_inapplicable : bool; ds_warnings : list warning }.

(** dispatch-prologue.dylan:189-206 [argnum-considered?]. *)
Fixpoint argnum_considered (i : nat) (l : list nat) : bool :=
  match l with
  | [] => false
  | j :: l' => if j =? i then true else if i <? j then false else argnum_considered i l'
  end.
(** dispatch-prologue.dylan:210-234 [add-argnum]. *)
Fixpoint add_argnum (i : nat) (l : list nat) : list nat :=
  match l with
  | [] => [i]
  | j :: l' => if j =? i then l else if i <? j then i :: l else j :: add_argnum i l'
  end.
(** dispatch-prologue.dylan:244-270 [next-free-argnum], from the start. *)
Fixpoint next_free (next : nat) (l : list nat) : nat :=
  match l with
  | j :: l' => if j =? next then next_free (S next) l' else next
  | [] => next
  end.

(** discrimination.dylan:49-68 [consider-arg-discriminated]. *)
Fixpoint filter_instances (W : world) (i : nat) (x : obj) (ms : list meth) : outcome (list meth) :=
  match ms with
  | [] => Val []
  | m :: ms' =>
      do t <- spec_at m i ;
      do b <- instance W x t ;
      do rest <- filter_instances W i x ms' ;
      Val (if (b : bool) then m :: rest else rest)
  end.
Definition consider (W : world) (i : nat) (x : obj) (ds : dstate) : outcome dstate :=
  do ms <- filter_instances W i x (ds_methods ds) ;
  Val (DS ms (add_argnum i (ds_argnums ds)) (ds_first ds) (ds_inapplicable ds) (ds_warnings ds)).

(** dispatch.dylan:200-224 [grounded-has-instances?] and the [has-instances?] of
    union.dylan:218-224, singleton.dylan:163-170, subclass.dylan:171-176,
    limited-integer.dylan:173-177 and class.dylan:949-959. *)
Fixpoint has_instances2 (W : world) (c : cid) (t : ty) : outcome (bool * bool) :=
  match t with
  | TClass d => do b <- subclass (w_classes W) c d ; Val (b, b)
  | TSing o => do b <- subclass (w_classes W) (class_of W o) c ; Val (b, false)
  | TUnion a b =>
      do ' (some1, all1) <- has_instances2 W c a ;
      do ' (some2, all2) <- has_instances2 W c b ;
      Val (some1 || some2, all1 || all2)
  | TSubclass d =>
      do b <- subclass (w_classes W) c (w_class W) ;
      Val (b, b && (d =? object_class))
  | TLimInt _ _ =>
      do b <- oor (subclass (w_classes W) (w_integer W) c) (subclass (w_classes W) c (w_integer W)) ;
      Val (b, false)
  end.
Definition grounded_has_instances (W : world) (c : cid) (t : ty) : outcome (bool * bool) :=
  match t with
  | TSing o => Val (c =? class_of W o, false)
  | _ => has_instances2 W c t
  end.

(** discrimination.dylan:22-44 [prune-methods-by-known-class]. *)
Fixpoint prune_loop (W : world) (i : nat) (c : cid) (ms : list meth) : outcome (list meth * bool) :=
  match ms with
  | [] => Val ([], true)
  | m :: ms' =>
      do t <- spec_at m i ;
      do ' (some, all) <- grounded_has_instances W c t ;
      do ' (rest, allall) <- prune_loop W i c ms' ;
      Val (if (some : bool) then (m :: rest, all && allall) else (rest, allall))
  end.
Definition prune (W : world) (i : nat) (c : cid) (ds : dstate) : outcome (bool * dstate) :=
  do ' (ms, allall) <- prune_loop W i c (ds_methods ds) ;
  Val (allall, DS ms (ds_argnums ds) (ds_first ds) (ds_inapplicable ds) (ds_warnings ds)).

(** discrimination.dylan:237-267 [select-next-arg-for-discrimination].  [moop] goes over
    the bits of the mask, here its positions. *)
Fixpoint moop (l : list nat) (argnums : list nat) : option (nat * list nat) :=
  match l with
  | [] => None
  | i :: l' => if argnum_considered i argnums then moop l' argnums else Some (i, l)
  end.
Definition select_next_arg (nreq : nat) (ds : dstate) : option nat * dstate :=
  let keep first := DS (ds_methods ds) (ds_argnums ds) first (ds_inapplicable ds) (ds_warnings ds) in
  match moop (ds_first ds) (ds_argnums ds) with
  | Some (i, l) => (Some i, keep l)
  | None =>
      let i := next_free 0 (ds_argnums ds) in
      (if i <? nreq then Some i else None, keep [])
  end.

(** new-dispatch.dylan:1463-1482 [dispinapplicable], [dispresult]. *)
Definition dispinapplicable (ds : dstate) : outcome (engine * dstate) :=
  if ds_inapplicable ds then Signal "Bug!  Multiple dispatch results?"
  else Val (EAbsent, DS (ds_methods ds) (ds_argnums ds) (ds_first ds) true (ds_warnings ds)).

(** discrimination.dylan:1222-1246 [same-specializer?]; [s1 == s2] as in
    [order_specializers]. *)
Definition same_specializer (W : world) (s1 s2 : ty) : outcome bool :=
  match s1 with
  | TClass _ => Val (bool_decide (s1 = s2))
  | TSing o1 => match s2 with TSing o2 => Val (id_equal W o1 o2) | _ => Val false end
  | TSubclass c1 => match s2 with TSubclass c2 => Val (c1 =? c2) | _ => Val false end
  | _ => if bool_decide (s1 = s2) then Val true else oand (subtype W s1 s2) (subtype W s2 s1)
  end.

(** discrimination.dylan:577-589 [secondary-dispatch-specializer?]. *)
Fixpoint secondary (W : world) (t : ty) (c : cid) : outcome bool :=
  match t with
  | TUnion a b => oor (secondary W a c) (secondary W b c)
  | _ => do ' (some, all) <- grounded_has_instances W c t ; Val (some && negb all)
  end.

(** discrimination.dylan:592-637 [ponder-this-arg].  The type known of an argument is
    <object> (nothing sets [%ds-argtypes]), for which [concrete-subtype?]
    (dispatch.dylan:155-188) is [subtype?].  [subtype-exception]: none, one type, many. *)
Inductive exception := ExNone | ExOne (t : ty) | ExMany.
Record pondered := Pondered { p_secondary : bool; p_all : bool; p_some : bool; p_exception : exception }.
Fixpoint ponder_loop (W : world) (i : nat) (c : cid) (ms : list meth) (p : pondered) : outcome pondered :=
  match ms with
  | [] => Val p
  | m :: ms' =>
      do t <- spec_at m i ;
      do sec <- (if p_secondary p then Val true else secondary W t c) ;
      do sub <- subtype W (TClass object_class) t ;
      if (sub : bool) then ponder_loop W i c ms' (Pondered sec (p_all p) true (p_exception p))
      else
        do ex <- match p_exception p with
                 | ExNone => Val (ExOne t)
                 | ExMany => Val ExMany
                 | ExOne t0 => do same <- same_specializer W t0 t ; Val (if (same : bool) then ExOne t else ExMany)
                 end ;
        ponder_loop W i c ms' (Pondered sec false (p_some p) ex)
  end.
Definition ponder (W : world) (i : nat) (c : cid) (ms : list meth) : outcome pondered :=
  ponder_loop W i c ms (Pondered false true false ExNone).

(** discrimination.dylan:455-486 [ponder-a-specializer]. *)
Record sorts := Sorts { so_subclass : bool; so_singletons : list obj; so_others : list ty }.
Fixpoint ponder_specializer (W : world) (t : ty) (c : cid) (s : sorts) : outcome sorts :=
  match t with
  | TClass _ => Val s
  | TSing o =>
      Val (if class_of W o =? c then Sorts (so_subclass s) (o :: so_singletons s) (so_others s) else s)
  | TSubclass _ => Val (Sorts true (so_singletons s) (so_others s))
  | TUnion a b => do s' <- ponder_specializer W a c s ; ponder_specializer W b c s'
  | TLimInt _ _ =>
      do ' (some, _) <- grounded_has_instances W c t ;
      Val (if (some : bool) then Sorts (so_subclass s) (so_singletons s) (t :: so_others s) else s)
  end.
Fixpoint ponder_specializers (W : world) (i : nat) (c : cid) (ms : list meth) (s : sorts) : outcome sorts :=
  match ms with
  | [] => Val s
  | m :: ms' =>
      do t <- spec_at m i ;
      do s' <- ponder_specializer W t c s ;
      ponder_specializers W i c ms' s'
  end.

(** discrimination.dylan:489-526 [compute-default-subdiscriminator]. *)
Fixpoint subsumed (W : world) (t : ty) (l : list ty) : outcome bool :=
  match l with
  | [] => Val false
  | t' :: l' => oor (subtype W t t') (subsumed W t l')
  end.
Definition is_absent (e : engine) : bool := match e with EAbsent => true | _ => false end.
Fixpoint default_loop (W : world) (i : nat) (x : obj) (specs tl fl : list ty) (nextd : engine)
  : outcome engine :=
  match specs with
  | [] => Val nextd
  | t :: specs' =>
      do ' (thend, elsed) <-
         (if is_absent nextd then Val (nextd, nextd)
          else do b <- instance W x t ; Val (if (b : bool) then (nextd, EAbsent) else (EAbsent, nextd))) ;
      do st <- subsumed W t tl ;
      if (st : bool) then default_loop W i x specs' tl fl thend
      else
        do sf <- subsumed W t fl ;
        if (sf : bool) then default_loop W i x specs' tl fl elsed
        else
          do e1 <- default_loop W i x specs' (t :: tl) fl thend ;
          do e2 <- default_loop W i x specs' tl (t :: fl) elsed ;
          Val (EIfType i t e1 e2)
  end.
Definition default_subdiscriminator (W : world) (i : nat) (x : obj) (specs : list ty) (nextd : engine)
  : outcome engine :=
  default_loop W i x specs [] [] nextd.

Definition absent_table : nat -> engine := fun _ => EAbsent.

(** discrimination.dylan:415-452, the end of [compute-subdiscriminator-for-arg], when the
    engine for the rest is known. *)
Fixpoint member_id (W : world) (x : obj) (l : list obj) : bool :=
  match l with [] => false | y :: l' => id_equal W x y || member_id W x l' end.
Definition build_subdiscriminator (W : world) (i : nat) (x : obj) (c : cid) (s : sorts) (nextd : engine)
  : outcome engine :=
  do cls <- (if so_subclass s then Val true
             else match so_singletons s with
                  | [] => Val false
                  | _ => subclass (w_classes W) c (w_class W)
                  end) ;
  if (cls : bool) then
    match x with
    | OClass d => Val (EBySingletonClass i (fupdate absent_table d nextd))
    | _ => Signal "type-error"
    end
  else
    match so_singletons s with
    | [] => default_subdiscriminator W i x (so_others s) nextd
    | k0 :: _ =>
        let vo := is_value_object W k0 in
        let keys := so_singletons s in
        if member_id W x keys then
          do j <- setter_position W keys x 0 ;
          Val (ESingleton i vo keys j (fupdate absent_table j nextd) EAbsent)
        else
          do d <- default_subdiscriminator W i x (so_others s) nextd ;
          Val (ESingleton i vo keys 0 absent_table d)
    end.

(** discrimination.dylan:389-401 [compute-more-dispatch-engine], 404-452
    [compute-subdiscriminator-for-arg] and 529-574 [compute-discriminator-for-arg].  The
    fuel is the number of positions left. *)
Fixpoint compute_more (fuel : nat) (W : world) (g : gfun) (args : list obj) (ds : dstate)
  : outcome (engine * dstate) :=
  match fuel with
  | O => NoFuel
  | S fuel =>
      let sub i x c ds :=
        do s <- ponder_specializers W i c (ds_methods ds) (Sorts false [] []) ;
        do ds1 <- consider W i x ds ;
        do ' (nextd, ds2) <- compute_more fuel W g args ds1 ;
        do e <- build_subdiscriminator W i x c s nextd ;
        Val (e, ds2) in
      let '(argnum, ds) := select_next_arg (g_nreq g) ds in
      match argnum with
      | None =>
          do ' (t, ws) <- compute_terminal W g (ds_methods ds) args ;
          let ds1 := DS (ds_methods ds) (ds_argnums ds) (ds_first ds) (ds_inapplicable ds) (ws ++ ds_warnings ds) in
          match t with
          | Some t => Val (ETerminal t, ds1)
          | None => dispinapplicable ds1
          end
      | Some i =>
          do x <- arg_at args i ;
          let c := class_of W x in
          match ds_methods ds with
          | [] => dispinapplicable ds
          | _ =>
              do p <- ponder W i c (ds_methods ds) ;
              if p_all p then
                do ds1 <- consider W i x ds ;
                compute_more fuel W g args ds1
              else
                match p_exception p with
                | ExNone | ExMany =>
                    do ' (nextd, ds2) <-
                       (if p_secondary p then
                          do ' (_, ds1) <- prune W i c ds ;
                          sub i x c ds1
                        else
                          do ds1 <- consider W i x ds ;
                          compute_more fuel W g args ds1) ;
                    Val (EByClass i (fupdate absent_table c nextd), ds2)
                | ExOne t =>
                    do ds1 <- consider W i x ds ;
                    do ' (nextd, ds2) <- compute_more fuel W g args ds1 ;
                    if p_some p then
                      do b <- instance W x t ;
                      Val (if (b : bool) then EIfType i t nextd EAbsent else EIfType i t EAbsent nextd, ds2)
                    else Val (ETypecheck i t nextd, ds2)
                end
          end
      end
  end.

(** discrimination.dylan:404-452 [compute-subdiscriminator-for-arg], as called by
    [walk-existing-dispatch-engine]. *)
Definition compute_subdiscriminator (fuel : nat) (W : world) (g : gfun) (args : list obj)
    (i : nat) (x : obj) (c : cid) (ds : dstate) : outcome (engine * dstate) :=
  do s <- ponder_specializers W i c (ds_methods ds) (Sorts false [] []) ;
  do ds1 <- consider W i x ds ;
  do ' (nextd, ds2) <- compute_more fuel W g args ds1 ;
  do e <- build_subdiscriminator W i x c s nextd ;
  Val (e, ds2).

(** discrimination.dylan:270-386 [walk-existing-dispatch-engine]. *)
Fixpoint walk (W : world) (g : gfun) (args : list obj) (e : engine) (ds : dstate)
  : outcome (engine * dstate) :=
  let fuel := S (g_nreq g) in
  match e with
  | EAbsent => compute_more fuel W g args ds
  | EInapplicable | ETerminal _ => Val (e, ds)
  | EByClass i f =>
      do x <- arg_at args i ;
      let c := class_of W x in
      do ' (allall, ds1) <- prune W i c ds ;
      do ' (e', ds2) <-
         (if allall || negb (is_absent (f c)) then
            do ds2 <- consider W i x ds1 ;
            walk W g args (f c) ds2
          else compute_subdiscriminator fuel W g args i x c ds1) ;
      Val (EByClass i (fupdate f c e'), ds2)
  | EBySingletonClass i f =>
      do x <- arg_at args i ;
      do ds1 <- consider W i x ds ;
      match x with
      | OClass d =>
          do ' (e', ds2) <- walk W g args (f d) ds1 ;
          Val (EBySingletonClass i (fupdate f d e'), ds2)
      | _ => Signal "type-error"
      end
  | EIfType i t e1 e2 =>
      do x <- arg_at args i ;
      do ds1 <- consider W i x ds ;
      do b <- instance W x t ;
      if (b : bool) then
        do ' (e', ds2) <- walk W g args e1 ds1 ; Val (EIfType i t e' e2, ds2)
      else
        do ' (e', ds2) <- walk W g args e2 ds1 ; Val (EIfType i t e1 e', ds2)
  | ETypecheck i t e1 =>
      do x <- arg_at args i ;
      do ds1 <- consider W i x ds ;
      do b <- instance W x t ;
      if (b : bool) then
        do ' (e', ds2) <- walk W g args e1 ds1 ; Val (ETypecheck i t e', ds2)
      else Signal "Method list incorrectly pruned?"
  | ESingleton i vo keys index f d =>
      do x <- arg_at args i ;
      do ds1 <- consider W i x ds ;
      do found <- singleton_lookup W vo keys index x ;
      match found with
      | Some j =>
          do ' (e', ds2) <- walk W g args (f j) ds1 ;
          do j' <- setter_position W keys x 0 ;
          Val (ESingleton i vo keys j' (fupdate f j' e') d, ds2)
      | None =>
          do ' (e', ds2) <- walk W g args d ds1 ;
          Val (ESingleton i vo keys index f e', ds2)
      end
  end.

(** * Calls *)

(** What a call does first: the warnings signalled on the way, and then the terminal, or
    the no-applicable-method error. *)
Record call_result := Called { cr_warnings : list warning; cr_terminal : option terminal }.

(** new-dispatch.dylan:1486-1530 [handle-missed-dispatch], discrimination.dylan:111-130
    [handle-standard-dispatch-miss], [compute-dispatch-from-root]; a call runs the engine
    of the generic function, and a miss extends the engine and runs it again.  The fuel
    bounds the number of misses in one call. *)
Fixpoint call (fuel : nat) (W : world) (g : gfun) (e : engine) (args : list obj)
  : outcome (call_result * engine) :=
  do ' (r, e1) <- run_engine W args e ;
  match r with
  | Hit t => Val (Called [] (Some t), e1)
  | Inapplicable => Val (Called [] None, e1)
  | Miss =>
      match fuel with
      | O => NoFuel
      | S fuel =>
          do ' (e2, ds) <- walk W g args e1 (DS (g_methods g) [] (g_first g) false []) ;
          if ds_inapplicable ds then Val (Called (rev (ds_warnings ds)) None, e2)
          else
            do ' (r, e3) <- call fuel W g e2 args ;
            Val (Called (rev (ds_warnings ds) ++ cr_warnings r) (cr_terminal r), e3)
      end
  end.

(** * Adding methods *)

(** generic-function.dylan:224-243 [locate-method]. *)
Fixpoint same_specializers (W : world) (s1 s2 : list ty) : outcome bool :=
  match s1, s2 with
  | _, [] => Val true
  | t1 :: s1', t2 :: s2' => oand (same_specializer W t1 t2) (same_specializers W s1' s2')
  | [], _ => UB
  end.
(** generic-function.dylan:364-420 [add-method-internal-internal]: a method on the same
    specializers is replaced in place, another one goes to the front (439-452, a generic
    function that records the libraries of its methods).  The engine is dropped
    (163-175 [decache-gf]). *)
Fixpoint replace_method (W : world) (ms : list meth) (m : meth) : outcome (option (list meth)) :=
  match ms with
  | [] => Val None
  | m' :: ms' =>
      do b <- same_specializers W (m_specs m') (m_specs m) ;
      if (b : bool) then Val (Some (m :: ms'))
      else do r <- replace_method W ms' m ; Val (option_map (cons m') r)
  end.
Definition add_method (W : world) (g : gfun) (m : meth) : outcome gfun :=
  do r <- replace_method W (g_methods g) m ;
  Val (Gf (g_nreq g) (match r with Some ms => ms | None => m :: g_methods g end) (g_keys g) (g_first g)).

(** A history of a generic function: calls and additions of methods.  An error in a call
    leaves the engine as it was. *)
Inductive event := Call (args : list obj) | AddMethod (m : meth).
Definition call_fuel : nat := 8.
Fixpoint run_history (W : world) (g : gfun) (e : engine) (evs : list event)
  : list (list obj * outcome call_result) * gfun * engine :=
  match evs with
  | [] => ([], g, e)
  | Call args :: evs' =>
      match call call_fuel W g e args with
      | Val (r, e') =>
          let '(l, g', e'') := run_history W g e' evs' in ((args, Val r) :: l, g', e'')
      | Signal s => let '(l, g', e'') := run_history W g e evs' in ((args, Signal s) :: l, g', e'')
      | UB => let '(l, g', e'') := run_history W g e evs' in ((args, UB) :: l, g', e'')
      | NoFuel => let '(l, g', e'') := run_history W g e evs' in ((args, NoFuel) :: l, g', e'')
      end
  | AddMethod m :: evs' =>
      match add_method W g m with
      | Val g' => run_history W g' EAbsent evs'
      | _ => run_history W g e evs'
      end
  end.
