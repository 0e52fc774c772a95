(** Model of run-time class creation: class precedence lists, the reversed
    precedence lists (rcpl) behind [subclass?] and [instance?], and the joint-class
    information behind [disjoint-types?].

    Sources: dylan/class-dynamic.dylan, dylan/class.dylan and the load-time part of
    dfmc/conversion/define-class.dylan.  A class is its index in the table of
    implementation classes; 0 is <object>.  Simplifications: slots, keywords,
    sealing, dispatch keys, subtype masks (the handful of built-in classes with a
    [class-subtype-bit]), incomplete classes and class redefinition (the
    subjunctive universe is the empty one) are left out. *)
From Verif Require Import Base.
Local Open Scope outcome_scope.

Notation cid := nat (only parsing).
Definition object_class : cid := 0.

(** class.dylan:20-60 <implementation-class>, the slots used here. *)
Record iclass := IClass {
  direct_supers : list cid;       (* direct-superclasses *)
  all_supers : list cid;          (* all-superclasses, the precedence list *)
  rcpl_vector : list (option cid);
  rcpl_position : Z;
  rcpl_others : list Z;           (* class-rcpl-other-positions *)
  primary : bool;                 (* class-primary? *)
  known_joint : list cid }.       (* class-known-joint *)

Notation cstate := (list iclass) (only parsing).

(** class-implementation-class: every class mentioned exists. *)
Definition iclass_of (st : cstate) (c : cid) : outcome iclass := vread st c.

(** [member?] on a list of classes. *)
Definition member (x : cid) (l : list cid) : bool := bool_decide (x ∈ l).

(** class-dynamic.dylan:584-590 [candidate]: not in the tail of any list. *)
Definition candidate (lists : list (list cid)) (s : cid) : bool :=
  negb (existsb (fun l => member s (tail l)) lists).

(** class-dynamic.dylan:592-596 [any?(candidate-at-head, remaining-lists)]. *)
Fixpoint next_candidate (lists ls : list (list cid)) : option cid :=
  match ls with
  | [] => None
  | [] :: ls' => next_candidate lists ls'
  | (s :: _) :: ls' => if candidate lists s then Some s else next_candidate lists ls'
  end.

(** class-dynamic.dylan:599-601 [remove-next]. *)
Definition remove_next (n : cid) (l : list cid) : list cid :=
  match l with
  | [] => []
  | x :: l' => if bool_decide (x = n) then l' else l
  end.

(** class-dynamic.dylan:578 [every?(empty?, remaining-lists)]. *)
Definition all_empty (lists : list (list cid)) : bool :=
  forallb (fun l => match l with [] => true | _ => false end) lists.

(** class-dynamic.dylan:576-609 [merge-lists]; [partial] is reversed. *)
Fixpoint merge_lists (fuel : nat) (partial : list cid) (lists : list (list cid))
    : outcome (list cid) :=
  match fuel with
  | O => NoFuel
  | S fuel' =>
      if all_empty lists then Val (rev partial)
      else match next_candidate lists lists with
           | Some n => merge_lists fuel' (n :: partial) (map (remove_next n) lists)
           | None => Signal "inconsistent-precedence-class-error"
           end
  end.

(** Rounds: one per element left, and the last. *)
Definition merge_fuel (lists : list (list cid)) : nat := S (length (concat lists)).

(** class-dynamic.dylan:612-613, class.dylan:177-179 [all-iclass-superclasses]:
    the precedence lists of the direct superclasses. *)
Fixpoint super_lists (st : cstate) (supers : list cid) : outcome (list (list cid)) :=
  match supers with
  | [] => Val []
  | s :: supers' =>
      do ic <- iclass_of st s ;
      do ls <- super_lists st supers' ;
      Val (all_supers ic :: ls)
  end.

(** class-dynamic.dylan:634-648 [unconstrained-class]. *)
Definition head_is (l : list cid) (s : cid) : bool :=
  match l with x :: _ => bool_decide (x = s) | [] => false end.
Definition unconstrained_class (lists : list (list cid)) (s : cid) : bool :=
  existsb (fun l => head_is l s) lists
  && forallb (fun l => head_is l s || negb (member s (tail l))) lists.

(** class-dynamic.dylan:650-654: the first unconstrained direct superclass of a class
    of the partial list, latest class first.  [supers_of] gives the direct
    superclasses; those of the new class are not yet in the table. *)
Definition next_old (supers_of : cid -> list cid) (lists : list (list cid)) (partial : list cid)
    : option cid :=
  List.find (unconstrained_class lists) (concat (map supers_of partial)).

(** class-dynamic.dylan:628-667. *)
Fixpoint merge_lists_old (supers_of : cid -> list cid) (fuel : nat) (partial : list cid)
    (lists : list (list cid)) : outcome (list cid) :=
  match fuel with
  | O => NoFuel
  | S fuel' =>
      if all_empty lists then Val (rev partial)
      else match next_old supers_of lists partial with
           | Some n => merge_lists_old supers_of fuel' (n :: partial) (map (remove_next n) lists)
           | None => Signal "inconsistent-precedence-class-error"
           end
  end.

Definition direct_of (st : cstate) (c : cid) (supers : list cid) (x : cid) : list cid :=
  if bool_decide (x = c) then supers
  else match st !! x with Some ic => direct_supers ic | None => [] end.

(** class-dynamic.dylan:624-674 [compute-implementation-class-precedence-list-old]. *)
Definition compute_cpl_old (st : cstate) (c : cid) (supers : list cid) : outcome (list cid) :=
  do ls <- super_lists st supers ;
  merge_lists_old (direct_of st c supers) (merge_fuel (supers :: ls)) [c] (supers :: ls).

(** class-dynamic.dylan:572-621 [compute-implementation-class-precedence-list].  The
    result of the old algorithm is only compared with the new one: a difference is
    reported with [signal], which returns when nobody handles it. *)
Definition compute_cpl (st : cstate) (c : cid) (supers : list cid) : outcome (list cid) :=
  do ls <- super_lists st supers ;
  let lists := ls ++ [supers] in
  do c3 <- merge_lists (merge_fuel lists) [c] lists ;
  do old <- compute_cpl_old st c supers ;
  Val c3.

(** class.dylan:792-808: the loop over the other positions; [rpos] is within the
    vector when it is read. *)
Fixpoint rcpl_loop (rcpl : list (option cid)) (sup : cid) (positions : list Z) : outcome bool :=
  match positions with
  | [] => Val false
  | rpos :: positions' =>
      if bool_decide (rpos < Z.of_nat (length rcpl))%Z then
        do x <- zread rcpl rpos ;
        if bool_decide (x = Some sup) then Val true else rcpl_loop rcpl sup positions'
      else Val false
  end.

(** class.dylan:777-812 [rcpl-isubclass?]. *)
Definition rcpl_isubclass (isub : iclass) (sub : cid) (isup : iclass) (sup : cid) : outcome bool :=
  if bool_decide (sub = sup) then Val true
  else
    let rcpl := rcpl_vector isub in
    if bool_decide (Z.of_nat (length rcpl) <= rcpl_position isup)%Z then Val false
    else
      do x <- zread rcpl (rcpl_position isup) ;
      if bool_decide (x = Some sup) then Val true
      else rcpl_loop rcpl sup (rcpl_others isup).

(** class.dylan:908-938 [subclass?], [subiclass?], [subtype?] on classes. *)
Definition subclass (st : cstate) (x y : cid) : outcome bool :=
  do ix <- iclass_of st x ;
  do iy <- iclass_of st y ;
  rcpl_isubclass ix x iy y.

(** class.dylan:774. *)
Definition min_rcpl_size : Z := 6.

(** class.dylan:598-618 [initialize-class-instance?-iep] and the functions it chooses
    from (815-867): is an object whose class is [oc] an instance of [c]?  [subc] of
    the small function is read without comparing the position with the length. *)
Definition class_instance (st : cstate) (oc c : cid) : outcome bool :=
  do ioc <- iclass_of st oc ;
  do ic <- iclass_of st c ;
  if bool_decide (0 < length (rcpl_others ic)) then rcpl_isubclass ioc oc ic c   (* 815-822 *)
  else if bool_decide (rcpl_position ic < 0)%Z then Val (bool_decide (oc = c))   (* 824-831 *)
  else if bool_decide (rcpl_position ic < min_rcpl_size)%Z then                  (* 853-867 *)
    if bool_decide (oc = c) then Val true
    else do x <- zread (rcpl_vector ioc) (rcpl_position ic) ; Val (bool_decide (x = Some c))
  else                                                                           (* 833-851 *)
    if bool_decide (oc = c) then Val true
    else if bool_decide (rcpl_position ic < Z.of_nat (length (rcpl_vector ioc)))%Z then
      do x <- zread (rcpl_vector ioc) (rcpl_position ic) ; Val (bool_decide (x = Some c))
    else Val false.

(** class-dynamic.dylan:684-708: the check that the primary superclasses are related.
    (Line 698 passes an implementation class where a class is expected; every path
    that reaches it signals an error.)  [l] is the rest of the precedence list. *)
Fixpoint check_primaries (st : cstate) (l : list cid) (first_primary : option cid) : outcome unit :=
  match l with
  | [] => Val tt
  | sup :: l' =>
      do isup <- iclass_of st sup ;
      if primary isup then
        match first_primary with
        | Some p =>
            do b <- subclass st p sup ;
            if (b : bool) then check_primaries st l' first_primary
            else Signal "combines unrelated primary classes"
        | None => check_primaries st l' (Some sup)
        end
      else check_primaries st l' first_primary
  end.

(** class-dynamic.dylan:710-716: the vector, the precedence list reversed and padded
    to $min-rcpl-size with #f. *)
Definition make_rcpl (cpl : list cid) : list (option cid) :=
  map Some (rev cpl) ++ replicate (Z.to_nat min_rcpl_size - length cpl) None.

(** class.dylan:657-676: inserting into the sorted vector. *)
Fixpoint insert_position (pos : Z) (others : list Z) : list Z :=
  match others with
  | [] => [pos]
  | elt :: others' =>
      if bool_decide (elt < pos)%Z then elt :: insert_position pos others'
      else pos :: others
  end.

(** class.dylan:636-638 [iclass-rcpl-position-known?]. *)
Definition position_known (pos : Z) (ic : iclass) : bool :=
  bool_decide (pos = rcpl_position ic) || bool_decide (pos ∈ rcpl_others ic).

(** class.dylan:642-692 [augment-iclass-rcpl-position-data]. *)
Definition augment_position (ic : iclass) (pos : Z) : outcome iclass :=
  if position_known pos ic then Val ic
  else if bool_decide (rcpl_position ic = -1)%Z then
    Val (IClass (direct_supers ic) (all_supers ic) (rcpl_vector ic) pos (rcpl_others ic)
           (primary ic) (known_joint ic))
  else if bool_decide (rcpl_position ic <= pos)%Z then
    Val (IClass (direct_supers ic) (all_supers ic) (rcpl_vector ic) (rcpl_position ic)
           (insert_position pos (rcpl_others ic)) (primary ic) (known_joint ic))
  else Signal "assertion failed: pos >= first-pos".

(** class-dynamic.dylan:728-737 [augment-superior-rcpls]: [cpl] is what is left of the
    precedence list (read out of the rcpl vector from [pos] downwards). *)
Fixpoint augment_superiors (st : cstate) (c : cid) (cpl : list cid) (pos : Z) : outcome cstate :=
  match cpl with
  | [] => Val st
  | super :: cpl' =>
      if bool_decide (1 <= pos)%Z then
        if bool_decide (super = c) || bool_decide (super = object_class) then
          augment_superiors st c cpl' (pos - 1)
        else
          do ic <- iclass_of st super ;
          do ic' <- augment_position ic pos ;
          augment_superiors (<[super := ic']> st) c cpl' (pos - 1)
      else Val st
  end.

(** class-dynamic.dylan:678-722 [compute-cpl-rcpl-stuff] and 256-269
    [install-implementation-class] for a new class with the given direct superclasses:
    the class is the next index. *)
Definition make_class (st : cstate) (supers : list cid) (prim : bool) : outcome cstate :=
  let c := length st in
  do cpl <- compute_cpl st c supers ;
  do _ <- check_primaries st (tail cpl) None ;
  let self_pos := (Z.of_nat (length cpl) - 1)%Z in
  do st' <- augment_superiors st c cpl self_pos ;
  Val (st' ++ [IClass supers cpl (make_rcpl cpl) self_pos [] prim []]).

(** The table before any class is made: <object> alone. *)
Definition initial_classes : cstate :=
  [IClass [] [object_class] (make_rcpl [object_class]) 0 [] false []].

(** *** Joint classes *)

(** define-class.dylan:365-384: the inner loop for [c1]; [joint] is the table, one list
    per class. [local] tells whether a class belongs to the library being compiled. *)
Fixpoint joint_inner (st : cstate) (local : cid -> bool) (c1 : cid) (c1sups : list cid)
    (l : list cid) (joint : list (list cid)) : outcome (list (list cid)) :=
  match l with
  | [] => Val joint
  | c2 :: l' =>
      if member c2 c1sups then joint_inner st local c1 c1sups l' joint
      else
        do j1 <- vread joint c1 ;
        if member c2 j1 then joint_inner st local c1 c1sups l' joint
        else
          do j2 <- vread joint c2 ;
          if member c1 j2 then joint_inner st local c1 c1sups l' joint
          else
            do joint' <- (if local c1 || negb (local c2)
                          then vwrite joint c1 (c2 :: j1) else vwrite joint c2 (c1 :: j2)) ;
            joint_inner st local c1 c1sups l' joint'
  end.

(** define-class.dylan:360-385: all pairs of superclasses of one class. *)
Fixpoint joint_outer (st : cstate) (local : cid -> bool) (subl : list cid)
    (joint : list (list cid)) : outcome (list (list cid)) :=
  match subl with
  | [] => Val joint
  | c1 :: rest =>
      do ic1 <- iclass_of st c1 ;
      do joint' <- joint_inner st local c1 (tail (all_supers ic1)) rest joint ;
      joint_outer st local rest joint'
  end.

(** define-class.dylan:327-388: the classes of the library, [first] to the end of the table. *)
Fixpoint joint_table (st : cstate) (local : cid -> bool) (cs : list cid)
    (joint : list (list cid)) : outcome (list (list cid)) :=
  match cs with
  | [] => Val joint
  | c :: cs' =>
      do ic <- iclass_of st c ;
      do joint' <- joint_outer st local (tail (all_supers ic)) joint ;
      joint_table st local cs' joint'
  end.

Definition set_known (ic : iclass) (l : list cid) : iclass :=
  IClass (direct_supers ic) (all_supers ic) (rcpl_vector ic) (rcpl_position ic)
    (rcpl_others ic) (primary ic) l.

(** class.dylan:967-975: the loop of [augment-class-known-joint]. *)
Fixpoint augment_joint_loop (st : cstate) (c1 : cid) (known : list cid) (vec new : list cid)
    : outcome (list cid) :=
  match vec with
  | [] => Val new
  | c2 :: vec' =>
      do ic2 <- iclass_of st c2 ;
      augment_joint_loop st c1 known vec'
        (if negb (member c1 (known_joint ic2)) && negb (member c2 known) then c2 :: new else new)
  end.

(** class.dylan:962-978 [augment-class-known-joint]. *)
Definition augment_joint (st : cstate) (c1 : cid) (vec : list cid) : outcome cstate :=
  do ic1 <- iclass_of st c1 ;
  do new <- augment_joint_loop st c1 (known_joint ic1) vec [] ;
  match new with
  | [] => Val st
  | _ => vwrite st c1 (set_known ic1 (known_joint ic1 ++ new))
  end.

(** define-class.dylan:420-430: the sets of the library's own classes are stored in the
    class, the others are added when the library is loaded ([stored] first). *)
Fixpoint store_joint (st : cstate) (cs : list cid) (joint : list (list cid)) : outcome cstate :=
  match cs with
  | [] => Val st
  | c :: cs' =>
      do ic <- iclass_of st c ;
      do j <- vread joint c ;
      do st' <- vwrite st c (set_known ic j) ;
      store_joint st' cs' joint
  end.
Fixpoint augment_joints (st : cstate) (cs : list cid) (joint : list (list cid)) : outcome cstate :=
  match cs with
  | [] => Val st
  | c :: cs' =>
      do j <- vread joint c ;
      do st' <- augment_joint st c j ;
      augment_joints st' cs' joint
  end.

(** The definitions of a library, in order. *)
Fixpoint make_classes (st : cstate) (defs : list (list cid * bool)) : outcome cstate :=
  match defs with
  | [] => Val st
  | (supers, prim) :: defs' =>
      do st' <- make_class st supers prim ;
      make_classes st' defs'
  end.

(** Loading a compiled library.  The compiler lays out precedence lists and rcpl data
    by the same algorithm (dfmc/modeling/classes.dylan); its own additions to the
    positions of classes of other libraries are [augment_positions_multiple] below. *)
Definition load_library (st : cstate) (defs : list (list cid * bool)) : outcome cstate :=
  let first := length st in
  do st' <- make_classes st defs ;
  let local c := bool_decide (first <= c) in
  let cs := seq first (length st' - first) in
  do joint <- joint_table st' local cs (replicate (length st') []) ;
  do st'' <- store_joint st' cs joint ;
  augment_joints st'' (seq 0 first) joint.

(** A history: libraries are loaded and classes are made at run time
    ([make(<class>, ...)], class-dynamic.dylan:86-109, which leaves the joint sets
    alone). *)
Inductive class_op :=
| LoadLibrary (defs : list (list cid * bool))
| MakeClass (supers : list cid) (prim : bool).

(** An operation that signals leaves the table as it was: the new class is installed
    last, and the only earlier effect, extra positions, happens after every check. *)
Definition class_step (st : cstate) (op : class_op) : cstate :=
  match (match op with
         | LoadLibrary defs => load_library st defs
         | MakeClass supers prim => make_class st supers prim
         end) with
  | Val st' => st'
  | _ => st
  end.
Definition run_classes (ops : list class_op) : cstate := fold_left class_step ops initial_classes.

(** class.dylan:981-996 [grounded-member?] and 998-1015 [disjoint-types-1?] on classes
    (empty universe, no dependent). *)
Definition disjoint_classes (st : cstate) (c1 c2 : cid) : outcome bool :=
  do ic1 <- iclass_of st c1 ;
  do ic2 <- iclass_of st c2 ;
  do b1 <- rcpl_isubclass ic1 c1 ic2 c2 ;
  if (b1 : bool) then Val false
  else
    do b2 <- rcpl_isubclass ic2 c2 ic1 c1 ;
    if (b2 : bool) then Val false
    else Val ((primary ic1 && primary ic2)
              || (negb (member c1 (known_joint ic2)) && negb (member c2 (known_joint ic1)))).

(** class.dylan:719-748: the loop of [augment-rcpl-position-data-multiple]: merging
    [positions] and [old] into a vector of [room] more places.  Stores are checked. *)
Fixpoint merge_positions (fuel : nat) (base : Z) (room : nat) (positions old : list Z) : outcome (list Z) :=
  match fuel with
  | O => NoFuel
  | S fuel' =>
      let put x ps os :=
        match room with
        | O => Signal "element-range-error"
        | S room' => do r <- merge_positions fuel' base room' ps os ; Val (x :: r)
        end in
      match old, positions with
      | [], [] => match room with O => Val [] | _ => UB end  (* places never written *)
      | [], p :: ps => put p ps []
      | o :: os, [] => put o [] os
      | o :: os, p :: ps =>
          if bool_decide (p < o)%Z then
            if bool_decide (p = base) then merge_positions fuel' base room ps (o :: os)
            else put p ps (o :: os)
          else put o (if bool_decide (o = p) then ps else p :: ps) os
      end
  end.

(** class.dylan:695-752 [augment-rcpl-position-data-multiple]. *)
Definition augment_positions_multiple (ic : iclass) (positions : list Z) : outcome iclass :=
  let ninc := length (filter (fun p => negb (position_known p ic)) positions) in
  if bool_decide (0 < ninc) then
    do new <- merge_positions (S (length positions + length (rcpl_others ic))) (rcpl_position ic)
                (length (rcpl_others ic) + ninc) positions (rcpl_others ic) ;
    Val (IClass (direct_supers ic) (all_supers ic) (rcpl_vector ic) (rcpl_position ic) new
           (primary ic) (known_joint ic))
  else Val ic.

(** *** Reading the table (used to state the properties) *)

(** The direct superclasses of every class; class.dylan:20-60 [direct-superclasses]. *)
Definition supers_table (st : cstate) : list (list cid) := direct_supers <$> st.
(** [all-superclasses(c)], class.dylan:177-179. *)
Definition cpl_of (st : cstate) (c : cid) : list cid :=
  match st !! c with Some ic => all_supers ic | None => [] end.
(** Declared [primary], class.dylan:20-60 [class-primary?]. *)
Definition is_primary (st : cstate) (c : cid) : Prop :=
  exists ic, st !! c = Some ic /\ primary ic = true.
(** A history that only loads libraries; cf. [class_op]. *)
Definition is_load (op : class_op) : Prop := match op with LoadLibrary _ => True | _ => False end.
(** A history in which every class is given a direct superclass, as [define class]
    always does; cf. [class_op]. *)
Definition rooted_op (op : class_op) : Prop :=
  match op with
  | LoadLibrary defs => Forall (fun d => fst d <> []) defs
  | MakeClass supers _ => supers <> []
  end.
