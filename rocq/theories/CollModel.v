(** Model of the collection functions of the Dylan library that are written over the
    forward iteration protocol: sources/dylan/collection.dylan,
    sources/dylan/multiple-collection.dylan, and the protocols of the built-in classes.

    Simplifications, for the whole file:
    - elements are the closed type [value]; functions passed by the user are total Coq
      functions on values, without side effects;
    - a list is one object holding its elements (tails are not shared with other lists),
      and the iteration state of a list is the position of a tail in it;
    - a table is the list of its entries in the order in which it iterates over them (the
      real representation is modelled in TableModel.v); a new key goes to the end;
    - a deque has a first index and its elements (the real one is in DequeModel.v); where
      the elements go when it grows is a parameter [place];
    - reading or writing a vector, string, stretchy vector or deque at a state outside its
      elements is [UB] (the accessors in the protocols do no bounds check). *)
From Verif Require Import Base.
From Coq Require Import ZArith.
Local Open Scope outcome_scope.
Local Open Scope Z_scope.

(** Keys of collections.  [KTail a n] is the [n]-th tail of the list object [a], used as a key
    by one method (map-into-rigid-one on (<mutable-sequence>, <collection>)). *)
Inductive key := KInt (z : Z) | KObj (n : nat) | KTail (a n : nat).
Global Instance key_eq_dec : EqDecision key.
Proof. solve_decision. Defined.

(** Elements.  [VVec] is the vector of elements that iterating several collections gives. *)
Inductive value := VInt (z : Z) | VChr (c : Z) | VObj (n : nat) | VFalse | VVec (l : list value).

(** <simple-object-vector>, <byte-string>, <stretchy-object-vector>: the subclasses of <array>. *)
Inductive vkind := VkObject | VkString | VkStretchy.
Global Instance vkind_eq_dec : EqDecision vkind.
Proof. solve_decision. Defined.

(** The built-in collections.  [CRange from by n] is a finite range (empty when [n = 0]),
    [CRangeInf] an infinite one (range.dylan:24-47); [kt] in a table is its key test, 0 is \==. *)
Inductive coll :=
| CVec (k : vkind) (l : list value)
| CDeq (first : Z) (l : list value)
| CList (l : list value)
| CRange (from by_ : Z) (n : nat)
| CRangeInf (from by_ : Z)
| CTab (kt : nat) (t : list (key * value)).

Definition heap := list coll.

Definition is_sequence (c : coll) : bool := match c with CTab _ _ => false | _ => true end.
Definition is_array (c : coll) : bool := match c with CVec _ _ => true | _ => false end.
Definition is_list (c : coll) : bool := match c with CList _ => true | _ => false end.
(** stretchy-vector.dylan:16-22,65; deque.dylan:10; table.dylan:1053 *)
Definition is_stretchy (c : coll) : bool :=
  match c with CVec VkStretchy _ | CDeq _ _ | CTab _ _ => true | _ => false end.
Definition is_mutable (c : coll) : bool :=
  match c with CRange _ _ _ | CRangeInf _ _ => false | _ => true end.

(** key-test: sequences compare keys with == (sequence.dylan), tables with their own test. *)
Definition coll_key_test (c : coll) : nat := match c with CTab kt _ => kt | _ => 0%nat end.

Definition at_ (h : heap) (a : nat) : outcome coll :=
  match h !! a with Some c => Val c | None => Signal "no such object" end.

(** ** Iteration protocols of single collections *)

(** Iteration states: an integer, a tail of a list, a table's <iteration-state>, or #f. *)
Inductive state := SInt (z : Z) | SList (n : nat) | STab (n : nat) | SNone.

(** Each constructor below names one of the functions the protocols return. *)
Inductive nextk := NSeq | NList | NRange | NTab | NError.
Inductive fink := FSeq | FList | FEmpty | FInf | FInc | FDec | FTab.
Inductive keyk := KSeq | KDeq | KList | KRange | KTab | KError.
Inductive eltk := EVec (k : vkind) | EDeq | EList | ERange | ETab | EError.
Inductive setk := SetVec (k : vkind) | SetDeq | SetList | SetImm | SetTab.

Record fip := Fip { f_init : state; f_limit : Z; f_next : nextk; f_fin : fink; f_key : keyk; f_elt : eltk; f_set : setk }.

(** forward-iteration-protocol: vector.dylan:611-627, string.dylan:158-173,
    stretchy-vector.dylan:444-459, deque.dylan:587-601, list.dylan:691-705,
    range.dylan:749-763,774-788,800-818, table.dylan:1727-1744 *)
Definition fip_of (c : coll) : fip :=
  match c with
  | CVec k l => Fip (SInt 0) (Z.of_nat (length l)) NSeq FSeq KSeq (EVec k) (SetVec k)
  | CDeq first l => Fip (SInt first) (first + Z.of_nat (length l)) NSeq FSeq KDeq EDeq SetDeq
  | CList l => Fip (SList 0) 0 NList FList KList EList SetList
  | CRange from by_ 0 => Fip SNone 0 NError FEmpty KError EError SetImm
  | CRange from by_ n =>
      Fip (SInt from) (from + (Z.of_nat n - 1) * by_) NRange (if 0 <? by_ then FInc else FDec) KRange ERange SetImm
  | CRangeInf from by_ => Fip (SInt from) 0 NRange FInf KRange ERange SetImm
  | CTab kt t => Fip (STab 0) 0 NTab FTab KTab ETab SetTab
  end.

Definition bad {A} : outcome A := Signal "type error".

Definition range_by (c : coll) : option (Z * Z) :=
  match c with CRange f b _ | CRangeInf f b => Some (f, b) | _ => None end.

(** sequence-next-state (sequence.dylan:741-744), list-next-state (list.dylan:661-664; the tail
    of #() is #()), range-next-state (range.dylan:689-693), table-next-state, range-error *)
Definition run_next (k : nextk) (c : coll) (s : state) : outcome state :=
  match k, s with
  | NSeq, SInt i => if is_sequence c then Val (SInt (i + 1)) else bad
  | NList, SList n => match c with CList l => Val (SList (Nat.min (S n) (length l))) | _ => bad end
  | NRange, SInt i => match range_by c with Some (_, b) => Val (SInt (i + b)) | None => bad end
  | NTab, STab n => match c with CTab _ t => Val (STab (S n)) | _ => bad end
  | NError, _ => Signal "RANGE iteration protocol"
  | _, _ => bad
  end.

(** sequence-finished-state? (sequence.dylan:751-755), list-finished-state? (list.dylan:666-669),
    empty-, infinite-, increasing- and decreasing-range-finished-state? (range.dylan:701-719),
    table-finished-state? *)
Definition run_fin (k : fink) (c : coll) (s : state) (limit : Z) : outcome bool :=
  match k, s with
  | FSeq, SInt i => if is_sequence c then Val (i =? limit) else bad
  | FList, SList n => match c with CList l => Val (n =? length l)%nat | _ => bad end
  | FEmpty, _ => Val true
  | FInf, _ => Val false
  | FInc, SInt i => match range_by c with Some _ => Val (limit <? i) | None => bad end
  | FDec, SInt i => match range_by c with Some _ => Val (i <? limit) | None => bad end
  | FTab, STab n => match c with CTab _ t => Val (length t <=? n)%nat | _ => bad end
  | _, _ => bad
  end.

(** sequence-current-key (sequence.dylan:757-760), object-deque-current-key (deque.dylan:570-573),
    list-current-key (list.dylan:671-680), range-current-key (range.dylan:721-724), table-current-key *)
Definition run_key (k : keyk) (c : coll) (s : state) : outcome key :=
  match k, s with
  | KSeq, SInt i => if is_sequence c then Val (KInt i) else bad
  | KDeq, SInt i => match c with CDeq first _ => Val (KInt (i - first)) | _ => bad end
  | KList, SList n => match c with CList _ => Val (KInt (Z.of_nat n)) | _ => bad end
  | KRange, SInt i => match range_by c with Some (f, b) => Val (KInt ((i - f) / b)) | None => bad end
  | KTab, STab n => match c with CTab _ t => match t !! n with Some (x, _) => Val x | None => Signal "exhausted iteration" end | _ => bad end
  | KError, _ => Signal "RANGE iteration protocol"
  | _, _ => bad
  end.

(** object-vector-current-element and the like (vector.dylan:600-603, string.dylan:147-150,
    stretchy-vector.dylan:370-374), object-deque-current-element (deque.dylan:575-578),
    list-current-element (list.dylan:682-685), range-current-element (range.dylan:726-729),
    table-current-element (table.dylan:1600-1648) *)
Definition run_elt (k : eltk) (c : coll) (s : state) : outcome value :=
  match k, s with
  | EVec vk, SInt i =>
      match c with CVec vk' l => if bool_decide (vk = vk') then zread l i else bad | _ => bad end
  | EDeq, SInt i => match c with CDeq first l => zread l (i - first) | _ => bad end
  | EList, SList n => match c with CList l => match l !! n with Some v => Val v | None => Val VFalse end | _ => bad end
  | ERange, SInt i => match range_by c with Some _ => Val (VInt i) | None => bad end
  | ETab, STab n => match c with CTab _ t => match t !! n with Some (_, v) => Val v | None => Signal "exhausted iteration" end | _ => bad end
  | EError, _ => Signal "RANGE iteration protocol"
  | _, _ => bad
  end.

Definition is_char (v : value) : bool := match v with VChr _ => true | _ => false end.

(** What can be stored in a vector of each kind (the <byte-string> setters take a <character>). *)
Definition storable (k : vkind) (v : value) : bool := match k with VkString => is_char v | _ => true end.

(** The current-element-setter functions: vector.dylan:605-609, string.dylan:152-156,
    stretchy-vector.dylan:376-382, deque.dylan:580-584, list.dylan:687-690 (setting the head of
    #() is not modelled: [UB]), range.dylan:731-736, table.dylan:1650-1684 *)
Definition run_set (k : setk) (v : value) (c : coll) (s : state) : outcome coll :=
  match k, s with
  | SetVec vk, SInt i =>
      match c with
      | CVec vk' l => if bool_decide (vk = vk') && storable vk v then do l' <- zwrite l i v ; Val (CVec vk' l') else bad
      | _ => bad
      end
  | SetDeq, SInt i => match c with CDeq first l => do l' <- zwrite l (i - first) v ; Val (CDeq first l') | _ => bad end
  | SetList, SList n => match c with CList l => do l' <- vwrite l n v ; Val (CList l') | _ => bad end
  | SetTab, STab n =>
      match c with CTab kt t => match t !! n with Some (x, _) => Val (CTab kt (<[n := (x, v)]> t)) | None => Signal "exhausted iteration" end | _ => bad end
  | SetImm, _ => Signal "immutable"
  | _, _ => bad
  end.

(** ** element and element-setter *)

Fixpoint lookup_key (k : key) (t : list (key * value)) : option value :=
  match t with
  | [] => None
  | (x, v) :: t => if bool_decide (x = k) then Some v else lookup_key k t
  end.

Fixpoint store_key (k : key) (v : value) (t : list (key * value)) : list (key * value) :=
  match t with
  | [] => [(k, v)]
  | (x, w) :: t => if bool_decide (x = k) then (x, v) :: t else (x, w) :: store_key k v t
  end.

Definition znth {A} (l : list A) (z : Z) : option A := if 0 <=? z then l !! Z.to_nat z else None.

(** element with default: not-found() (None is "not found").  Sequences take integer keys only.
    Strings check the type of the default, which not-found() is not (string.dylan:66-81).
    vector.dylan, deque.dylan:272-292, list.dylan:236-253, range.dylan:163-205, table.dylan *)
Definition element_nf (c : coll) (k : key) : outcome (option value) :=
  match c, k with
  | CTab _ t, _ => Val (lookup_key k t)
  | CVec VkString l, KInt z => match znth l z with Some v => Val (Some v) | None => bad end
  | (CVec _ l | CDeq _ l | CList l), KInt z => Val (znth l z)
  | CRange f b n, KInt z => Val (if (0 <=? z) && (z <? Z.of_nat n) then Some (VInt (f + z * b)) else None)
  | CRangeInf f b, KInt z => Val (Some (VInt (f + z * b)))
  | _, _ => bad
  end.

(** size := n on a deque or stretchy vector, padding with #f (deque.dylan:227-255,
    stretchy-vector.dylan:384-412).  [place first n] is the first index of the deque afterwards. *)
Definition resize (place : Z -> nat -> Z) (c : coll) (n : nat) : outcome coll :=
  match c with
  | CDeq first l =>
      Val (CDeq (place first n) (take n l ++ replicate (n - length l) VFalse))
  | CVec VkStretchy l => Val (CVec VkStretchy (take n l ++ replicate (n - length l) VFalse))
  | _ => Signal "no applicable method"
  end.

(** element-setter: vector.dylan, string.dylan:89-113, stretchy-vector.dylan:599-618,
    deque.dylan:303-336, list.dylan, table.dylan *)
Definition element_set (place : Z -> nat -> Z) (v : value) (c : coll) (k : key) : outcome coll :=
  match c, k with
  | CTab kt t, _ => Val (CTab kt (store_key k v t))
  | CVec VkStretchy l, KInt z =>
      if z <? 0 then Signal "element range"
      else do c <- (if Z.of_nat (length l) <=? z then resize place c (Z.to_nat z + 1) else Val c) ;
           match c with CVec kk l => do l' <- zwrite l z v ; Val (CVec kk l') | _ => bad end
  | CVec vk l, KInt z =>
      if storable vk v then if (0 <=? z) && (z <? Z.of_nat (length l)) then Val (CVec vk (<[Z.to_nat z := v]> l)) else Signal "element range"
      else bad
  | CList l, KInt z =>
      if (0 <=? z) && (z <? Z.of_nat (length l)) then Val (CList (<[Z.to_nat z := v]> l)) else Signal "element range"
  | CDeq first l, KInt z =>
      if z <? 0 then Signal "element range"
      else do c <- (if Z.of_nat (length l) <=? z then resize place c (Z.to_nat z + 1) else Val c) ;
           match c with CDeq f l => do l' <- zwrite l z v ; Val (CDeq f l') | _ => bad end
  | _, _ => bad
  end.

(** ** Several collections at once: multiple-collection.dylan *)

(** A single collection, or what multiple-collection returns (71-100): the sequences of a
    <multiple-sequence>, the collections of a <multiple-explicit-key-collection>, and the two
    lists of a <multiple-mixed-collection> with the positions of their members. *)
Inductive source :=
| One (a : nat)
| MultiSeq (as_ : list nat)
| MultiExp (as_ : list nat)
| MultiMix (sas : list nat) (smap : list nat) (eas : list nat) (emap : list nat).

Fixpoint all_ (h : heap) (as_ : list nat) : outcome (list coll) :=
  match as_ with
  | [] => Val []
  | a :: r => do c <- at_ h a ; do cs <- all_ h r ; Val (c :: cs)
  end.

(** mixed-collection, multiple-collection.dylan:103-132 *)
Fixpoint split_mixed (i : nat) (acs : list (nat * coll)) : list nat * list nat * list nat * list nat :=
  match acs with
  | [] => ([], [], [], [])
  | (a, c) :: r =>
      let '(sas, smap, eas, emap) := split_mixed (S i) r in
      if is_sequence c then (a :: sas, i :: smap, eas, emap) else (sas, smap, a :: eas, i :: emap)
  end.

(** multiple-collection, multiple-collection.dylan:64-100 *)
Definition multiple_collection (h : heap) (a : nat) (more : list nat) : outcome source :=
  match more with
  | [] => Val (One a)
  | _ =>
      do c <- at_ h a ;
      do cs <- all_ h more ;
      if negb (forallb (fun c' => bool_decide (coll_key_test c' = coll_key_test c)) cs) then Signal "key test"
      else if negb (forallb (fun c' => Bool.eqb (is_sequence c') (is_sequence c)) cs) then
        let '(sas, smap, eas, emap) := split_mixed 0 (combine (a :: more) (c :: cs)) in
        Val (MultiMix sas smap eas emap)
      else if is_sequence c then Val (MultiSeq (a :: more))
      else Val (MultiExp (a :: more))
  end.

(** Iteration states of a source.  The vector of elements that the two explicit cases compute
    while skipping is kept with the state (it is shared by all states in the code; it is read
    only for the current one). *)
Inductive sstate :=
| St1 (s : state)
| StSeq (ss : list state)
| StExp (s : state) (els : list (option value))
| StMix (k : Z) (ss : list state) (els : list (option value)).

(** The functions of a protocol, fixed when the iteration starts. *)
Inductive sfip :=
| F1 (f : fip)
| FSeqs (fs : list fip)
| FExp (f : fip) (index : nat)
| FMix (fs : list fip) (bound : Z).

Definition coll_size (c : coll) : outcome nat :=
  match c with
  | CVec _ l | CDeq _ l | CList l => Val (length l)
  | CRange _ _ n => Val n
  | CTab _ t => Val (length t)
  | CRangeInf _ _ => Signal "size of an infinite range"
  end.

(** minimum-collection, multiple-collection.dylan:313-324 *)
Fixpoint minimum_loop (cs : list coll) (i index : nat) (min : nat) : outcome nat :=
  match cs with
  | [] => Val index
  | c :: cs => do s <- coll_size c ; if (s <? min)%nat then minimum_loop cs (S i) i s else minimum_loop cs (S i) index min
  end.
Definition minimum_collection (cs : list coll) : outcome nat :=
  match cs with
  | [] => bad
  | c :: cs => do s <- coll_size c ; minimum_loop cs 1 0 s
  end.

(** maximum-sequence-key: explicit-key-collection.dylan:44-51, sequence.dylan:812-815 *)
Fixpoint max_int_key (t : list (key * value)) (m : Z) : Z :=
  match t with
  | [] => m
  | (KInt z, _) :: t => max_int_key t (Z.max z m)
  | _ :: t => max_int_key t m
  end.
Definition maximum_sequence_key (c : coll) : outcome Z :=
  match c with
  | CTab _ t => Val (max_int_key t (-1))
  | _ => do n <- coll_size c ; Val (Z.of_nat n - 1)
  end.

(** Stepping, testing and reading the sequences of a multiple collection in parallel. *)
Fixpoint next_states (fs : list fip) (cs : list coll) (ss : list state) : outcome (list state) :=
  match fs, cs, ss with
  | f :: fs, c :: cs, s :: ss => do s' <- run_next (f_next f) c s ; do ss' <- next_states fs cs ss ; Val (s' :: ss')
  | _, _, _ => Val []
  end.
Fixpoint any_finished (fs : list fip) (cs : list coll) (ss : list state) : outcome bool :=
  match fs, cs, ss with
  | f :: fs, c :: cs, s :: ss => do b <- run_fin (f_fin f) c s (f_limit f) ; if b : bool then Val true else any_finished fs cs ss
  | _, _, _ => Val false
  end.
Fixpoint elements_at (fs : list fip) (cs : list coll) (ss : list state) : outcome (list value) :=
  match fs, cs, ss with
  | f :: fs, c :: cs, s :: ss => do v <- run_elt (f_elt f) c s ; do vs <- elements_at fs cs ss ; Val (v :: vs)
  | _, _, _ => Val []
  end.

(** The loop over the collections inside skip-until-common of the explicit case,
    multiple-collection.dylan:263-272: stores into [els], says whether the key is common. *)
Fixpoint common_exp (cs : list coll) (i index : nat) (k : key) (cur : value) (els : list (option value)) : outcome (list (option value) * bool) :=
  match cs with
  | [] => Val (els, true)
  | c :: cs =>
      if (i =? index)%nat then common_exp cs (S i) index k cur (<[i := Some cur]> els)
      else
        do o <- element_nf c k ;
        match o with
        | Some v => common_exp cs (S i) index k cur (<[i := Some v]> els)
        | None => Val (<[i := None]> els, false)
        end
  end.

(** skip-until-common, explicit case: multiple-collection.dylan:258-284 *)
Fixpoint skip_exp (fuel : nat) (f : fip) (index : nat) (cs : list coll) (s : state) (els : list (option value)) : outcome (state * list (option value)) :=
  match fuel with
  | O => NoFuel
  | S fuel =>
      match cs !! index with
      | None => bad
      | Some c =>
          do b <- run_fin (f_fin f) c s (f_limit f) ;
          if b : bool then Val (s, els)
          else
            do k <- run_key (f_key f) c s ;
            do cur <- run_elt (f_elt f) c s ;
            do ' (els, common) <- common_exp cs 0 index k cur els ;
            if common : bool then Val (s, els)
            else do s <- run_next (f_next f) c s ; skip_exp fuel f index cs s els
      end
  end.

(** The loop over the explicit collections in skip-until-common of the mixed case,
    multiple-collection.dylan:393-398 *)
Fixpoint common_mix (cs : list coll) (emap : list nat) (k : Z) (els : list (option value)) : outcome (list (option value) * bool) :=
  match cs, emap with
  | c :: cs, e :: emap =>
      do o <- element_nf c (KInt k) ;
      match o with
      | Some v => common_mix cs emap k (<[e := Some v]> els)
      | None => Val (<[e := None]> els, false)
      end
  | _, _ => Val (els, true)
  end.

Fixpoint store_at (is_ : list nat) (vs : list value) (els : list (option value)) : list (option value) :=
  match is_, vs with
  | i :: is_, v :: vs => store_at is_ vs (<[i := Some v]> els)
  | _, _ => els
  end.

(** finished? of the mixed case, multiple-collection.dylan:363-376 *)
Definition finished_mix (fs : list fip) (cs : list coll) (bound : Z) (head : Z) (ss : list state) : outcome bool :=
  if bound <? head then Val true else any_finished fs cs ss.

(** skip-until-common, mixed case: multiple-collection.dylan:385-414.  [head] is state.head, which
    the loop tests but does not change until it is done; [k] is the local variable key. *)
Fixpoint skip_mix (fuel : nat) (fs : list fip) (bound : Z) (scs : list coll) (smap : list nat) (ecs : list coll) (emap : list nat)
    (head k : Z) (ss : list state) (els : list (option value)) : outcome (Z * list state * list (option value)) :=
  match fuel with
  | O => NoFuel
  | S fuel =>
      do b <- finished_mix fs scs bound head ss ;
      if b : bool then Val (k, ss, els)
      else
        do ' (els, common) <- common_mix ecs emap k els ;
        if common : bool then do vs <- elements_at fs scs ss ; Val (k, ss, store_at smap vs els)
        else do ss <- next_states fs scs ss ; skip_mix fuel fs bound scs smap ecs emap head (k + 1) ss els
  end.

(** Starting an iteration: forward-iteration-protocol on each kind of source
    (multiple-collection.dylan:151-206, 238-307, 335-443) *)
Definition src_start (fuel : nat) (h : heap) (src : source) : outcome (sfip * sstate) :=
  match src with
  | One a => do c <- at_ h a ; Val (F1 (fip_of c), St1 (f_init (fip_of c)))
  | MultiSeq as_ =>
      do cs <- all_ h as_ ;
      let fs := map fip_of cs in Val (FSeqs fs, StSeq (map f_init fs))
  | MultiExp as_ =>
      do cs <- all_ h as_ ;
      do index <- minimum_collection cs ;
      match cs !! index with
      | None => bad
      | Some c =>
          let f := fip_of c in
          do ' (s, els) <- skip_exp fuel f index cs (f_init f) (replicate (length cs) None) ;
          Val (FExp f index, StExp s els)
      end
  | MultiMix sas smap eas emap =>
      do scs <- all_ h sas ;
      do ecs <- all_ h eas ;
      do i <- minimum_collection ecs ;
      match ecs !! i with
      | None => bad
      | Some ec =>
          do bound <- maximum_sequence_key ec ;
          let fs := map fip_of scs in
          do ' (k, ss, els) <- skip_mix fuel fs bound scs smap ecs emap 0 0 (map f_init fs) (replicate (length scs + length ecs) None) ;
          Val (FMix fs bound, StMix k ss els)
      end
  end.

Definition src_fin (h : heap) (src : source) (f : sfip) (st : sstate) : outcome bool :=
  match src, f, st with
  | One a, F1 f, St1 s => do c <- at_ h a ; run_fin (f_fin f) c s (f_limit f)
  | MultiSeq as_, FSeqs fs, StSeq ss => do cs <- all_ h as_ ; any_finished fs cs ss
  | MultiExp as_, FExp f index, StExp s _ =>
      do cs <- all_ h as_ ; match cs !! index with None => bad | Some c => run_fin (f_fin f) c s (f_limit f) end
  | MultiMix sas _ _ _, FMix fs bound, StMix k ss _ => do scs <- all_ h sas ; finished_mix fs scs bound k ss
  | _, _, _ => bad
  end.

Definition src_next (fuel : nat) (h : heap) (src : source) (f : sfip) (st : sstate) : outcome sstate :=
  match src, f, st with
  | One a, F1 f, St1 s => do c <- at_ h a ; do s <- run_next (f_next f) c s ; Val (St1 s)
  | MultiSeq as_, FSeqs fs, StSeq ss => do cs <- all_ h as_ ; do ss <- next_states fs cs ss ; Val (StSeq ss)
  | MultiExp as_, FExp f index, StExp s els =>
      do cs <- all_ h as_ ;
      match cs !! index with
      | None => bad
      | Some c =>
          do s <- run_next (f_next f) c s ;
          do ' (s, els) <- skip_exp fuel f index cs s els ; Val (StExp s els)
      end
  | MultiMix sas smap eas emap, FMix fs bound, StMix k ss els =>
      do scs <- all_ h sas ;
      do ecs <- all_ h eas ;
      do ss <- next_states fs scs ss ;
      do ' (k, ss, els) <- skip_mix fuel fs bound scs smap ecs emap (k + 1) (k + 1) ss els ; Val (StMix k ss els)
  | _, _, _ => bad
  end.

Definition elements_vector (els : list (option value)) : value :=
  VVec (map (fun o => match o with Some v => v | None => VFalse end) els).

Definition src_elt (h : heap) (src : source) (f : sfip) (st : sstate) : outcome value :=
  match src, f, st with
  | One a, F1 f, St1 s => do c <- at_ h a ; run_elt (f_elt f) c s
  | MultiSeq as_, FSeqs fs, StSeq ss => do cs <- all_ h as_ ; do vs <- elements_at fs cs ss ; Val (VVec vs)
  | MultiExp _, FExp _ _, StExp _ els => Val (elements_vector els)
  | MultiMix _ _ _ _, FMix _ _, StMix _ _ els => Val (elements_vector els)
  | _, _, _ => bad
  end.

Definition src_key (h : heap) (src : source) (f : sfip) (st : sstate) : outcome key :=
  match src, f, st with
  | One a, F1 f, St1 s => do c <- at_ h a ; run_key (f_key f) c s
  | MultiSeq as_, FSeqs fs, StSeq ss =>
      do cs <- all_ h as_ ;
      match fs, cs, ss with f :: _, c :: _, s :: _ => run_key (f_key f) c s | _, _, _ => bad end
  | MultiExp as_, FExp f index, StExp s _ =>
      do cs <- all_ h as_ ; match cs !! index with None => bad | Some c => run_key (f_key f) c s end
  | MultiMix _ _ _ _, FMix _ _, StMix k _ _ => Val (KInt k)
  | _, _, _ => bad
  end.

Definition src_is_sequence (h : heap) (src : source) : outcome bool :=
  match src with
  | One a => do c <- at_ h a ; Val (is_sequence c)
  | MultiSeq _ => Val true
  | _ => Val false
  end.

(** key-test, multiple-collection.dylan:550-570 *)
Definition src_key_test (h : heap) (src : source) : outcome nat :=
  match src with
  | One a => do c <- at_ h a ; Val (coll_key_test c)
  | MultiSeq _ | MultiMix _ _ _ _ => Val 0%nat
  | MultiExp as_ => do cs <- all_ h as_ ; match cs with c :: _ => Val (coll_key_test c) | [] => bad end
  end.

(** ** Functions that only read *)

(** The loop [for (e in coll) ... end] with an accumulator [r] and an early exit, in the order of
    dfmc/conversion/convert-loops.dylan: test for exhaustion (step 3), bind the element (4), test
    until: (5), step the state and compute the next values (7).  [stop] is the until: test. *)
Fixpoint for_in {R} (fuel : nat) (h : heap) (src : source) (f : sfip) (st : sstate) (stop : R -> bool) (step : R -> key -> value -> R) (r : R) : outcome R :=
  match fuel with
  | O => NoFuel
  | S fuel' =>
      do b <- src_fin h src f st ;
      if b : bool then Val r
      else
        do e <- src_elt h src f st ;
        do k <- src_key h src f st ;
        if stop r then Val r
        else
          do st <- src_next fuel h src f st ;
          for_in fuel' h src f st stop step (step r k e)
  end.

Definition for_src {R} (fuel : nat) (h : heap) (src : source) (stop : R -> bool) (step : R -> key -> value -> R) (r : R) : outcome R :=
  do ' (f, st) <- src_start fuel h src ; for_in fuel h src f st stop step r.

Definition no_stop {R} (_ : R) : bool := false.

(** do, collection.dylan:168-177: the calls of the function, in order *)
Definition do_ (fuel : nat) (h : heap) (src : source) : outcome (list value) :=
  for_src fuel h src no_stop (fun r _ e => r ++ [e]) [].

(** any? (696-736) and every? (744-785) with a function that returns a boolean *)
Definition any_one (fuel : nat) (h : heap) (test : value -> bool) (src : source) : outcome bool :=
  for_src fuel h src (fun r => r) (fun _ _ e => test e) false.
Definition every_one (fuel : nat) (h : heap) (test : value -> bool) (src : source) : outcome bool :=
  for_src fuel h src negb (fun _ _ e => test e) true.

(** reduce, collection.dylan:793-800 *)
Definition reduce (fuel : nat) (h : heap) (fn : value -> value -> value) (init : value) (src : source) : outcome value :=
  for_src fuel h src no_stop (fun r _ e => fn r e) init.

(** reduce1, collection.dylan:807-825 *)
Definition reduce1 (fuel : nat) (h : heap) (fn : value -> value -> value) (src : source) : outcome value :=
  do ' (f, st) <- src_start fuel h src ;
  do b <- src_fin h src f st ;
  if b : bool then Signal "reduce1 of an empty collection"
  else
    do e <- src_elt h src f st ;
    do st <- src_next fuel h src f st ;
    for_in fuel h src f st no_stop (fun r _ e => fn r e) e.

(** member?, collection.dylan:833-841 *)
Definition member_ (fuel : nat) (h : heap) (test : value -> value -> bool) (v : value) (src : source) : outcome bool :=
  for_src fuel h src (fun r => r) (fun _ _ e => test v e) false.

(** find-key, collection.dylan:848-859, sequence.dylan: the accumulator holds (found, skip, kludge) *)
Definition find_key (fuel : nat) (h : heap) (fn : value -> bool) (skip : Z) (src : source) : outcome (option key) :=
  do r <- for_src fuel h src (fun r => fst (fst r))
       (fun r k e => let '(_, skip, _) := r in
          if fn e then (skip - 1 <? 0, skip - 1, k) else (false, skip, k)) (false, skip, KInt 0) ;
  let '(found, _, kludge) := r in
  Val (if found : bool then Some kludge else None).

(** size (the default method), collection.dylan:890-895 *)
Definition size_ (fuel : nat) (h : heap) (src : source) : outcome nat :=
  for_src fuel h src no_stop (fun r _ _ => S r) 0%nat.

(** empty? (the default method), collection.dylan:903-907 *)
Definition empty_ (fuel : nat) (h : heap) (src : source) : outcome bool :=
  do ' (f, st) <- src_start fuel h src ; src_fin h src f st.

(** ** map-into *)

(** element on a source, default: not-found().  A multiple collection coerces the default with
    as(<vector>, default) when an element is missing (multiple-collection.dylan:471-475, 492-496,
    527-531); not-found() is the list #("NOT FOUND") (boot.dylan:1054), so the answer is then a
    vector of one element, which is not not-found(). *)
Definition not_found_vector : value := VVec [VObj 0].

Fixpoint elements_nf (cs : list coll) (k : key) : outcome (option (list value)) :=
  match cs with
  | [] => Val (Some [])
  | c :: cs =>
      do o <- element_nf c k ;
      match o with
      | None => Val None
      | Some v => do r <- elements_nf cs k ; Val (match r with Some vs => Some (v :: vs) | None => None end)
      end
  end.

Definition src_element_nf (h : heap) (src : source) (k : key) : outcome (option value) :=
  match src with
  | One a => do c <- at_ h a ; element_nf c k
  | MultiSeq as_ | MultiExp as_ =>
      do cs <- all_ h as_ ; do r <- elements_nf cs k ;
      Val (Some (match r with Some vs => VVec vs | None => not_found_vector end))
  | MultiMix sas smap eas emap =>
      match k with
      | KInt _ =>
          do scs <- all_ h sas ; do ecs <- all_ h eas ;
          do r <- elements_nf scs k ;
          match r with
          | None => Val (Some not_found_vector)
          | Some vs =>
              do r <- elements_nf ecs k ;
              match r with
              | None => Val (Some not_found_vector)
              | Some ws => Val (Some (elements_vector (store_at emap ws (store_at smap vs (replicate (length scs + length ecs) None)))))
              end
          end
      | _ => bad
      end
  end.

(** maximum-sequence-key of a source: the default methods iterate over it *)
Definition src_max_key (fuel : nat) (h : heap) (src : source) : outcome Z :=
  do seq <- src_is_sequence h src ;
  if seq : bool then do n <- match src with One a => do c <- at_ h a ; coll_size c | _ => size_ fuel h src end ; Val (Z.of_nat n - 1)
  else for_src fuel h src no_stop (fun r k _ => match k with KInt z => Z.max z r | _ => r end) (-1).

Definition src_size (fuel : nat) (h : heap) (src : source) : outcome nat :=
  match src with One a => do c <- at_ h a ; coll_size c | _ => size_ fuel h src end.

Definition upd (h : heap) (t : nat) (c : coll) : heap := <[t := c]> h.

(** map-into-rigid-one (<array>, <collection>), collection.dylan:596-606 *)
Fixpoint rigid_array_coll (fuel : nat) (place : Z -> nat -> Z) (fn : value -> value) (h : heap) (t : nat) (src : source) (f : sfip) (st : sstate) (end_key : Z) : outcome heap :=
  match fuel with
  | O => NoFuel
  | S fuel' =>
      do b <- src_fin h src f st ;
      if b : bool then Val h
      else
        do v <- src_elt h src f st ;
        do k <- src_key h src f st ;
        do h <- match k with
                | KInt z =>
                    if (z <? 0) || (end_key <=? z) then Val h
                    else do c <- at_ h t ; do c <- element_set place (fn v) c k ; Val (upd h t c)
                | _ => Val h
                end ;
        do st <- src_next fuel h src f st ;
        rigid_array_coll fuel' place fn h t src f st end_key
  end.

(** map-into-rigid-one (<array>, <sequence>), collection.dylan:608-615 *)
Fixpoint rigid_array_seq (fuel : nat) (place : Z -> nat -> Z) (fn : value -> value) (h : heap) (t : nat) (src : source) (f : sfip) (st : sstate) (k bound : Z) : outcome heap :=
  match fuel with
  | O => NoFuel
  | S fuel' =>
      do b <- src_fin h src f st ;
      if b : bool then Val h
      else if bound <=? k then Val h
      else
        do v <- src_elt h src f st ;
        do c <- at_ h t ;
        do c <- element_set place (fn v) c (KInt k) ;
        let h := upd h t c in
        do st <- src_next fuel h src f st ;
        rigid_array_seq fuel' place fn h t src f st (k + 1) bound
  end.

(** element-no-bounds-check and its setter on vectors: no check of the index *)
Definition array_read (c : coll) (i : Z) : outcome value :=
  match c with CVec _ l => zread l i | _ => bad end.
Definition array_write (v : value) (c : coll) (i : Z) : outcome coll :=
  match c with CVec k l => if storable k v then do l' <- zwrite l i v ; Val (CVec k l') else bad | _ => bad end.

(** map-into-rigid-one (<array>, <array>), collection.dylan:678-688 *)
Fixpoint rigid_array_array (n : nat) (fn : value -> value) (h : heap) (t s : nat) (i : Z) : outcome heap :=
  match n with
  | O => Val h
  | S n =>
      do cs <- at_ h s ;
      do v <- array_read cs i ;
      do ct <- at_ h t ;
      do ct <- array_write (fn v) ct i ;
      rigid_array_array n fn (upd h t ct) t s (i + 1)
  end.

(** map-into-rigid-one (<mutable-sequence>, <sequence>), collection.dylan:648-659 *)
Fixpoint rigid_seq_seq (fuel : nat) (fn : value -> value) (h : heap) (t : nat) (tf : fip) (ts : state) (src : source) (f : sfip) (st : sstate) : outcome heap :=
  match fuel with
  | O => NoFuel
  | S fuel' =>
      do b <- src_fin h src f st ;
      if b : bool then Val h
      else
        do v <- src_elt h src f st ;
        do c <- at_ h t ;
        do b <- run_fin (f_fin tf) c ts (f_limit tf) ;
        if b : bool then Val h
        else
          do c' <- run_set (f_set tf) (fn v) c ts ;
          let h := upd h t c' in
          do ts <- run_next (f_next tf) c' ts ;
          do st <- src_next fuel h src f st ;
          rigid_seq_seq fuel' fn h t tf ts src f st
  end.

(** map-into-rigid-one (<mutable-sequence>, <array>), collection.dylan:633-643.  The protocol [f] is
    that of the source ([with-fip-of coll]), although its functions are called on the target. *)
Fixpoint rigid_seq_array (fuel : nat) (fn : value -> value) (h : heap) (t s : nat) (f : fip) (ts : state) (k bound : Z) : outcome heap :=
  match fuel with
  | O => NoFuel
  | S fuel' =>
      if bound <=? k then Val h
      else
        do c <- at_ h t ;
        do b <- run_fin (f_fin f) c ts (f_limit f) ;
        if b : bool then Val h
        else
          do cs <- at_ h s ;
          do o <- element_nf cs (KInt k) ;
          match o with
          | None => Signal "element range"
          | Some v =>
              do c' <- run_set (f_set f) (fn v) c ts ;
              let h := upd h t c' in
              do ts <- run_next (f_next f) c' ts ;
              rigid_seq_array fuel' fn h t s f ts (k + 1) bound
          end
  end.

(** A state used as a key. *)
Definition state_key (a : nat) (s : state) : key :=
  match s with SInt z => KInt z | SList n => KTail a n | STab n => KTail a n | SNone => KObj 0 end.

(** map-into-rigid-one (<mutable-sequence>, <collection>), collection.dylan:551-566: the element is
    looked up under the iteration state of the target, not under key. *)
Fixpoint rigid_seq_coll (fuel : nat) (fn : value -> value) (h : heap) (t : nat) (tf : fip) (ts : state) (src : source) (k max_key : Z) : outcome heap :=
  match fuel with
  | O => NoFuel
  | S fuel' =>
      if max_key <? k then Val h
      else
        do c <- at_ h t ;
        do b <- run_fin (f_fin tf) c ts (f_limit tf) ;
        if b : bool then Val h
        else
          do o <- src_element_nf h src (state_key t ts) ;
          do c' <- match o with Some v => run_set (f_set tf) (fn v) c ts | None => Val c end ;
          do ts <- run_next (f_next tf) c' ts ;
          rigid_seq_coll fuel' fn (upd h t c') t tf ts src (k + 1) max_key
  end.

(** map-into-stretchy-one (<mutable-collection>, <collection>), collection.dylan:395-400 *)
Fixpoint stretchy_default (fuel : nat) (place : Z -> nat -> Z) (fn : value -> value) (h : heap) (t : nat) (src : source) (f : sfip) (st : sstate) : outcome heap :=
  match fuel with
  | O => NoFuel
  | S fuel' =>
      do b <- src_fin h src f st ;
      if b : bool then Val h
      else
        do v <- src_elt h src f st ;
        do k <- src_key h src f st ;
        do c <- at_ h t ;
        do c <- element_set place (fn v) c k ;
        let h := upd h t c in
        do st <- src_next fuel h src f st ;
        stretchy_default fuel' place fn h t src f st
  end.

(** map-into-stretchy-one (<array>, <collection>), collection.dylan:505-512 *)
Fixpoint stretchy_array_coll (fuel : nat) (place : Z -> nat -> Z) (fn : value -> value) (h : heap) (t : nat) (src : source) (f : sfip) (st : sstate) : outcome heap :=
  match fuel with
  | O => NoFuel
  | S fuel' =>
      do b <- src_fin h src f st ;
      if b : bool then Val h
      else
        do v <- src_elt h src f st ;
        do k <- src_key h src f st ;
        do h <- match k with
                | KInt z => if z <? 0 then Val h else do c <- at_ h t ; do c <- element_set place (fn v) c k ; Val (upd h t c)
                | _ => Val h
                end ;
        do st <- src_next fuel h src f st ;
        stretchy_array_coll fuel' place fn h t src f st
  end.

(** map-into-stretchy-one (<array>, <sequence>), collection.dylan:516-521 *)
Fixpoint stretchy_array_seq (fuel : nat) (place : Z -> nat -> Z) (fn : value -> value) (h : heap) (t : nat) (src : source) (f : sfip) (st : sstate) (k : Z) : outcome heap :=
  match fuel with
  | O => NoFuel
  | S fuel' =>
      do b <- src_fin h src f st ;
      if b : bool then Val h
      else
        do v <- src_elt h src f st ;
        do c <- at_ h t ;
        do c <- element_set place (fn v) c (KInt k) ;
        let h := upd h t c in
        do st <- src_next fuel h src f st ;
        stretchy_array_seq fuel' place fn h t src f st (k + 1)
  end.

(** Skip the keys already processed after a resize: [for (key from 0 below key, state = ...)] *)
Fixpoint skip_states (n : nat) (f : fip) (c : coll) (s : state) : outcome state :=
  match n with O => Val s | S n => do s <- run_next (f_next f) c s ; skip_states n f c s end.

(** map-into-stretchy-one (<mutable-sequence>, <collection>), collection.dylan:418-456: the first
    loop returns the key it stopped at, the second one goes on after the resize. *)
Fixpoint stretchy_seq_coll_1 (fuel : nat) (fn : value -> value) (h : heap) (t : nat) (tf : fip) (ts : state) (src : source) (k max_key : Z) : outcome (heap * Z) :=
  match fuel with
  | O => NoFuel
  | S fuel' =>
      if max_key <? k then Val (h, k)
      else
        do c <- at_ h t ;
        do b <- run_fin (f_fin tf) c ts (f_limit tf) ;
        if b : bool then Val (h, k)
        else
          do o <- src_element_nf h src (KInt k) ;
          do c' <- match o with Some v => run_set (f_set tf) (fn v) c ts | None => Val c end ;
          do ts <- run_next (f_next tf) c' ts ;
          stretchy_seq_coll_1 fuel' fn (upd h t c') t tf ts src (k + 1) max_key
  end.
Fixpoint stretchy_seq_coll_2 (fuel : nat) (fn : value -> value) (h : heap) (t : nat) (tf : fip) (ts : state) (src : source) (k max_key : Z) : outcome heap :=
  match fuel with
  | O => NoFuel
  | S fuel' =>
      if max_key <? k then Val h
      else
        do c <- at_ h t ;
        do o <- src_element_nf h src (KInt k) ;
        do c' <- match o with Some v => run_set (f_set tf) (fn v) c ts | None => Val c end ;
        do ts <- run_next (f_next tf) c' ts ;
        stretchy_seq_coll_2 fuel' fn (upd h t c') t tf ts src (k + 1) max_key
  end.
Definition stretchy_seq_coll (fuel : nat) (place : Z -> nat -> Z) (fn : value -> value) (h : heap) (t : nat) (src : source) : outcome heap :=
  do max_key <- src_max_key fuel h src ;
  do c <- at_ h t ;
  let tf := fip_of c in
  do ' (h, k) <- stretchy_seq_coll_1 fuel fn h t tf (f_init tf) src 0 max_key ;
  if max_key <? k then Val h
  else
    do c <- at_ h t ;
    do c <- resize place c (Z.to_nat (max_key + 1)) ;
    let h := upd h t c in
    let tf := fip_of c in
    do ts <- skip_states (Z.to_nat k) tf c (f_init tf) ;
    stretchy_seq_coll_2 fuel fn h t tf ts src k max_key.

(** map-into-stretchy-one (<mutable-sequence>, <sequence>), collection.dylan:459-495.
    [grim_fill] is the inner loop after the resize (481-486): it tests only the target, and moves
    the source's state, which the outer loop then steps once more. *)
Fixpoint grim_fill (fuel : nat) (fn : value -> value) (h : heap) (t : nat) (tf : fip) (ts : state) (src : source) (f : sfip) (st : sstate) : outcome (heap * sstate) :=
  match fuel with
  | O => NoFuel
  | S fuel' =>
      do c <- at_ h t ;
      do b <- run_fin (f_fin tf) c ts (f_limit tf) ;
      if b : bool then Val (h, st)
      else
        do v <- src_elt h src f st ;
        do c' <- run_set (f_set tf) (fn v) c ts ;
        let h := upd h t c' in
        do st <- src_next fuel h src f st ;
        do ts <- run_next (f_next tf) c' ts ;
        grim_fill fuel' fn h t tf ts src f st
  end.
(** The outer loop; [tf] and [ts] are the target's protocol and state from before any resize. *)
Fixpoint stretchy_seq_seq (fuel : nat) (place : Z -> nat -> Z) (fn : value -> value) (h : heap) (t : nat) (tf : fip) (ts : state) (src : source) (f : sfip) (st : sstate) (k : nat) : outcome heap :=
  match fuel with
  | O => NoFuel
  | S fuel' =>
      do b <- src_fin h src f st ;
      if b : bool then Val h
      else
        do c <- at_ h t ;
        do b <- run_fin (f_fin tf) c ts (f_limit tf) ;
        if b : bool then
          do n <- src_size fuel h src ;
          do c <- resize place c n ;
          let h := upd h t c in
          let tf' := fip_of c in
          do ts' <- skip_states k tf' c (f_init tf') ;
          do ' (h, st) <- grim_fill fuel fn h t tf' ts' src f st ;
          do st <- src_next fuel h src f st ;
          stretchy_seq_seq fuel' place fn h t tf ts src f st (S k)
        else
          do v <- src_elt h src f st ;
          do c' <- run_set (f_set tf) (fn v) c ts ;
          let h := upd h t c' in
          do ts <- run_next (f_next tf) c' ts ;
          do st <- src_next fuel h src f st ;
          stretchy_seq_seq fuel' place fn h t tf ts src f st (S k)
  end.

(** The methods of map-into-rigid-one and map-into-stretchy-one. *)
Inductive method :=
| RArrayColl | RArraySeq | RArrayArray | RSeqSeq | RSeqArray | RSeqColl
| SDefault | SArrayColl | SArraySeq | SSeqColl | SSeqSeq.

(** The applicable methods that no other applicable method is more specific than, for a target and
    a source of the built-in classes.  Where there are two, the call is ambiguous (for example
    <array>, <sequence> against <mutable-sequence>, <list>) and either may be called.
    collection.dylan:395-688, stretchy-vector.dylan:660-681. *)
Definition methods_for (target : coll) (src : option coll) (seq : bool) : list method :=
  if is_stretchy target then
    match target with
    | CVec _ _ => if seq then [SArraySeq] else [SArrayColl]
    | CDeq _ _ => if seq then [SSeqSeq] else [SSeqColl]
    | _ => [SDefault]
    end
  else
    match target with
    | CVec _ _ =>
        match src with
        | Some (CVec VkString _) => [RArrayArray]
        | Some (CVec _ _) => [RArrayArray; RSeqSeq]
        | Some (CList _) => [RArraySeq; RSeqSeq]
        | _ => if seq then [RArraySeq] else [RArrayColl]
        end
    | CList _ =>
        match src with
        | Some (CVec VkString _) => [RSeqArray]
        | _ => if seq then [RSeqSeq] else [RSeqColl]
        end
    | _ => []
    end.

Definition run_method (m : method) (fuel : nat) (place : Z -> nat -> Z) (fn : value -> value) (h : heap) (t : nat) (src : source) : outcome heap :=
  do c <- at_ h t ;
  let tf := fip_of c in
  match m with
  | RArrayColl => do n <- coll_size c ; do ' (f, st) <- src_start fuel h src ; rigid_array_coll fuel place fn h t src f st (Z.of_nat n)
  | RArraySeq => do n <- coll_size c ; do ' (f, st) <- src_start fuel h src ; rigid_array_seq fuel place fn h t src f st 0 (Z.of_nat n)
  | RArrayArray =>
      match src with
      | One s => do cs <- at_ h s ; do n <- coll_size c ; do n' <- coll_size cs ; rigid_array_array (Nat.min n n') fn h t s 0
      | _ => bad
      end
  | RSeqSeq => do ' (f, st) <- src_start fuel h src ; rigid_seq_seq fuel fn h t tf (f_init tf) src f st
  | RSeqArray =>
      match src with
      | One s => do cs <- at_ h s ; do n <- coll_size cs ; rigid_seq_array fuel fn h t s (fip_of cs) (f_init (fip_of cs)) 0 (Z.of_nat n)
      | _ => bad
      end
  | RSeqColl => do m <- src_max_key fuel h src ; rigid_seq_coll fuel fn h t tf (f_init tf) src 0 m
  | SDefault => do ' (f, st) <- src_start fuel h src ; stretchy_default fuel place fn h t src f st
  | SArrayColl => do ' (f, st) <- src_start fuel h src ; stretchy_array_coll fuel place fn h t src f st
  | SArraySeq => do ' (f, st) <- src_start fuel h src ; stretchy_array_seq fuel place fn h t src f st 0
  | SSeqColl => stretchy_seq_coll fuel place fn h t src
  | SSeqSeq => do ' (f, st) <- src_start fuel h src ; stretchy_seq_seq fuel place fn h t tf (f_init tf) src f st 0
  end.

(** map-into, collection.dylan:363-382, for a target at address [t]; [m] is the method called. *)
Definition map_into (fuel : nat) (place : Z -> nat -> Z) (m : method) (fn : value -> value) (h : heap) (t : nat) (src : source) : outcome heap :=
  do c <- at_ h t ;
  if negb (is_mutable c) then Signal "no applicable method"
  else
    do kt <- src_key_test h src ;
    if negb (bool_decide (kt = coll_key_test c)) then Signal "key test"
    else
      do seq <- src_is_sequence h src ;
      let sc := match src with One a => h !! a | _ => None end in
      if existsb (fun m' => match m, m' with
          | RArrayColl, RArrayColl | RArraySeq, RArraySeq | RArrayArray, RArrayArray | RSeqSeq, RSeqSeq
          | RSeqArray, RSeqArray | RSeqColl, RSeqColl | SDefault, SDefault | SArrayColl, SArrayColl
          | SArraySeq, SArraySeq | SSeqColl, SSeqColl | SSeqSeq, SSeqSeq => true | _, _ => false end)
         (methods_for c sc seq)
      then run_method m fuel place fn h t src
      else Signal "not the method called".
