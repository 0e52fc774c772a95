(** Model of map and map-as (sources/dylan/collection.dylan:195-353) and of the accumulators they
    collect results in (sources/dylan/accumulator.dylan).

    Simplifications, for the whole file:
    - as in CollModel.v; the function may now have side effects of its own (a state [S] that it
      reads and updates), but does not touch the collections;
    - the buffers of an accumulator live in a memory of their own; a buffer is the list of the
      words in it. *)
From Verif Require Import Base CollModel.
From Coq Require Import ZArith.
Local Open Scope outcome_scope.
Local Open Scope Z_scope.

(** What a buffer holds: #f, the previous or next buffer (in position 0), elements and keys. *)
Inductive word := WFalse | WBuf (b : nat) | WVal (v : value) | WKey (k : key).

(** $accumulator-size, accumulator.dylan:15 *)
Definition acc_buf_size : Z := 25.

(** <accumulator>, accumulator.dylan:17-25; [keyed] tells the two subclasses apart (46-50) *)
Record acc := Acc { a_keyed : bool; a_kt : nat; a_mem : list (list word); a_buf : nat; a_index : Z; a_size : option Z }.

Definition new_buffer : list word := replicate (Z.to_nat acc_buf_size) WFalse.

Definition acc_make (keyed : bool) (kt : nat) : acc := Acc keyed kt [new_buffer] 0 (acc_buf_size - 1) None.

(** acc-buffer[i] and its setter, with bounds checks *)
Definition buf_read (m : list (list word)) (b : nat) (i : Z) : outcome word :=
  match m !! b with
  | Some ws => if (0 <=? i) && (i <? Z.of_nat (length ws)) then zread ws i else Signal "element range"
  | None => UB
  end.
Definition buf_write (m : list (list word)) (b : nat) (i : Z) (w : word) : outcome (list (list word)) :=
  match m !! b with
  | Some ws => if (0 <=? i) && (i <? Z.of_nat (length ws)) then do ws <- zwrite ws i w ; Val (<[b := ws]> m) else Signal "element range"
  | None => UB
  end.

(** extend-accumulator, accumulator.dylan:31-37 *)
Definition extend_accumulator (a : acc) : outcome acc :=
  let b := length (a_mem a) in
  do m <- buf_write (a_mem a ++ [new_buffer]) b 0 (WBuf (a_buf a)) ;
  Val (Acc (a_keyed a) (a_kt a) m b (acc_buf_size - 1) (a_size a)).

(** element-setter on <keyed-accumulator>, accumulator.dylan:55-64 *)
Definition acc_set (a : acc) (k : key) (v : value) : outcome acc :=
  do a <- (if 0 <? a_index a then Val a else extend_accumulator a) ;
  let index := a_index a in
  do m <- buf_write (a_mem a) (a_buf a) index (WVal v) ;
  do m <- buf_write m (a_buf a) (index - 1) (WKey k) ;
  Val (Acc (a_keyed a) (a_kt a) m (a_buf a) (index - 2) (a_size a)).

(** add! on <sequence-accumulator>, accumulator.dylan:69-78 *)
Definition acc_add (a : acc) (v : value) : outcome acc :=
  do a <- (if 0 <? a_index a then Val a else extend_accumulator a) ;
  let index := a_index a in
  do m <- buf_write (a_mem a) (a_buf a) index (WVal v) ;
  Val (Acc (a_keyed a) (a_kt a) m (a_buf a) (index - 1) (a_size a)).

(** next-state-key-acc and next-state-seq-acc, accumulator.dylan:85-107 *)
Definition acc_next (a : acc) : outcome acc :=
  let index := a_index a - (if a_keyed a then 2 else 1) in
  if index =? 0 then
    do w <- buf_read (a_mem a) (a_buf a) 0 ;
    Val (Acc (a_keyed a) (a_kt a) (a_mem a) (match w with WBuf b => b | _ => a_buf a end) (acc_buf_size - 1) (a_size a))
  else Val (Acc (a_keyed a) (a_kt a) (a_mem a) (a_buf a) index (a_size a)).

(** current-key-key-acc, accumulator.dylan:116-120 *)
Definition acc_key (a : acc) : outcome key :=
  do w <- buf_read (a_mem a) (a_buf a) (a_index a - 1) ;
  match w with WKey k => Val k | _ => bad end.

(** current-element-acc, accumulator.dylan:128-132 *)
Definition acc_elt (a : acc) : outcome value :=
  do w <- buf_read (a_mem a) (a_buf a) (a_index a) ;
  match w with WVal v => Val v | WFalse => Val VFalse | _ => bad end.

(** The loop of invert-accumulator, accumulator.dylan:159-165 *)
Fixpoint invert_loop (fuel : nat) (m : list (list word)) (buff : nat) (next : word) (size : Z) : outcome (list (list word) * nat * Z) :=
  match next with
  | WFalse => Val (m, buff, size)
  | WBuf n =>
      match fuel with
      | O => NoFuel
      | S fuel =>
          let size := size + acc_buf_size - 1 in
          let prev := buff in
          let buff := n in
          do next <- buf_read m buff 0 ;
          do m <- buf_write m buff 0 (WBuf prev) ;
          invert_loop fuel m buff next size
      end
  | _ => bad
  end.

(** invert-accumulator, accumulator.dylan:151-170 *)
Definition invert_accumulator (a : acc) : outcome acc :=
  let buff := a_buf a in
  let size := acc_buf_size - a_index a - 1 in
  do next <- buf_read (a_mem a) buff 0 ;
  do m <- buf_write (a_mem a) buff 0 WFalse ;
  do ' (m, buff, size) <- invert_loop (length m) m buff next size ;
  Val (Acc (a_keyed a) (a_kt a) m buff (acc_buf_size - 1) (Some size)).

(** size on the two classes, accumulator.dylan:172-180: the accumulator afterwards and the size *)
Definition acc_size (a : acc) : outcome (acc * Z) :=
  do a <- (match a_size a with Some _ => Val a | None => invert_accumulator a end) ;
  match a_size a with
  | Some n => Val (a, if a_keyed a then Z.shiftr n 1 else n)
  | None => bad
  end.

(** [for (e keyed-by k in acc)] with the protocol of accumulator.dylan:189-212: the state counts up
    to the limit, the accumulator itself moves along.  [step] gets the state of the loop, the key
    and the element. *)
Fixpoint acc_for {R} (n : nat) (a : acc) (i : Z) (step : R -> key -> value -> outcome R) (r : R) : outcome R :=
  match n with
  | O => Val r
  | S n =>
      do e <- acc_elt a ;
      do k <- (if a_keyed a then acc_key a else Val (KInt i)) ;
      do r <- step r k e ;
      do a <- acc_next a ;
      acc_for n a (i + 1) step r
  end.

(** ** Making the result *)

(** The types a result can have. *)
Inductive ttype := TVec (k : vkind) | TDeq | TList | TTab (kt : nat).

Definition type_key_test (ty : ttype) : nat := match ty with TTab kt => kt | _ => 0%nat end.
Definition type_is_sequence (ty : ttype) : bool := match ty with TTab _ => false | _ => true end.

(** make(type, size: n) for n = 0 *)
Definition make_empty (ty : ttype) : coll :=
  match ty with TVec k => CVec k [] | TDeq => CDeq 2 [] | TList => CList [] | TTab kt => CTab kt [] end.

(** make(type, size: n, fill: v): vector.dylan:561-564 and the makers of vectors and strings,
    stretchy-vector.dylan:584-592, deque.dylan:166-181, list.dylan:116-123; for a table the size is
    a hint and the fill is ignored (table.dylan:1106-1113) *)
Definition make_filled (ty : ttype) (n : nat) (v : value) : outcome coll :=
  match ty with
  | TVec k => if storable k v then Val (CVec k (replicate n v)) else bad
  | TDeq => Val (CDeq (Z.of_nat (Nat.max (2 * n) 4) / 2) (replicate n v))
  | TList => Val (CList (replicate n v))
  | TTab kt => Val (CTab kt [])
  end.

(** as(type, v) for a <simple-object-vector> v: vector.dylan:404-427, string.dylan:138-145,
    stretchy-vector.dylan:511-530, deque.dylan:188-195, list.dylan:98-105.  Only the result is
    modelled, not the loops.  A new deque of more than four elements has been moved about; the first
    index of the result is not what it really is. *)
Definition as_type (ty : ttype) (l : list value) : outcome coll :=
  match ty with
  | TVec k => if forallb (storable k) l then Val (CVec k l) else bad
  | TDeq => Val (CDeq 2 l)
  | TList => Val (CList l)
  | TTab _ => bad
  end.

(** check-key-test-eq, accumulator.dylan:220-226 *)
Definition check_key_test {A} (ty : ttype) (a : acc) (r : A) : outcome A :=
  if (type_key_test ty =? a_kt a)%nat then Val r else Signal "key test".

Definition no_place (first : Z) (_ : nat) : Z := first.

(** convert-accumulator-as, accumulator.dylan:235-310: (<mutable-sequence-type>,
    <sequence-accumulator>) 235-252; (explicit key, <sequence-accumulator>) 254-269;
    (<mutable-sequence-type>, <keyed-accumulator>) 272-299; (explicit key, <keyed-accumulator>) 302-310 *)
Definition convert_accumulator (ty : ttype) (a : acc) : outcome coll :=
  do ' (a, sz) <- acc_size a ;
  let n := Z.to_nat sz in
  if a_keyed a then
    if type_is_sequence ty then
      if sz =? 0 then check_key_test ty a (make_empty ty)
      else
        do temp <- acc_for n a 0 (fun temp k e =>
            match k with
            | KInt z => if (0 <=? z) && (z <? sz) then zwrite temp z e else Signal "invalid index"
            | _ => Signal "invalid index"
            end) (replicate n VFalse) ;
        do target <- as_type ty temp ;
        check_key_test ty a target
    else
      do target <- check_key_test ty a (make_empty ty) ;
      acc_for n a 0 (fun c k e => element_set no_place e c k) target
  else
    if sz =? 0 then check_key_test ty a (make_empty ty)
    else
      do v <- acc_elt a ;
      do target <- make_filled ty n v ;
      do target <- check_key_test ty a target ;
      if type_is_sequence ty then
        let f := fip_of target in
        do ' (target, _) <- acc_for n a 0 (fun cs _ e =>
            let '(c, s) := cs in
            do c <- run_set (f_set f) e c s ;
            do s <- run_next (f_next f) c s ;
            Val (c, s)) (target, f_init f) ;
        Val target
      else acc_for n a 0 (fun c k e => element_set no_place e c k) target.

(** ** map-as and map *)

Section map_as.
  Context {S : Type} (fn : S -> value -> S * value).

  (** map-as-one on (<mutable-collection-type>, <explicit-key-collection>), collection.dylan:244-251 and
      on (<mutable-collection-type>, <sequence>), 253-260.  An error in the loop body ends it; here the
      rest of the loop does nothing. *)
  Definition map_as_acc (fuel : nat) (s : S) (ty : ttype) (h : heap) (src : source) (keyed : bool) : outcome (S * coll) :=
    do kt <- src_key_test h src ;
    do r <- for_src fuel h src no_stop (fun r k e =>
        do ' (s, a) <- r ;
        let '(s, v) := fn s e in
        do a <- (if keyed then acc_set a k v else acc_add a v) ;
        Val (s, a)) (Val (s, acc_make keyed kt)) ;
    do ' (s, a) <- r ;
    do c <- convert_accumulator ty a ;
    Val (s, c).

  (** (type == <list>, <sequence>), collection.dylan:265-273 *)
  Definition map_as_list (fuel : nat) (s : S) (h : heap) (src : source) : outcome (S * coll) :=
    do ' (s, result) <- for_src fuel h src no_stop (fun r _ e =>
        let '(s, result) := r in let '(s, v) := fn s e in (s, v :: result)) (s, []) ;
    Val (s, CList (rev result)).

  (** (type == <deque>, <sequence>) and (type == <object-deque>, <sequence>), deque.dylan:698-713 *)
  Definition map_as_deque (fuel : nat) (s : S) (h : heap) (src : source) : outcome (S * coll) :=
    do ' (s, result) <- for_src fuel h src no_stop (fun r _ e =>
        let '(s, result) := r in let '(s, v) := fn s e in (s, result ++ [v])) (s, []) ;
    Val (s, CDeq 2 result).

  (** The loop of the methods for arrays: [for (i from i below size) result[i] := function(collection[i])] *)
  Fixpoint array_loop (n : nat) (s : S) (c : coll) (i : Z) (result : coll) : outcome (S * coll) :=
    match n with
    | O => Val (s, result)
    | Datatypes.S n =>
        do e <- array_read c i ;
        let '(s, v) := fn s e in
        do result <- array_write v result i ;
        array_loop n s c (i + 1) result
    end.

  (** (subclass(<vector>), <array>), collection.dylan:298-316 *)
  Definition map_as_array (s : S) (k : vkind) (c : coll) : outcome (S * coll) :=
    do n <- coll_size c ;
    if (n =? 0)%nat then Val (s, make_empty (TVec k))
    else
      do e <- element_nf c (KInt 0) ;
      match e with
      | None => Signal "element range"
      | Some e =>
          let '(s, v) := fn s e in
          do result <- make_filled (TVec k) n v ;
          array_loop (n - 1) s c 1 result
      end.

  (** (type == <simple-object-vector>, <simple-object-vector>), collection.dylan:325-335 *)
  Definition map_as_vector (s : S) (c : coll) : outcome (S * coll) :=
    do n <- coll_size c ;
    array_loop n s c 0 (CVec VkObject (replicate n VFalse)).

  (** map-as-one: which method is called.  The methods for <infinite-range> (range.dylan:889-925)
      signal an error. *)
  Definition map_as_one (fuel : nat) (s : S) (ty : ttype) (h : heap) (src : source) : outcome (S * coll) :=
    do seq <- src_is_sequence h src ;
    do single <- (match src with One a => do c <- at_ h a ; Val (Some c) | _ => Val None end) ;
    match single, ty with
    | Some (CRangeInf _ _), _ => Signal "Cannot map over an infinite range"
    | Some (CVec VkObject l), TVec VkObject => map_as_vector s (CVec VkObject l)
    | Some (CVec k' l), TVec k => map_as_array s k (CVec k' l)
    | _, TList => if seq then map_as_list fuel s h src else map_as_acc fuel s ty h src true
    | _, TDeq => if seq then map_as_deque fuel s h src else map_as_acc fuel s ty h src true
    | _, _ => map_as_acc fuel s ty h src (negb seq)
    end.

  (** map-as, collection.dylan:224-234 *)
  Definition map_as (fuel : nat) (s : S) (ty : ttype) (h : heap) (a : nat) (more : list nat) : outcome (S * coll) :=
    do src <- multiple_collection h a more ; map_as_one fuel s ty h src.

  (** type-for-copy: vector.dylan:571-574, stretchy-vector.dylan:620-623, string.dylan:122-125,
      deque.dylan:137-145, list.dylan:67-69, range.dylan:126-129, table.dylan:1778-1786 *)
  Definition type_for_copy (c : coll) : ttype :=
    match c with
    | CVec k _ => TVec k
    | CDeq _ _ => TDeq
    | CList _ | CRange _ _ _ | CRangeInf _ _ => TList
    | CTab kt _ => TTab kt
    end.

  (** map, collection.dylan:204-214 *)
  Definition map_ (fuel : nat) (s : S) (h : heap) (a : nat) (more : list nat) : outcome (S * coll) :=
    do c <- at_ h a ; map_as fuel s (type_for_copy c) h a more.
End map_as.
