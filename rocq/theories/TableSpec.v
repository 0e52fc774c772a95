(** Specification of hash tables: what a history of operations on a table may
    return, said without vectors, probes, tokens or rehashes. *)
From Verif Require Import Base TableModel.
Open Scope Z_scope.

(** ** What a table may assume of its protocol and of the collector

    [since h] is the number of collections after which the oldest dependency in
    the hash state [h] was recorded ([None]: it has no dependencies). *)
Record contract {K HS} (P : protocol K HS) (since : HS -> option nat) : Prop := {
  (** the test is an equivalence, and keys that pass it have the same code *)
  test_refl : forall k, test P k k = true;
  test_sym : forall k k', test P k k' = true -> test P k' k = true;
  test_trans : forall k1 k2 k3,
    test P k1 k2 = true -> test P k2 k3 = true -> test P k1 k3 = true;
  hash_test : forall e k k',
    test P k k' = true -> fst (hashf P e k) = fst (hashf P e k');
  (** the hash state returned with a code covers everything the code depends
      on: as long as it is not stale, the code has not changed *)
  hash_covered : forall k e0 e e',
    (e0 <= e <= e')%nat -> hs_stale P (snd (hashf P e0 k)) e' = false ->
    fst (hashf P e k) = fst (hashf P e0 k);
  merge_covered : forall h h' e,
    hs_stale P (hs_merge P h h') e = false ->
    hs_stale P h e = false /\ hs_stale P h' e = false;
  (** nothing becomes stale without a collection *)
  since_new : since (hs_new P) = None;
  since_hash : forall e k,
    since (snd (hashf P e k)) = None \/ since (snd (hashf P e k)) = Some e;
  since_merge : forall h h',
    since (hs_merge P h h') =
    match since h, since h' with
    | None, o | o, None => o
    | Some a, Some b => Some (a `min` b)%nat
    end;
  stale_since : forall h e,
    hs_stale P h e = true -> exists e0, since h = Some e0 /\ (e0 < e)%nat;
  (** and what is stale stays so *)
  stale_mono : forall h e e',
    (e <= e')%nat -> hs_stale P h e = true -> hs_stale P h e' = true;
}.

Section Spec.
Context {K V : Type} (same : K -> K -> bool).

(** ** A finite map whose keys are compared with [same] *)
Definition mget (m : list (K * V)) (k : K) : option V :=
  snd <$> find (fun p => same k p.1) m.
Definition mdel (m : list (K * V)) (k : K) : list (K * V) :=
  List.filter (fun p => negb (same k p.1)) m.
(** Storing under a key that is present keeps the key that is there. *)
Definition mset (m : list (K * V)) (k : K) (v : V) : list (K * V) :=
  if existsb (fun p => same k p.1) m
  then map (fun p => if same k p.1 then (p.1, v) else p) m
  else (k, v) :: m.

Definition kin (k : K) (l : list K) : bool := existsb (same k) l.
Definition kdel (k : K) (l : list K) : list K := List.filter (fun x => negb (same k x)) l.

(** ** Iterations

    [at_key] is the key the iteration is at ([None]: finished).  [must] are the
    keys that have been in the table ever since the iteration started and have
    not been visited yet; [seen] are the keys that have been visited and not
    been removed since; [ever] are the keys that have been in the table at
    some time during the iteration. *)
Record cursor_spec := CursorSpec {
  at_key : option K;
  must : list K;
  seen : list K;
  ever : list K;
}.

Inductive advance (c : cursor_spec) : option K -> cursor_spec -> Prop :=
| advance_key k :
    kin k (ever c) = true -> kin k (seen c) = false ->
    advance c (Some k) (CursorSpec (Some k) (kdel k (must c)) (k :: seen c) (ever c))
| advance_end :
    must c = [] ->
    advance c None (CursorSpec None [] (seen c) (ever c)).

Definition cursor_put (k : K) (c : cursor_spec) : cursor_spec :=
  CursorSpec (at_key c) (must c) (seen c) (k :: ever c).
Definition cursor_remove (k : K) (c : cursor_spec) : cursor_spec :=
  CursorSpec (at_key c) (kdel k (must c)) (kdel k (seen c)) (ever c).
Definition cursor_clear (c : cursor_spec) : cursor_spec :=
  CursorSpec (at_key c) [] [] (ever c).

Record aworld := AWorld { amap : list (K * V); cursors : list cursor_spec }.

(** [spec_step a o r a']: in the state [a] operation [o] may return [r], and
    then the state is [a']. *)
Inductive spec_step (a : aworld) : op (K := K) (V := V) -> res (K := K) (V := V) -> aworld -> Prop :=
| spec_get k : spec_step a (OGet k) (RValue (mget (amap a) k)) a
| spec_put k v :
    spec_step a (OPut k v) RUnit
      (AWorld (mset (amap a) k v) (map (cursor_put k) (cursors a)))
| spec_remove k :
    spec_step a (ORemove k) (RBool (bool_decide (is_Some (mget (amap a) k))))
      (AWorld (mdel (amap a) k) (map (cursor_remove k) (cursors a)))
| spec_clear :
    spec_step a OClear RUnit (AWorld [] (map cursor_clear (cursors a)))
| spec_size : spec_step a OSize (RInt (Z.of_nat (length (amap a)))) a
| spec_empty : spec_step a OEmpty (RBool (bool_decide (amap a = []))) a
| spec_iter k c :
    advance (CursorSpec None (map fst (amap a)) [] (map fst (amap a))) k c ->
    spec_step a OIter (RCursor k) (AWorld (amap a) (cursors a ++ [c]))
| spec_next i c k c' :
    cursors a !! i = Some c -> is_Some (at_key c) -> advance c k c' ->
    spec_step a (ONext i) (RCursor k) (AWorld (amap a) (<[i := c']> (cursors a)))
| spec_next_finished i c :
    cursors a !! i = Some c -> at_key c = None ->
    spec_step a (ONext i) (RCursor None) a
| spec_finished i c :
    cursors a !! i = Some c ->
    spec_step a (OFinished i) (RBool (bool_decide (at_key c = None))) a
| spec_key i c k :
    cursors a !! i = Some c -> at_key c = Some k ->
    spec_step a (OKey i) (RKey k) a
| spec_element i c k v :
    cursors a !! i = Some c -> at_key c = Some k -> mget (amap a) k = Some v ->
    spec_step a (OElement i) (RValue (Some v)) a
| spec_element_removed i c k r :
    (** the current entry has been removed since it was reached: an error or an
        old value, even if there is an entry with that key again *)
    cursors a !! i = Some c -> at_key c = Some k ->
    kin k (seen c) = false \/ mget (amap a) k = None ->
    r = RError \/ (exists v, r = RValue (Some v)) ->
    spec_step a (OElement i) r a
| spec_set_element i c k v :
    cursors a !! i = Some c -> at_key c = Some k ->
    spec_step a (OSetElement i v) RUnit
      (AWorld (mset (amap a) k v) (map (cursor_put k) (cursors a)))
| spec_copy i c :
    cursors a !! i = Some c ->
    spec_step a (OCopy i) (RCursor (at_key c)) (AWorld (amap a) (cursors a ++ [c]))
| spec_error i o c :
    (** current key and element of a finished iteration *)
    cursors a !! i = Some c -> at_key c = None ->
    (o = OKey i \/ o = OElement i \/ exists v, o = OSetElement i v) ->
    spec_step a o RError a
| spec_no_state i o :
    (** there is no such iteration *)
    cursors a !! i = None ->
    (o = ONext i \/ o = OFinished i \/ o = OKey i \/ o = OElement i \/
     o = OCopy i \/ exists v, o = OSetElement i v) ->
    spec_step a o RError a
| spec_purge i : spec_step a (OPurge i) RUnit a.

Inductive spec_run (a : aworld) : list op -> list res -> aworld -> Prop :=
| spec_run_nil : spec_run a [] [] a
| spec_run_cons o r a1 os rs a2 :
    spec_step a o r a1 -> spec_run a1 os rs a2 -> spec_run a (o :: os) (r :: rs) a2.

(** The number of operations in a history that may add an entry. *)
Definition adds (os : list (op (K := K) (V := V))) : nat :=
  length (List.filter
    (fun o => match o with OPut _ _ | OSetElement _ _ => true | _ => false end) os).

End Spec.
Arguments cursor_spec K : clear implicits.
Arguments aworld K V : clear implicits.

(** The largest number of entries a vector of the largest size is made for. *)
Definition max_entries : Z := 347872734.

(** A grow-size function that gives a usable answer up to [n] entries. *)
Definition grow_ok (grow : Z -> outcome Z) (n : Z) : Prop :=
  n + 14 <= max_entries /\
  forall p, 0 <= p <= n -> exists g, grow p = Val g /\ g <= max_entries.
