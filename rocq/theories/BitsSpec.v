(** Specification of bit vectors and bit sets: a bit vector with a pad is an infinite sequence
    of bits; a bit set is a set of natural numbers, given by its characteristic function. *)
From Coq Require Import Sorting.Sorted.
From Verif Require Import Base BitsModel.
Local Open Scope nat_scope.

(** The bit at position [i] of the words of a vector (position [i] is bit [i mod 64] of word
    [i / 64]). *)
Definition bit (v : bitvec) (i : nat) : bool :=
  match bv_words v !! (i / 64) with
  | Some w => N.testbit w (N.of_nat (i mod 64))
  | None => false
  end.

(** The vector extended by its pad. *)
Definition ext (v : bitvec) (pad : bool) (i : nat) : bool :=
  if decide (i < bv_size v) then bit v i else pad.

(** A vector as make(<bit-vector>) lays it out: just enough words for its bits, each word a
    64-bit word. *)
Definition bv_wf (v : bitvec) : Prop :=
  length (bv_words v) = (bv_size v + 63) / 64 /\ Forall (fun w => (w < 2 ^ 64)%N) (bv_words v).

(** What the four binary functions have in common.  [f] is the function, [bop] the boolean
    operation; the result is a fresh vector. *)
Definition computes (f : list bitvec -> nat -> nat -> bool -> bool -> outcome (list bitvec * nat * bool))
    (bop : bool -> bool -> bool) : Prop :=
  forall h a1 a2 p1 p2 v1 v2,
  h !! a1 = Some v1 -> h !! a2 = Some v2 -> bv_wf v1 -> bv_wf v2 ->
  exists v, f h a1 a2 p1 p2 = Val (h ++ [v], length h, bop p1 p2) /\ bv_wf v /\
    (bv_size v = bv_size v1 \/ bv_size v = bv_size v2) /\
    forall i, ext v (bop p1 p2) i = bop (ext v1 p1 i) (ext v2 p2 i).
(** The destructive ones store into the first vector or return a fresh one. *)
Definition computes_bang (f : list bitvec -> nat -> nat -> bool -> bool -> outcome (list bitvec * nat * bool))
    (bop : bool -> bool -> bool) : Prop :=
  forall h a1 a2 p1 p2 v1 v2,
  h !! a1 = Some v1 -> h !! a2 = Some v2 -> bv_wf v1 -> bv_wf v2 ->
  exists v h' r, f h a1 a2 p1 p2 = Val (h', r, bop p1 p2) /\
    ((r = a1 /\ h' = <[a1 := v]> h) \/ (r = length h /\ h' = h ++ [v])) /\ bv_wf v /\
    (bv_size v = bv_size v1 \/ bv_size v = bv_size v2) /\
    forall i, ext v (bop p1 p2) i = bop (ext v1 p1 i) (ext v2 p2 i).

(** ** Sets of natural numbers *)
Definition nset := nat -> bool.

Definition s_with (A : nset) (x : nat) (b : bool) : nset :=
  fun i => if decide (i = x) then b else A i.

Fixpoint s_add_all (A : nset) (l : list Z) : option nset :=
  match l with
  | [] => Some A
  | x :: r => if decide (0 <= x)%Z then s_add_all (s_with A (Z.to_nat x) true) r else None
  end.

Definition s_initial (all_from : option nat) : nset :=
  fun i => match all_from with Some n => bool_decide (n <= i) | None => false end.

(** What an operation does to the numbered sets; [None]: an error is signalled because a
    negative number was given. *)
Definition spec_step (As : list nset) (o : bop) : option (list nset) :=
  let A k := nth k As (fun _ => false) in
  let new X := Some (As ++ [X]) in
  let upd k X := Some (<[k := X]> As) in
  let nat_arg x f := if decide (0 <= x)%Z then f (Z.to_nat x) else None in
  match o with
  | MakeSet _ af ms => match s_add_all (s_initial af) ms with Some X => new X | None => None end
  | SetAdd k x => nat_arg x (fun x => new (s_with (A k) x true))
  | SetAddBang k x => nat_arg x (fun x => upd k (s_with (A k) x true))
  | SetRemove k x => nat_arg x (fun x => new (s_with (A k) x false))
  | SetRemoveBang k x => nat_arg x (fun x => upd k (s_with (A k) x false))
  | Union k j => new (fun i => A k i || A j i)
  | UnionBang k j => upd k (fun i => A k i || A j i)
  | Intersection k j => new (fun i => A k i && A j i)
  | IntersectionBang k j => upd k (fun i => A k i && A j i)
  | Difference k j => new (fun i => A k i && negb (A j i))
  | DifferenceBang k j => upd k (fun i => A k i && negb (A j i))
  | Complement k => new (fun i => negb (A k i))
  | ComplementBang k => upd k (fun i => negb (A k i))
  | CopyBang k j => upd k (A j)
  | EmptyBang k => upd k (fun _ => false)
  | UniversalBang k => upd k (fun _ => true)
  end.

Fixpoint spec_run (As : list nset) (ops : list bop) : option (list nset) :=
  match ops with
  | [] => Some As
  | o :: r => match spec_step As o with Some As' => spec_run As' r | None => None end
  end.

(** The set numbers an operation mentions, whether it makes a new set, whether it is
    empty-bit-set! or universal-bit-set!, and the sizes it asks for. *)
Definition op_args (o : bop) : list nat :=
  match o with
  | MakeSet _ _ _ => []
  | SetAdd k _ | SetAddBang k _ | SetRemove k _ | SetRemoveBang k _
  | Complement k | ComplementBang k | EmptyBang k | UniversalBang k => [k]
  | Union k j | UnionBang k j | Intersection k j | IntersectionBang k j
  | Difference k j | DifferenceBang k j | CopyBang k j => [k; j]
  end.
Definition op_makes (o : bop) : bool :=
  match o with
  | MakeSet _ _ _ | SetAdd _ _ | SetRemove _ _ | Union _ _ | Intersection _ _
  | Difference _ _ | Complement _ => true
  | _ => false
  end.
Definition op_fills (o : bop) : bool :=
  match o with EmptyBang _ | UniversalBang _ => true | _ => false end.
Definition op_hints (o : bop) : list nat :=
  match o with
  | MakeSet hint af _ => match af, hint with
                         | Some n, _ => [n] | None, Some n => [n] | None, None => [] end
  | _ => []
  end.

(** Operations only mention sets that exist; [n] sets exist already. *)
Fixpoint ops_valid (n : nat) (ops : list bop) : Prop :=
  match ops with
  | [] => True
  | o :: r => Forall (fun k => k < n) (op_args o) /\ ops_valid (if op_makes o then S n else n) r
  end.

Definition finite_set (A : nset) : Prop := exists n, forall i, n <= i -> A i = false.

(** [n] is the number of members of [A]. *)
Definition has_size (A : nset) (n : nat) : Prop :=
  exists l : list nat, NoDup l /\ length l = n /\ forall i, A i = true <-> i ∈ l.

(** [l] lists members of [A] in increasing order without leaving one out before its end;
    when [fin] holds it lists them all. *)
Definition lists_up (A : nset) (l : list Z) (fin : bool) : Prop :=
  StronglySorted Z.lt l /\
  (forall x, x ∈ l -> (0 <= x)%Z /\ A (Z.to_nat x) = true) /\
  (forall i, A i = true -> Z.of_nat i ∈ l \/ (fin = false /\ forall x, x ∈ l -> (x < Z.of_nat i)%Z)) /\
  (fin = false -> exists i, A i = true /\ Z.of_nat i ∉ l).

Definition lists_down (A : nset) (l : list Z) : Prop :=
  StronglySorted Z.gt l /\ forall x, x ∈ l <-> (0 <= x)%Z /\ A (Z.to_nat x) = true.

(** What the query functions must answer in a state in which set number [k] is [As !! k]. *)
Definition answers (st : state) (As : list nset) : Prop :=
  forall k A, As !! k = Some A ->
  exists b, snd st !! k = Some b /\
    (forall x : Z, set_member (fst st) b x
       = if decide (0 <= x)%Z then Val (A (Z.to_nat x))
         else Signal "element-range-error"%string) /\
    (exists n, set_size (fst st) b = Val n /\
       match n with Some n => finite_set A /\ has_size A n | None => ~ finite_set A end) /\
    (exists r, set_empty (fst st) b = Val r /\ (r = true <-> forall i, A i = false)) /\
    (bs_pad b = false <-> finite_set A) /\
    (forall j A', As !! j = Some A' -> exists b', snd st !! j = Some b' /\
       exists r, set_equal (fst st) (bool_decide (j = k)) b b' = Val r /\
                 (r = true <-> forall i, A i = A' i)).
