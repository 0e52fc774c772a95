(** Shared vocabulary of all models: outcomes and checked/unchecked vectors. *)
From stdpp Require Export base tactics list numbers strings.

(** The outcome of running a piece of Dylan or C code.
    - [Val a]     : normal return with [a];
    - [Signal m]  : a Dylan error was signalled (the tag says which);
    - [UB]        : an access the code performs without a check fell outside the
                    object it belongs to (undefined behaviour);
    - [NoFuel]    : the model's fuel for an unbounded loop ran out; every theorem
                    excludes this outcome. *)
Inductive outcome (A : Type) : Type :=
| Val (a : A)
| Signal (m : string)
| UB
| NoFuel.
Global Arguments Val {A} a.
Global Arguments Signal {A} m.
Global Arguments UB {A}.
Global Arguments NoFuel {A}.

Definition obind {A B} (m : outcome A) (f : A -> outcome B) : outcome B :=
  match m with
  | Val a => f a
  | Signal e => Signal e
  | UB => UB
  | NoFuel => NoFuel
  end.

Declare Scope outcome_scope.
Delimit Scope outcome_scope with outcome.
Notation "'do' x <- m ; f" := (obind m (fun x => f))
  (at level 60, x name, m at level 59, right associativity) : outcome_scope.
Notation "'do' ' p <- m ; f" := (obind m (fun p => f))
  (at level 60, p strict pattern, m at level 59, right associativity) : outcome_scope.

(** Unchecked read/write of a vector slot ("without-bounds-checks"):
    outside the vector the behaviour is undefined. *)
Definition vread {A} (v : list A) (i : nat) : outcome A :=
  match v !! i with Some x => Val x | None => UB end.

Definition vwrite {A} (v : list A) (i : nat) (x : A) : outcome (list A) :=
  if bool_decide (i < length v) then Val (<[i:=x]> v) else UB.

Lemma vread_val {A} (v : list A) i x : v !! i = Some x -> vread v i = Val x.
Proof. unfold vread. by intros ->. Qed.

Lemma vread_Val_inv {A} (v : list A) i x : vread v i = Val x -> v !! i = Some x.
Proof. unfold vread. destruct (v !! i); congruence. Qed.

Lemma vwrite_val {A} (v : list A) i x : i < length v -> vwrite v i x = Val (<[i:=x]> v).
Proof. intros H. unfold vwrite. by rewrite bool_decide_true. Qed.

(** The same with [Z] indices, for code whose index variables may be negative. *)
Definition zread {A} (v : list A) (i : Z) : outcome A :=
  if bool_decide (0 <= i)%Z then vread v (Z.to_nat i) else UB.

Definition zwrite {A} (v : list A) (i : Z) (x : A) : outcome (list A) :=
  if bool_decide (0 <= i)%Z then vwrite v (Z.to_nat i) x else UB.

Lemma zread_val {A} (v : list A) i x :
  (0 <= i)%Z -> v !! Z.to_nat i = Some x -> zread v i = Val x.
Proof. intros H Hx. unfold zread. rewrite bool_decide_true by done. by apply vread_val. Qed.

Lemma zwrite_val {A} (v : list A) i x :
  (0 <= i < Z.of_nat (length v))%Z -> zwrite v i x = Val (<[Z.to_nat i:=x]> v).
Proof.
  intros H. unfold zwrite. rewrite bool_decide_true by lia. apply vwrite_val. lia.
Qed.
