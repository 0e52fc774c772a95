(** Model of sources/dylan/sort.dylan.

    Vectors are [list A]; the [test] keyword is a pure total boolean function (a test
    that signals, escapes or mutates the vector is not modelled).  Indices are [nat]:
    all indices of the code are non-negative as long as no access is out of range; the
    one place where an index could be decremented below zero is made [UB] explicitly. *)
From Verif Require Import Base.
Local Open Scope outcome_scope.

Section sort.
Context {A : Type} (test : A -> A -> bool).

(** sort.dylan:63-71 sort-range-check. *)
Definition sort_range_check (size s e : nat) : outcome unit :=
  if bool_decide (size < s) then Signal "element-range-error"%string
  else if bool_decide (size < e) then Signal "element-range-error"%string
  else Val tt.

(** sort.dylan:78-86 primitive-swap-elements!. *)
Definition swap_elements (v : list A) (k1 k2 : nat) : outcome (list A) :=
  do e1 <- vread v k1;
  do e2 <- vread v k2;
  do v1 <- vwrite v k1 e2;
  vwrite v1 k2 e1.

(** sort.dylan:117-122, the inner [for] of primitive-insertion-sort!.  The argument
    [j] is insert-key + 1, so that "from current-key - 1 to _start by -1" stops when
    [j = s].  Structural on [j]. *)
Fixpoint insert_loop (v : list A) (cur : A) (s j : nat) : outcome (list A) :=
  match j with
  | 0 => vwrite v j cur
  | S ik =>
      if bool_decide (ik < s) then vwrite v j cur
      else
        do y <- vread v ik;
        if test cur y then
          do v' <- vwrite v j y;
          insert_loop v' cur s ik
        else vwrite v j cur
  end.

(** sort.dylan:115-123, the outer [for]: current-key from [k], [n] iterations left. *)
Fixpoint insertion_outer (v : list A) (s k n : nat) : outcome (list A) :=
  match n with
  | 0 => Val v
  | S n' =>
      do cur <- vread v k;
      do v' <- insert_loop v cur s k;
      insertion_outer v' s (S k) n'
  end.

(** sort.dylan:108-126 primitive-insertion-sort!; "from _start + 1 below _end" makes
    _end - (_start + 1) iterations. *)
Definition insertion_sort (v : list A) (s e : nat) : outcome (list A) :=
  do _ <- sort_range_check (length v) s e;
  insertion_outer v s (S s) (e - S s).

(** sort.dylan:158. *)
Definition small_sort_size : nat := 10.

(** sort.dylan:198-213, first loop of primitive-merge!: [n] merge keys left; the
    merge vector is filled from left to right, so it is built as a list. *)
Fixpoint merge_loop (v : list A) (sk mk mid e n : nat) : outcome (list A) :=
  match n with
  | 0 => Val []
  | S n' =>
      if bool_decide (mid <= sk) then
        do x <- vread v mk;
        do r <- merge_loop v sk (S mk) mid e n';
        Val (x :: r)
      else if bool_decide (e <= mk) then
        do x <- vread v sk;
        do r <- merge_loop v (S sk) mk mid e n';
        Val (x :: r)
      else
        do xm <- vread v mk;
        do xs <- vread v sk;
        if test xm xs then
          do r <- merge_loop v sk (S mk) mid e n';
          Val (xm :: r)
        else
          do r <- merge_loop v (S sk) mk mid e n';
          Val (xs :: r)
  end.

(** sort.dylan:214-217, second loop of primitive-merge!: copy back. *)
Fixpoint copy_back (v : list A) (k : nat) (mv : list A) : outcome (list A) :=
  match mv with
  | [] => Val v
  | x :: r => do v' <- vwrite v k x; copy_back v' (S k) r
  end.

(** sort.dylan:189-219 primitive-merge!. *)
Definition merge (v : list A) (s mid e : nat) : outcome (list A) :=
  do mv <- merge_loop v s mid mid e (e - s);
  copy_back v s mv.

(** sort.dylan:253-274 primitive-merge-sort! (recursion on fuel). *)
Fixpoint merge_sort (fuel : nat) (v : list A) (s e : nat) : outcome (list A) :=
  match fuel with
  | 0 => NoFuel
  | S f =>
      do _ <- sort_range_check (length v) s e;
      let len := e - s in
      if bool_decide (len < small_sort_size) then insertion_sort v s e
      else if bool_decide (1 < len) then
        let mid := s + len / 2 in
        do v1 <- merge_sort f v s mid;
        do v2 <- merge_sort f v1 mid e;
        merge v2 s mid e
      else Val v
  end.

(** sort.dylan:314-337 primitive-median-of-three; "_end - 1" with _end = 0 would read
    vector[-1], hence [UB]. *)
Definition median_of_three (v : list A) (s e : nat) : outcome nat :=
  let middle := (s + e) / 2 in
  do start_elt <- vread v s;
  do end_elt <- match e with 0 => UB | S e' => vread v e' end;
  do middle_elt <- vread v middle;
  if test start_elt end_elt then
    if test middle_elt end_elt then Val middle else Val e
  else
    if test middle_elt start_elt then Val middle else Val s.

(** sort.dylan:378-380, the loop moving small-key up. *)
Fixpoint scan_small (fuel : nat) (v : list A) (pivot : A) (k : nat) : outcome nat :=
  match fuel with
  | 0 => NoFuel
  | S f =>
      do x <- vread v k;
      if test x pivot then scan_small f v pivot (S k) else Val k
  end.

(** sort.dylan:381-383, the loop moving large-key down; below 0 the next access is
    vector[-1], hence [UB]. *)
Fixpoint scan_large (v : list A) (pivot : A) (k : nat) : outcome nat :=
  do x <- vread v k;
  if test pivot x then
    match k with 0 => UB | S k' => scan_large v pivot k' end
  else Val k.

(** sort.dylan:376-391, the outer [while (#t)]; at the swap small-key < large-key, so
    large-key - 1 does not underflow. *)
Fixpoint partition_loop (fuel : nat) (v : list A) (pivot : A) (small large : nat)
  : outcome (list A * nat) :=
  match fuel with
  | 0 => NoFuel
  | S f =>
      do small1 <- scan_small (S (length v)) v pivot small;
      do large1 <- scan_large v pivot large;
      if bool_decide (small1 < large1) then
        do v' <- swap_elements v small1 large1;
        partition_loop f v' pivot (S small1) (large1 - 1)
      else Val (v, small1)
  end.

(** sort.dylan:368-394 primitive-partition!.  "_end - 1" with _end = 0 is [UB]: the
    code would go on to read vector[-1]. *)
Definition partition (v : list A) (s e : nat) : outcome (list A * nat) :=
  match e with
  | 0 => UB
  | S e' =>
      do pk <- median_of_three v s e';
      do pivot <- vread v pk;
      partition_loop (S (length v)) v pivot s e'
  end.

(** sort.dylan:424-441 primitive-quick-sort! (recursion on fuel). *)
Fixpoint quick_sort (fuel : nat) (v : list A) (s e : nat) : outcome (list A) :=
  match fuel with
  | 0 => NoFuel
  | S f =>
      do _ <- sort_range_check (length v) s e;
      let len := e - s in
      if bool_decide (len < small_sort_size) then insertion_sort v s e
      else if bool_decide (1 < len) then
        do ' (v1, mid) <- partition v s e;
        do v2 <- quick_sort f v1 s mid;
        quick_sort f v2 mid e
      else Val v
  end.

(** sort.dylan:463-471 sort! on a vector. *)
Definition sort_bang (stable : bool) (v : list A) : outcome (list A) :=
  if stable then merge_sort (S (length v)) v 0 (length v)
  else quick_sort (S (length v)) v 0 (length v).

End sort.
