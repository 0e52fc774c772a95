(** Model of [split] and [join] of the common-dylan library, with the sequence
    operations they are made of ([copy-sequence], [replace-subsequence!]).

    A sequence is the list of its elements; positions are [Z] because the code
    takes any <integer>.  Checked element accesses signal; the accesses made
    under [without-bounds-checks] are undefined outside the object.
    Simplifications: the class of the result ([type-for-copy], [object-class])
    is not represented, so a piece whose elements do not fit the class of the
    first piece of a [join] is not modelled; positions are unbounded integers
    (they never exceed the size of a sequence plus one). *)
From Verif Require Import Base.
Local Open Scope Z_scope.
Local Open Scope outcome_scope.

Section split.
Context {A : Type}.

(** Checked [element] on a sequence.
    /repo/sources/dylan/vector.dylan, string-speed.dylan [element]: signal unless
    0 <= index < size. *)
Definition elt (s : list A) (i : Z) : outcome A :=
  if bool_decide (0 <= i) then
    match s !! Z.to_nat i with Some x => Val x | None => Signal "element-range-error" end
  else Signal "element-range-error".

Definition size (s : list A) : Z := Z.of_nat (length s).

(** /repo/sources/dylan/sequence.dylan:498-511 [check-start-compute-end] with
    [last] supplied. *)
Definition check_start_compute_end (s : list A) (start last : Z) : outcome Z :=
  if bool_decide (start < 0) then Signal "invalid-sequence-start-error"
  else if bool_decide (size s < last) then Signal "invalid-sequence-end-error"
  else if bool_decide (last < start) then Signal "invalid-sequence-bounds-error"
  else Val last.

(** /repo/sources/dylan/string-speed.dylan:127-139 [copy-sequence] (the generic
    one, sequence.dylan:514-541, copies the same elements); the block copy of
    [sz] elements from [first] is unchecked. *)
Definition copy_sequence (s : list A) (first last : Z) : outcome (list A) :=
  do last' <- check_start_compute_end s first last ;
  let sz := last' - first in
  if bool_decide (0 <= first /\ 0 <= sz /\ first + sz <= size s)
  then Val (take (Z.to_nat sz) (drop (Z.to_nat first) s))
  else UB.

(** /repo/sources/common-dylan/common-extensions.dylan:228-263 [split] on a
    separator-finding function.  [loop] is the [iterate loop] of lines 235-262;
    [fuel] bounds its number of rounds. *)
Fixpoint split_loop (find : list A -> Z -> Z -> outcome (option (Z * Z)))
    (s : list A) (epos count : Z) (rie : bool)
    (fuel : nat) (bpos : Z) (parts : list (list A)) (nparts : Z)
    : outcome (list (list A)) :=
  match fuel with
  | O => NoFuel
  | S fuel' =>
      (* 255-260 *)
      let final :=
        do part <- copy_sequence s bpos epos ;
        if rie && bool_decide (length part = 0%nat) then Val parts
        else Val (part :: parts) in
      do r <- find s bpos epos ;
      match r with
      | Some (sep_start, sep_end) =>
          if bool_decide (sep_end <= epos) then            (* 240 *)
            if bool_decide (sep_start = sep_end) then      (* 243 *)
              Signal "cannot split on an empty separator"
            else
              do part <- copy_sequence s bpos sep_start ;  (* 246 *)
              if rie && bool_decide (length part = 0%nat) then
                split_loop find s epos count rie fuel' sep_end parts nparts
              else if bool_decide (nparts < count) then
                split_loop find s epos count rie fuel' sep_end (part :: parts) (nparts + 1)
              else
                do rest <- copy_sequence s bpos epos ;     (* 252 *)
                Val (rest :: parts)
          else final
      | None => final
      end
  end.

(** The rounds made by [split]: each round with a separator moves [bpos] forward. *)
Definition split_fuel (start epos : Z) : nat := S (Z.to_nat (epos - start)).

Definition split_fn (find : list A -> Z -> Z -> outcome (option (Z * Z)))
    (s : list A) (start epos count : Z) (rie : bool) : outcome (list (list A)) :=
  do parts <- split_loop find s epos count rie (split_fuel start epos) start [] 1 ;
  Val (rev parts).

(** common-extensions.dylan:277-289 [looking-at?]; the [iterate loop] moves along
    the pattern, so it is a recursion on what is left of the pattern.
    [pattern[ppos]] is always within the pattern. *)
Fixpoint looking_at (test : A -> A -> bool) (big : list A) (pat : list A) (bpos : Z)
    : outcome bool :=
  match pat with
  | [] => Val true                                            (* 282 *)
  | p :: pat' =>
      if bool_decide (size big <= bpos) then Val false        (* 283 *)
      else
        do b <- elt big bpos ;                                (* 284 *)
        if negb (test p b) then Val false
        else looking_at test big pat' (bpos + 1)              (* 286 *)
  end.

(** common-extensions.dylan:291-307 [find-separator]; [fuel] bounds the rounds of
    the loop 298-306. *)
Fixpoint find_separator_loop (test : A -> A -> bool) (sep s : list A) (max_start : Z)
    (fuel : nat) (i : Z) : outcome (option (Z * Z)) :=
  match fuel with
  | O => NoFuel
  | S fuel' =>
      if bool_decide (i <= max_start) then
        do b <- looking_at test s sep i ;
        if (b : bool) then Val (Some (i, i + size sep))
        else find_separator_loop test sep s max_start fuel' (i + 1)
      else Val None
  end.

Definition find_separator (test : A -> A -> bool) (sep s : list A) (bpos epos : Z)
    : outcome (option (Z * Z)) :=
  let max_start := epos - size sep in
  find_separator_loop test sep s max_start (S (S (Z.to_nat (max_start - bpos)))) bpos.

(** common-extensions.dylan:268-310 [split] on a separator sequence. *)
Definition split_seq (test : A -> A -> bool) (s sep : list A)
    (start epos count : Z) (rie : bool) : outcome (list (list A)) :=
  split_fn (find_separator test sep) s start epos count rie.

(** common-extensions.dylan:322-335 [find-pos]. *)
Fixpoint find_pos_loop (test : A -> A -> bool) (sep : A) (s : list A) (epos : Z)
    (fuel : nat) (i : Z) : outcome (option (Z * Z)) :=
  match fuel with
  | O => NoFuel
  | S fuel' =>
      if bool_decide (i < epos) then
        do x <- elt s i ;
        if test x sep then Val (Some (i, i + 1))
        else find_pos_loop test sep s epos fuel' (i + 1)
      else Val None
  end.

Definition find_pos (test : A -> A -> bool) (sep : A) (s : list A) (bpos epos : Z)
    : outcome (option (Z * Z)) :=
  find_pos_loop test sep s epos (S (Z.to_nat (epos - bpos))) bpos.

(** common-extensions.dylan:314-338 [split] on a separator object. *)
Definition split_obj (test : A -> A -> bool) (s : list A) (sep : A)
    (start epos count : Z) (rie : bool) : outcome (list (list A)) :=
  split_fn (find_pos test sep) s start epos count rie.

(** /repo/sources/dylan/vector.dylan:525-528: the in-place loop of
    [replace-subsequence!], which stops at the shorter of [start..last) and the
    inserted sequence; stores are unchecked. *)
Fixpoint store_loop (target : list A) (index last : Z) (ins : list A) : outcome (list A) :=
  match ins with
  | [] => Val target
  | e :: ins' =>
      if bool_decide (index < last) then
        do target' <- zwrite target index e ;
        store_loop target' (index + 1) last ins'
      else Val target
  end.

(** vector.dylan:515-545 [replace-subsequence!] (<vector>, <vector>).  The branch
    that builds a new vector (530-543) is given by its result; [join] always
    replaces as many elements as it deletes and never takes it. *)
Definition replace_subsequence (target ins : list A) (start last : Z) : outcome (list A) :=
  do last' <- check_start_compute_end target start last ;
  if bool_decide (last' - start = size ins) then store_loop target start last' ins
  else Val (take (Z.to_nat start) target ++ ins ++ drop (Z.to_nat last') target).

(** common-extensions.dylan:385-388 [copy-to-result] on ([result], [result-index]). *)
Definition copy_to_result (st : list A * Z) (s : list A) : outcome (list A * Z) :=
  do r <- replace_subsequence st.1 s st.2 (st.2 + size s) ;
  Val (r, st.2 + size s).

(** common-extensions.dylan:391-399: the loop from index 1 to [max-index].  [i] is
    the index of the head of [seqs]. *)
Fixpoint join_loop (sep : list A) (conj : option (list A)) (max_index : Z)
    (i : Z) (seqs : list (list A)) (st : list A * Z) : outcome (list A * Z) :=
  match seqs with
  | [] => Val st
  | s :: seqs' =>
      do st1 <- copy_to_result st
        (match conj with
         | Some c => if bool_decide (i = max_index) then c else sep
         | None => sep
         end) ;
      do st2 <- copy_to_result st1 s ;
      join_loop sep conj max_index (i + 1) seqs' st2
  end.

(** common-extensions.dylan:353-402 [join] with [key] the identity; [fill] is what
    [make] fills the fresh sequence with. *)
Definition join (fill : A) (seqs : list (list A)) (sep : list A) (conj : option (list A))
    : outcome (list A) :=
  match seqs with
  | [] => Val []                                             (* 364-365 *)
  | [s] => Val s                                             (* 366-367 *)
  | first :: rest =>
      let len := Z.of_nat (length seqs) in
      let result_size :=                                     (* 369-381 *)
        fold_left (fun n s => n + size s) seqs 0 + size sep * (len - 1)
        + match conj with Some c => size c - size sep | None => 0 end in
      if bool_decide (result_size < 0) then Signal "make: negative size"
      else
        do st1 <- copy_to_result (replicate (Z.to_nat result_size) fill, 0) first ;
        do st <- join_loop sep conj (len - 1) 1 rest st1 ;
        Val st.1
  end.

End split.
