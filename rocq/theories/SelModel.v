(** Model of the functions that make a sequence out of the elements of others: choose, choose-by,
    remove, remove-duplicates, intersection, union, add, add-new, reverse, reverse!, concatenate,
    concatenate-as, and of member? and last: sources/dylan/sequence.dylan, vector.dylan,
    string-speed.dylan, deque.dylan, list.dylan.
    Collections and iteration protocols are those of CollModel.v; a function passed by the user is a
    total Coq function without side effects.  The list a method conses together is a Coq list, and
    reverse! of it is [rev] (reverse! on lists is in ListModel.v).
    Not here: the methods on ranges (RangeModel.v) and those of remove, remove-duplicates, reverse and last
    on lists (ListModel.v). *)
From Verif Require Import Base CollModel AccModel SeqOpModel.
From Coq Require Import ZArith.
Local Open Scope outcome_scope.
Local Open Scope Z_scope.

(** for (item in c, r = r then step): the loop over the iteration protocol of [c] *)
Fixpoint for_items {R} (fuel : nat) (c : coll) (f : fip) (s : state) (step : R -> value -> outcome R) (r : R) : outcome R :=
  match fuel with
  | O => NoFuel
  | S fuel =>
      do b <- run_fin (f_fin f) c s (f_limit f) ;
      if b : bool then Val r
      else
        do item <- run_elt (f_elt f) c s ;
        do r <- step r item ;
        do s <- run_next (f_next f) c s ;
        for_items fuel c f s step r
  end.
Definition for_in {R} (fuel : nat) (c : coll) (step : R -> value -> outcome R) (r : R) : outcome R :=
  for_items fuel c (fip_of c) (f_init (fip_of c)) step r.

(** for (item in c, result = #f then test(item), until: result): any?-one, collection.dylan:712-718, and
    member?, collection.dylan:833-841 *)
Fixpoint any_items (fuel : nat) (c : coll) (f : fip) (s : state) (test : value -> bool) : outcome bool :=
  match fuel with
  | O => NoFuel
  | S fuel =>
      do b <- run_fin (f_fin f) c s (f_limit f) ;
      if b : bool then Val false
      else
        do item <- run_elt (f_elt f) c s ;
        if test item then Val true
        else
          do s <- run_next (f_next f) c s ;
          any_items fuel c f s test
  end.
Definition any_in (fuel : nat) (c : coll) (test : value -> bool) : outcome bool :=
  any_items fuel c (fip_of c) (f_init (fip_of c)) test.

(** ** member? *)

(** member? on <vector>, vector.dylan:345-362 ([test] is not \==, or is and [v] is a value object) *)
Fixpoint member_vector (n : nat) (test : value -> value -> bool) (v : value) (c : coll) (index : Z) : outcome bool :=
  match n with
  | O => Val false
  | S n =>
      do e <- array_read c index ;
      if test v e then Val true else member_vector n test v c (index + 1)
  end.

(** member? on (<byte-character>, <byte-string>), string-speed.dylan:12-30: for (key from 0 below sz,
    until: test(big[key], ch)) *)
Fixpoint member_string (n : nat) (test : value -> value -> bool) (ch : value) (big : coll) (key : Z) : outcome bool :=
  match n with
  | O => Val false
  | S n =>
      do e <- array_read big key ;
      if test e ch then Val true else member_string n test ch big (key + 1)
  end.

(** member? on <list>, list.dylan:323-338 *)
Fixpoint member_list (test : value -> value -> bool) (v : value) (l : list value) : bool :=
  match l with
  | [] => false
  | first :: remaining => if test v first then true else member_list test v remaining
  end.

(** member?.  A character is a <byte-character>.  The method on (<number>, <range>) with the default test
    is left out (RangeModel.v). *)
Definition member_of (fuel : nat) (test : value -> value -> bool) (v : value) (c : coll) : outcome bool :=
  match c, v with
  | CVec VkString l, VChr _ => member_string (length l) test v c 0
  | CVec _ l, _ => member_vector (length l) test v c 0
  | CList l, _ => Val (member_list test v l)
  | _, _ => any_in fuel c (fun item => test v item)
  end.

(** ** Selecting elements *)

(** choose, sequence.dylan:361-369 *)
Definition choose (fuel : nat) (test : value -> bool) (c : coll) : outcome coll :=
  do result <- for_in fuel c (fun result item => Val (if test item then item :: result else result)) [] ;
  as_type (type_for_copy c) (rev result).

(** choose-by, sequence.dylan:376-387: for (test-item in test-sequence, value-item in value-sequence) *)
Fixpoint choose_by_loop (fuel : nat) (test : value -> bool) (ct : coll) (ft : fip) (st : state) (cv : coll) (fv : fip) (sv : state)
    (result : list value) : outcome (list value) :=
  match fuel with
  | O => NoFuel
  | S fuel =>
      do b <- run_fin (f_fin ft) ct st (f_limit ft) ;
      if b : bool then Val result
      else
        do b <- run_fin (f_fin fv) cv sv (f_limit fv) ;
        if b : bool then Val result
        else
          do test_item <- run_elt (f_elt ft) ct st ;
          do value_item <- run_elt (f_elt fv) cv sv ;
          do st <- run_next (f_next ft) ct st ;
          do sv <- run_next (f_next fv) cv sv ;
          choose_by_loop fuel test ct ft st cv fv sv (if test test_item then value_item :: result else result)
  end.
Definition choose_by (fuel : nat) (test : value -> bool) (test_sequence value_sequence : coll) : outcome coll :=
  do result <- choose_by_loop fuel test test_sequence (fip_of test_sequence) (f_init (fip_of test_sequence))
                 value_sequence (fip_of value_sequence) (f_init (fip_of value_sequence)) [] ;
  as_type (type_for_copy value_sequence) (rev result).

(** remove, sequence.dylan:312-341 *)
Definition remove_step (test : value -> value -> bool) (v : value) (r : option Z * bool * list value) (item : value) : outcome (option Z * bool * list value) :=
  let '(count, changed, new_sequence) := r in
  match count with
  | Some count =>
      if (0 <? count) && test item v then Val (Some (count - 1), true, new_sequence)
      else Val (Some count, changed, item :: new_sequence)
  | None =>
      if test item v then Val (None, true, new_sequence) else Val (None, changed, item :: new_sequence)
  end.
Definition remove (fuel : nat) (test : value -> value -> bool) (count : option Z) (c : coll) (v : value) : outcome coll :=
  do ' (_, changed, new_sequence) <- for_in fuel c (remove_step test v) (count, false, []) ;
  if changed : bool then as_type (type_for_copy c) (rev new_sequence) else Val c.

(** remove-duplicates, sequence.dylan:434-451 *)
Definition remove_duplicates (fuel : nat) (test : value -> value -> bool) (c : coll) : outcome coll :=
  do ' (duplicates, new) <- for_in fuel c
    (fun '(duplicates, new) item =>
       do b <- any_in (S (length new)) (CList new) (fun el => test el item) ;
       Val (if b : bool then (true, new) else (duplicates, item :: new))) (false, []) ;
  if duplicates : bool then as_type (type_for_copy c) (rev new) else Val c.

(** intersection, sequence.dylan:394-406 *)
Definition intersection (fuel : nat) (test : value -> value -> bool) (sequence1 sequence2 : coll) : outcome coll :=
  do result <- for_in fuel sequence1
    (fun result item => do b <- member_of fuel test item sequence2 ; Val (if b : bool then item :: result else result)) [] ;
  Val (CList result).

(** as(<list>, c): list.dylan:98-105, vector.dylan, deque.dylan:670-680 *)
Definition as_list (fuel : nat) (c : coll) : outcome (list value) :=
  do l <- for_in fuel c (fun l item => Val (item :: l)) [] ; Val (rev l).

(** union, sequence.dylan:413-427 *)
Definition union (fuel : nat) (test : value -> value -> bool) (sequence1 sequence2 : coll) : outcome coll :=
  do start <- as_list fuel sequence2 ;
  do new <- for_in fuel sequence1
    (fun new item => do b <- member_of fuel test item sequence2 ; Val (if b : bool then new else item :: new)) start ;
  Val (CList new).

(** ** Adding *)

(** add on <vector>, vector.dylan:132-143; on <deque>, deque.dylan:77-81 (push puts the element in front);
    on <list>, list.dylan:380-382 *)
Definition add (c : coll) (object : value) : outcome coll :=
  match c with
  | CVec k l =>
      do new <- make_filled (type_for_copy c) (length l + 1) object ;
      do new <- vec_copy_loop (length l) new 0 c 0 ;
      array_write object new (Z.of_nat (length l))
  | CDeq _ _ =>
      do new <- copy_sequence c 0 None ;
      match new with CDeq first l => Val (CDeq (first - 1) (object :: l)) | _ => bad end
  | CList l => Val (CList (object :: l))
  | _ => Signal "not modelled here"
  end.

(** add-new, sequence.dylan:282-290, vector.dylan:369-378; on <list>, list.dylan:366-374,398-406, where
    with-factored-equality (comparison.dylan:67-88) calls the test in the same way *)
Definition add_new (fuel : nat) (test : value -> value -> bool) (c : coll) (new_element : value) : outcome coll :=
  do b <- any_in fuel c (fun el => test el new_element) ;
  if b : bool then Val c else add c new_element.

(** ** Reversing *)

(** reverse! on <vector>, vector.dylan:149-160 *)
Fixpoint reverse_bang_loop (n : nat) (c : coll) (index size_index : Z) : outcome coll :=
  match n with
  | O => Val c
  | S n =>
      do tmp <- array_read c index ;
      do v <- array_read c size_index ;
      do c <- array_write v c index ;
      do c <- array_write tmp c size_index ;
      reverse_bang_loop n c (index + 1) (size_index - 1)
  end.
Definition reverse_bang (c : coll) : outcome coll :=
  do n <- len c ;
  reverse_bang_loop (Z.to_nat (n / 2)) c 0 (n - 1).

(** reverse on <vector>, vector.dylan:167-182 *)
Fixpoint reverse_loop (n : nat) (new : coll) (to : Z) (c : coll) (from : Z) : outcome coll :=
  match n with
  | O => Val new
  | S n =>
      do v <- array_read c from ;
      do new <- array_write v new to ;
      reverse_loop n new (to - 1) c (from + 1)
  end.
Definition reverse_vector (c : coll) : outcome coll :=
  do size <- len c ;
  if size =? 0 then make_sized (type_for_copy c) 0
  else
    do fill <- checked_element c 0 ;
    do new <- make_filled (type_for_copy c) (Z.to_nat size) fill ;
    reverse_loop (Z.to_nat size) new (size - 1) c 0.

(** reverse on <sequence>, sequence.dylan:566-574 (none of the built-in classes comes to it) *)
Definition reverse_sequence (fuel : nat) (c : coll) : outcome coll :=
  do new_sequence <- for_in fuel c (fun new_sequence item => Val (item :: new_sequence)) [] ;
  as_type (type_for_copy c) new_sequence.

(** ** last *)

(** last on <sequence>, sequence.dylan:605-619; [default] is [None] when it is not supplied *)
Definition last_ (c : coll) (default : option value) : outcome value :=
  do n <- len c ;
  if n =? 0 then match default with Some d => Val d | None => Signal "subscript out of bounds" end
  else checked_element c (n - 1).

(** ** concatenate-as *)

(** as(type, c) *)
Definition as_coll (fuel : nat) (ty : ttype) (c : coll) : outcome coll :=
  do l <- as_list fuel c ; as_type ty l.

Definition is_empty (c : coll) : outcome bool := do n <- len c ; Val (n =? 0).

(** instance?(v, type) for a vector type *)
Definition of_kind (k : vkind) (c : coll) : bool := match c with CVec k' _ => bool_decide (k = k') | _ => false end.

(** for (val in c, key from key) result[key] := val, without bounds checks *)
Definition store_in (fuel : nat) (c : coll) (result : coll) (key : Z) : outcome (coll * Z) :=
  for_in fuel c (fun '(result, key) val => do result <- array_write val result key ; Val (result, key + 1)) (result, key).

(** concatenate-as-two on <sequence>s, sequence.dylan:206-222; on <deque>, deque.dylan:650-664 (push-last puts the
    element at the end); on <list>, list.dylan:852-874 *)
Definition concatenate_as_two (fuel : nat) (ty : ttype) (first_seq second_seq : coll) : outcome coll :=
  match ty with
  | TList =>
      do e <- is_empty second_seq ;
      if e : bool then as_coll fuel TList first_seq
      else
        do l <- as_list fuel second_seq ;
        do e <- is_empty first_seq ;
        if e : bool then Val (CList l)
        else
          do revcpy <- for_in fuel first_seq (fun revcpy e => Val (e :: revcpy)) [] ;
          Val (CList (fold_left (fun result p => p :: result) revcpy l))
  | _ =>
      do e <- is_empty first_seq ;
      if e : bool then as_coll fuel ty second_seq
      else
        do e <- is_empty second_seq ;
        if e : bool then as_coll fuel ty first_seq
        else
          match ty with
          | TDeq =>
              let push_last d val := match d with CDeq first l => Val (CDeq first (l ++ [val])) | _ => bad end in
              do d <- for_in fuel first_seq push_last (make_empty TDeq) ;
              for_in fuel second_seq push_last d
          | _ =>
              do n1 <- len first_seq ;
              do n2 <- len second_seq ;
              do fill <- checked_element first_seq 0 ;
              do result <- make_filled ty (Z.to_nat (n1 + n2)) fill ;
              do ' (result, key) <- store_in fuel first_seq result 0 ;
              do ' (result, _) <- store_in fuel second_seq result key ;
              Val result
          end
  end.

(** The counting loop of concatenate-as on <sequence>, sequence.dylan:157-170: the total size, the number of
    non-empty sequences, the index of the first of them *)
Fixpoint count_seqs (seqs : list coll) (index total_sz num_non_empty non_empty_index : Z) : outcome (Z * Z * Z) :=
  match seqs with
  | [] => Val (total_sz, num_non_empty, non_empty_index)
  | s :: seqs =>
      do sz <- len s ;
      if sz =? 0 then count_seqs seqs (index + 1) total_sz num_non_empty non_empty_index
      else
        count_seqs seqs (index + 1) (total_sz + sz) (num_non_empty + 1)
          (if num_non_empty + 1 =? 1 then index else non_empty_index)
  end.

(** for (val in c) current-element(result, state) := val; state := next-state(result, state) *)
Definition store_fip (fuel : nat) (c : coll) (rf : fip) (r : coll * state) : outcome (coll * state) :=
  for_in fuel c (fun '(result, s) val =>
    do result <- run_set (f_set rf) val result s ;
    do s <- run_next (f_next rf) result s ;
    Val (result, s)) r.
Fixpoint store_all (fuel : nat) (seqs : list coll) (rf : fip) (r : coll * state) : outcome (coll * state) :=
  match seqs with
  | [] => Val r
  | s :: seqs => do r <- store_fip fuel s rf r ; store_all fuel seqs rf r
  end.

Definition nth_seq (l : list coll) (i : Z) : outcome coll :=
  if i <? 0 then UB else match l !! Z.to_nat i with Some c => Val c | None => UB end.

(** concatenate-as on <sequence>s, sequence.dylan:148-203 *)
Definition concatenate_as_sequence (fuel : nat) (ty : ttype) (first_seq : coll) (rest_seqs : list coll) : outcome coll :=
  match rest_seqs with
  | [] => as_coll fuel ty first_seq
  | [second_seq] => concatenate_as_two fuel ty first_seq second_seq
  | _ =>
      do total_sz <- len first_seq ;
      do e <- is_empty first_seq ;
      let num_non_empty := if e : bool then 0 else 1 in
      do ' (total_sz, num_non_empty, non_empty_index) <- count_seqs rest_seqs 1 total_sz num_non_empty (num_non_empty - 1) ;
      if num_non_empty =? 0 then as_type ty []
      else if num_non_empty =? 1 then
        if non_empty_index =? 0 then as_coll fuel ty first_seq
        else do s <- nth_seq rest_seqs (non_empty_index - 1) ; as_coll fuel ty s
      else
        do s <- (if non_empty_index =? 0 then Val first_seq else nth_seq rest_seqs (non_empty_index - 1)) ;
        do fill <- checked_element s 0 ;
        do result <- make_filled ty (Z.to_nat total_sz) fill ;
        do r <- store_fip fuel first_seq (fip_of result) (result, f_init (fip_of result)) ;
        do ' (result, _) <- store_all fuel rest_seqs (fip_of result) r ;
        Val result
  end.

(** The first loop of concatenate-as on <vector>s, vector.dylan:443-456: [None] when a vector is not of the type *)
Fixpoint count_vectors (k : vkind) (vs : list coll) (total_sz num_non_empty : Z) (fill : option value) : outcome (option (Z * Z * option value)) :=
  match vs with
  | [] => Val (Some (total_sz, num_non_empty, fill))
  | v :: vs =>
      if negb (of_kind k v) then Val None
      else
        do sz <- len v ;
        if sz =? 0 then count_vectors k vs total_sz num_non_empty fill
        else
          do fill <- (match fill with Some x => Val (Some x) | None => do x <- checked_element v 0 ; Val (Some x) end) ;
          count_vectors k vs (total_sz + sz) (num_non_empty + 1) fill
  end.

(** for (i from 0 below more-vectors.size, while: more-vectors[i].size = 0) finally more-vectors[i] *)
Fixpoint first_non_empty (vs : list coll) : outcome coll :=
  match vs with
  | [] => UB
  | v :: vs => do e <- is_empty v ; if e : bool then first_non_empty vs else Val v
  end.

(** vector.dylan:473-480 *)
Fixpoint copy_vectors (vs : list coll) (result : coll) (result_index : Z) : outcome coll :=
  match vs with
  | [] => Val result
  | v :: vs =>
      do sz <- len v ;
      do result <- vec_copy_loop (Z.to_nat sz) result result_index v 0 ;
      copy_vectors vs result (result_index + sz)
  end.

(** vector.dylan:909-921, string-speed.dylan:169-180 *)
Fixpoint replace_vectors (vs : list coll) (result : list value) (result_index : Z) : outcome (list value) :=
  match vs with
  | [] => Val result
  | CVec _ v :: vs =>
      do result <- primitive_replace result result_index v 0 (Z.of_nat (length v)) ;
      replace_vectors vs result (result_index + Z.of_nat (length v))
  | _ => bad
  end.

(** concatenate-as on (<vector-type>, <vector>), vector.dylan:435-487 *)
Definition concatenate_as_vector (fuel : nat) (k : vkind) (vector : coll) (more_vectors : list coll) : outcome coll :=
  do total_sz <- len vector ;
  do r <- count_vectors k more_vectors total_sz (if total_sz =? 0 then 0 else 1) None ;
  match r with
  | None => concatenate_as_sequence fuel (TVec k) vector more_vectors
  | Some (total_sz, num_non_empty, fill) =>
      if num_non_empty =? 0 then Val (CVec k [])
      else if num_non_empty =? 1 then
        do n <- len vector ;
        if 0 <? n then as_coll fuel (TVec k) vector
        else do v <- first_non_empty more_vectors ; as_coll fuel (TVec k) v
      else
        match fill with
        | None => UB
        | Some fill =>
            do result <- make_filled (TVec k) (Z.to_nat total_sz) fill ;
            copy_vectors (vector :: more_vectors) result 0
        end
  end.

(** concatenate-as on (<simple-object-vector>, <simple-object-vector>), vector.dylan:890-930, and on
    (<byte-string>, <byte-string>), string-speed.dylan:145-185 *)
Definition concatenate_as_primitive (fuel : nat) (k : vkind) (vector : coll) (more_vectors : list coll) : outcome coll :=
  do total_sz <- len vector ;
  do r <- count_vectors k more_vectors total_sz (if total_sz =? 0 then 0 else 1) None ;
  match r with
  | None => concatenate_as_vector fuel k vector more_vectors
  | Some (total_sz, num_non_empty, _) =>
      if num_non_empty =? 0 then Val (CVec k [])
      else if num_non_empty =? 1 then
        do n <- len vector ;
        if 0 <? n then Val vector else first_non_empty more_vectors
      else
        do result <- make_sized (TVec k) total_sz ;
        match result with
        | CVec k result => do result <- replace_vectors (vector :: more_vectors) result 0 ; Val (CVec k result)
        | _ => bad
        end
  end.

(** concatenate-as on <list>, list.dylan:880-887 *)
Fixpoint concatenate_as_list (fuel : nat) (first_seq : coll) (rest_seqs : list coll) : outcome coll :=
  do acc <- match rest_seqs with
            | [] => Val (CList [])
            | s :: rest_seqs => concatenate_as_list fuel s rest_seqs
            end ;
  concatenate_as_two fuel TList first_seq acc.

Definition concatenate_as (fuel : nat) (ty : ttype) (first_seq : coll) (rest_seqs : list coll) : outcome coll :=
  match ty, first_seq with
  | TVec VkObject, CVec VkObject _ => concatenate_as_primitive fuel VkObject first_seq rest_seqs
  | TVec VkString, CVec VkString _ => concatenate_as_primitive fuel VkString first_seq rest_seqs
  | TVec k, CVec _ _ => concatenate_as_vector fuel k first_seq rest_seqs
  | TList, _ => concatenate_as_list fuel first_seq rest_seqs
  | TTab _, _ => Signal "no method"
  | _, _ => concatenate_as_sequence fuel ty first_seq rest_seqs
  end.

(** concatenate, sequence.dylan:133-137 *)
Definition concatenate (fuel : nat) (first_seq : coll) (rest_seqs : list coll) : outcome coll :=
  concatenate_as fuel (type_for_copy first_seq) first_seq rest_seqs.
