(** Model of property lists, sources/collections/plists.dylan, and of concatenate! on lists.  Objects and the heap of
    pairs are those of [ListModel]; a vector is the list of its elements, and an access outside of a vector is UB (the
    code switches bounds checks off).  Lists are converted by as(<list>, ...), which leaves a list as it is. *)
From Verif Require Import Base ListModel.
From Coq Require Import ZArith.
Local Open Scope outcome_scope.
Local Open Scope Z_scope.

(** #f is some atom. *)
Definition fls : obj := OAtom (-1).

(** *** Lists *)
(** get-property on a list, plists.dylan:25-36 *)
Fixpoint get_property_list (fuel : nat) (h : heap) (plist indicator default : obj) : outcome obj :=
  match fuel with
  | O => NoFuel
  | S fuel =>
      if is_nil plist then Val default
      else
        do x <- head h plist ;
        do t <- tail h plist ;
        do plist <- check_list t ;
        if same x indicator then head h plist
        else
          do t <- tail h plist ;
          do plist <- check_list t ;
          get_property_list fuel h plist indicator default
  end.

(** concatenate! on lists, sources/common-dylan/common-extensions.dylan:54-86 *)
Fixpoint find_tail (fuel : nat) (h : heap) (p x : obj) : outcome heap :=
  match fuel with
  | O => NoFuel
  | S fuel =>
      do t <- tail h p ;
      if is_nil t then set_tail h p x
      else do t <- check_list t ; find_tail fuel h t x
  end.
Fixpoint connect (fuel : nat) (h : heap) (p : obj) (more : list obj) : outcome heap :=
  match more with
  | [] => Val h
  | x :: more =>
      if is_nil x then connect fuel h p more
      else do h <- find_tail fuel h p x ; connect fuel h x more
  end.
Fixpoint find_result (fuel : nat) (h : heap) (r : obj) (more : list obj) : outcome (obj * heap) :=
  match more with
  | [] => Val (r, h)
  | x :: more' =>
      if is_nil r then find_result fuel h x more'
      else do h <- connect fuel h r more ; Val (r, h)
  end.
Definition concatenate_bang (fuel : nat) (h : heap) (x : obj) (more : list obj) : outcome (obj * heap) :=
  find_result fuel h x more.

(** The loop of do-put-property! on a list, plists.dylan:69-75; [Some h] if the indicator was found *)
Fixpoint put_loop_list (fuel : nat) (h : heap) (pl indicator value : obj) : outcome (option heap) :=
  match fuel with
  | O => NoFuel
  | S fuel =>
      if is_nil pl then Val None
      else
        do x <- head h pl ;
        do pl <- tail h pl ;
        if same x indicator then do h <- set_head h pl value ; Val (Some h)
        else do pl <- tail h pl ; put_loop_list fuel h pl indicator value
  end.
(** do-put-property! on a list, plists.dylan:65-78 *)
Definition put_property_list (fuel : nat) (h : heap) (plist indicator value : obj) : outcome (obj * heap) :=
  do r <- put_loop_list fuel h plist indicator value ;
  match r with
  | Some h => Val (plist, h)
  | None => let '(l, h) := make_list h [indicator; value] in concatenate_bang fuel h plist [l]
  end.

(** keyword-sequence on a list, plists.dylan:135-145 *)
Fixpoint keyword_loop (fuel : nat) (h : heap) (plist keywords : obj) : outcome (obj * heap) :=
  match fuel with
  | O => NoFuel
  | S f =>
      if is_nil plist then reverse_bang fuel h keywords
      else
        do t <- tail h plist ;
        do t <- tail h t ;
        do x <- head h plist ;
        let '(keywords, h) := pair h x keywords in
        do t <- check_list t ;
        keyword_loop f h t keywords
  end.
(** value-sequence on a list, plists.dylan:147-158 *)
Fixpoint value_loop (fuel : nat) (h : heap) (plist values : obj) : outcome (obj * heap) :=
  match fuel with
  | O => NoFuel
  | S f =>
      if is_nil plist then reverse_bang fuel h values
      else
        do next <- tail h plist ;
        if is_pair next then
          do t <- tail h next ;
          do x <- head h next ;
          let '(values, h) := pair h x values in
          do t <- check_list t ;
          value_loop f h t values
        else type_error
  end.
Definition keyword_sequence_list (fuel : nat) (h : heap) (plist : obj) : outcome (obj * heap) := keyword_loop fuel h plist nil.
Definition value_sequence_list (fuel : nat) (h : heap) (plist : obj) : outcome (obj * heap) := value_loop fuel h plist nil.

(** do-remove-property! on a list, plists.dylan:174-199; [ppl] is the pair before [pl] *)
Fixpoint remove_loop_list (fuel : nat) (h : heap) (plist indicator pl : obj) (ppl : option obj) : outcome (obj * obj * heap) :=
  match fuel with
  | O => NoFuel
  | S f =>
      if is_nil pl then Val (fls, plist, h)
      else
        do x <- element 2 h pl 0 None ;
        if same x indicator then
          do result <- element 2 h pl 1 None ;
          if same pl plist then
            do t <- tail h plist ;
            do t <- tail h t ;
            Val (result, t, h)
          else
            match ppl with
            | Some p => do t <- tail h pl ; do t <- tail h t ; do h <- set_tail h p t ; Val (result, plist, h)
            | None => type_error
            end
        else
          do ppl <- (if same pl plist then tail h pl
                     else match ppl with Some p => do t <- tail h p ; tail h t | None => type_error end) ;
          do t <- tail h pl ;
          do t <- tail h t ;
          remove_loop_list f h plist indicator t (Some ppl)
  end.
Definition remove_property_list (fuel : nat) (h : heap) (plist indicator : obj) : outcome (obj * obj * heap) :=
  remove_loop_list fuel h plist indicator plist None.

(** *** Vectors *)
Definition check_even (n : Z) : outcome unit :=
  if Z.even n then Val tt else Signal "This plist does not have even length".
Definition vsize (v : list obj) : Z := Z.of_nat (length v).

(** get-property on a vector, plists.dylan:38-54 *)
Fixpoint get_loop_vec (fuel : nat) (plist : list obj) (indicator default : obj) (i : Z) : outcome obj :=
  match fuel with
  | O => NoFuel
  | S fuel =>
      if i <? vsize plist then
        do x <- zread plist i ;
        if same x indicator then zread plist (i + 1)
        else get_loop_vec fuel plist indicator default (i + 2)
      else Val default
  end.
Definition get_property_vec (plist : list obj) (indicator default : obj) : outcome obj :=
  do _ <- check_even (vsize plist) ; get_loop_vec (S (length plist)) plist indicator default 0.

(** do-put-property! on a vector, plists.dylan:80-97; the result is what the vector holds afterwards, and what is returned.
    concatenate!, common-extensions.dylan:37-51, extends a stretchy vector and makes a new one of any other. *)
Fixpoint put_loop_vec (fuel : nat) (plist : list obj) (indicator value : obj) (i : Z) : outcome (option (list obj)) :=
  match fuel with
  | O => NoFuel
  | S fuel =>
      if i <? vsize plist then
        do x <- zread plist i ;
        if same x indicator then do plist <- zwrite plist (i + 1) value ; Val (Some plist)
        else put_loop_vec fuel plist indicator value (i + 2)
      else Val None
  end.
Definition put_property_vec (stretchy : bool) (plist : list obj) (indicator value : obj) : outcome (list obj * list obj) :=
  do _ <- check_even (vsize plist) ;
  do r <- put_loop_vec (S (length plist)) plist indicator value 0 ;
  match r with
  | Some plist => Val (plist, plist)
  | None =>
      let new := plist ++ [indicator; value] in
      Val (if stretchy then new else plist, new)
  end.

(** keyword-sequence and value-sequence on a vector, plists.dylan:105-133; [offset] is 0 or 1, [k] turns from i on *)
Fixpoint half_loop (k : nat) (plist : list obj) (offset i : Z) (result : list obj) : outcome (list obj) :=
  match k with
  | O => Val result
  | S k =>
      do x <- zread plist (i + i + offset) ;
      do result <- zwrite result i x ;
      half_loop k plist offset (i + 1) result
  end.
Definition half_sequence_vec (plist : list obj) (offset : Z) : outcome (list obj) :=
  do _ <- check_even (vsize plist) ;
  let count := Z.to_nat (Z.shiftr (vsize plist) 1) in
  half_loop count plist offset 0 (replicate count fls).
Definition keyword_sequence_vec (plist : list obj) : outcome (list obj) := half_sequence_vec plist 0.
Definition value_sequence_vec (plist : list obj) : outcome (list obj) := half_sequence_vec plist 1.

(** do-remove-property! on a stretchy vector, plists.dylan:201-221, within the vector; [length] is its original size *)
Fixpoint remove_loop_stretchy (fuel : nat) (plist : list obj) (indicator : obj) (len i j : Z) (value : obj) : outcome (obj * list obj * Z) :=
  match fuel with
  | O => NoFuel
  | S fuel =>
      if i <? len then
        do x <- zread plist i ;
        if same x indicator then
          do value <- zread plist (i + 1) ;
          remove_loop_stretchy fuel plist indicator len (i + 2) j value
        else
          do x <- zread plist i ;
          do plist <- zwrite plist j x ;
          do y <- zread plist (i + 1) ;
          do plist <- zwrite plist (j + 1) y ;
          remove_loop_stretchy fuel plist indicator len (i + 2) (j + 2) value
      else Val (value, plist, j)
  end.
Definition remove_property_stretchy (plist : list obj) (indicator : obj) : outcome (obj * list obj) :=
  do _ <- check_even (vsize plist) ;
  do ' (value, plist, j) <- remove_loop_stretchy (S (length plist)) plist indicator (vsize plist) 0 0 fls ;
  Val (value, take (Z.to_nat j) plist).

(** do-remove-property! on a simple object vector, plists.dylan:223-253, into a new vector; and the loops of
    remove-keywords, 314-355, with [out] for what is left out *)
Fixpoint count_loop (fuel : nat) (plist : list obj) (indicator : obj) (i count : Z) : outcome Z :=
  match fuel with
  | O => NoFuel
  | S fuel =>
      if i <? vsize plist then
        do x <- zread plist i ;
        count_loop fuel plist indicator (i + 2) (if same x indicator then count + 2 else count)
      else Val count
  end.
Fixpoint copy_loop_vec (fuel : nat) (plist : list obj) (out : obj -> bool) (i : Z) (new : list obj) (j : Z) (value : obj) : outcome (obj * list obj * Z) :=
  match fuel with
  | O => NoFuel
  | S fuel =>
      if i <? vsize plist then
        do x <- zread plist i ;
        do y <- zread plist (i + 1) ;
        if out x then copy_loop_vec fuel plist out (i + 2) new j y
        else
          do new <- zwrite new j x ;
          do new <- zwrite new (j + 1) y ;
          copy_loop_vec fuel plist out (i + 2) new (j + 2) value
      else Val (value, new, j)
  end.
Definition remove_property_simple (plist : list obj) (indicator : obj) : outcome (obj * list obj) :=
  do _ <- check_even (vsize plist) ;
  do count <- count_loop (S (length plist)) plist indicator 0 0 ;
  if count =? 0 then Val (fls, plist)
  else
    do ' (value, new, _) <- copy_loop_vec (S (length plist)) plist (fun x => same x indicator) 0 (replicate (Z.to_nat (vsize plist - count)) fls) 0 fls ;
    Val (value, new).

(** remove-keywords on a vector, plists.dylan:314-355 *)
Definition left_out (keywords : list obj) (indicator : obj) : bool :=
  match keywords with
  | [keyword] => same keyword indicator
  | _ => existsb (fun k => same indicator k) keywords
  end.
Definition remove_keywords_vec (plist keywords : list obj) : outcome (list obj) :=
  if bool_decide (plist = []) then Val plist
  else if bool_decide (keywords = []) then Val plist
  else
    do _ <- check_even (vsize plist) ;
    do ' (_, new, j) <- copy_loop_vec (S (length plist)) plist (left_out keywords) 0 (replicate (length plist) fls) 0 fls ;
    Val (take (Z.to_nat j) new).

(** remove-keywords on a list, plists.dylan:261-312, which gives a vector; as(<vector>, plist) holds the elements *)
Fixpoint elements_loop (fuel : nat) (h : heap) (l : obj) : outcome (list obj) :=
  match fuel with
  | O => NoFuel
  | S fuel =>
      if is_nil l then Val []
      else
        do x <- head h l ; do t <- tail h l ; do t <- check_list t ;
        do xs <- elements_loop fuel h t ; Val (x :: xs)
  end.
Fixpoint keywords_loop_list (fuel : nat) (h : heap) (plist : obj) (out : obj -> bool) (new : list obj) (j : Z) : outcome (list obj * Z) :=
  match fuel with
  | O => NoFuel
  | S fuel =>
      do x <- head h plist ;
      do t <- tail h plist ;
      do plist <- check_list t ;
      do y <- head h plist ;
      do t <- tail h plist ;
      do plist <- check_list t ;
      do ' (new, j) <- (if out x then Val (new, j)
                        else do new <- zwrite new j x ; do new <- zwrite new (j + 1) y ; Val (new, j + 2)) ;
      if is_nil plist then Val (new, j) else keywords_loop_list fuel h plist out new j
  end.
Definition remove_keywords_list (fuel : nat) (h : heap) (plist : obj) (keywords : list obj) : outcome (list obj) :=
  if is_nil plist then elements_loop fuel h plist
  else if bool_decide (keywords = []) then elements_loop fuel h plist
  else
    do n <- list_size fuel h plist ;
    match n with
    | None => type_error
    | Some n =>
        do _ <- check_even n ;
        do ' (new, j) <- keywords_loop_list fuel h plist (left_out keywords) (replicate (Z.to_nat n) fls) 0 ;
        Val (take (Z.to_nat j) new)
    end.
