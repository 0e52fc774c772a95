(** Model of subsequence-position: sources/dylan/sequence.dylan:626-669 (any two sequences),
    vector.dylan:285-330 (two vectors), string-speed.dylan:36-118 (two byte strings).
    The sequences and their iteration protocols are those of CollModel.v; copy-state is the identity
    for all of them.  [test] is a total function without side effects; [is_id] says whether it is ==. *)
From Verif Require Import Base CollModel EqModel.
From Coq Require Import ZArith.
Local Open Scope outcome_scope.
Local Open Scope Z_scope.

(** sequence.dylan:639-666: the local method search *)
Fixpoint sub_search (fuel : nat) (test : value -> value -> bool) (big : coll) (bf : fip) (pat : coll) (pf : fip)
    (index : Z) (index_state big_state pat_state : state) (count : Z) : outcome (option Z) :=
  match fuel with
  | O => NoFuel
  | S fuel =>
      do b <- run_fin (f_fin pf) pat pat_state (f_limit pf) ;
      if b : bool then
        if count =? 1 then Val (Some index)
        else
          do next <- run_next (f_next bf) big index_state ;
          sub_search fuel test big bf pat pf (index + 1) next next (f_init pf) (count - 1)
      else
        do b <- run_fin (f_fin bf) big big_state (f_limit bf) ;
        if b : bool then Val None
        else
          do x <- run_elt (f_elt bf) big big_state ;
          do y <- run_elt (f_elt pf) pat pat_state ;
          if test x y then
            do big_state <- run_next (f_next bf) big big_state ;
            do pat_state <- run_next (f_next pf) pat pat_state ;
            sub_search fuel test big bf pat pf index index_state big_state pat_state count
          else
            do next <- run_next (f_next bf) big index_state ;
            sub_search fuel test big bf pat pf (index + 1) next next (f_init pf) count
  end.

(** empty? of a sequence *)
Definition coll_empty (c : coll) : bool :=
  match c with
  | CVec _ l | CDeq _ l | CList l => (length l =? 0)%nat
  | CRange _ _ n => (n =? 0)%nat
  | CRangeInf _ _ => false
  | CTab _ t => (length t =? 0)%nat
  end.

(** sequence.dylan:626-669 *)
Definition sub_sequences (fuel : nat) (test : value -> value -> bool) (big pat : coll) (count : Z) : outcome (option Z) :=
  if coll_empty pat then
    do n <- coll_size big ;
    Val (Some (if Z.of_nat n <? count then Z.of_nat n else count - 1))
  else
    let bf := fip_of big in let pf := fip_of pat in
    sub_search fuel test big bf pat pf 0 (f_init bf) (f_init bf) (f_init pf) count.

(** vector.dylan:296-303, string-speed.dylan:47-53: a pattern of one element.  [n] is what remains
    of the numeric clause (below sz); the result is the value of key in the finally part. *)
Fixpoint find_one (n : nat) (test : value -> value -> bool) (big : list value) (ch : value) (key count : Z) : outcome Z :=
  match n with
  | O => Val key
  | S n =>
      do x <- zread big key ;
      if test x ch then
        if count - 1 <=? 0 then Val key else find_one n test big ch (key + 1) (count - 1)
      else find_one n test big ch (key + 1) count
  end.

(** vector.dylan:304-312, string-speed.dylan:54-62: a pattern of two elements (below sz - 1) *)
Fixpoint find_two (n : nat) (test : value -> value -> bool) (big : list value) (ch1 ch2 : value) (key count : Z) : outcome Z :=
  match n with
  | O => Val key
  | S n =>
      do x <- zread big key ;
      if test x ch1 then
        do y <- zread big (key + 1) ;
        if test y ch2 then
          if count - 1 <=? 0 then Val key else find_two n test big ch1 ch2 (key + 1) (count - 1)
        else find_two n test big ch1 ch2 (key + 1) count
      else find_two n test big ch1 ch2 (key + 1) count
  end.

(** vector.dylan:314-327, string-speed.dylan:65-81: the local method search *)
Fixpoint vec_search (fuel : nat) (test : value -> value -> bool) (big pat : list value) (index big_key pat_key count : Z) : outcome (option Z) :=
  match fuel with
  | O => NoFuel
  | S fuel =>
      if Z.of_nat (length pat) <=? pat_key then
        if count =? 1 then Val (Some index)
        else vec_search fuel test big pat (index + 1) (index + 1) 0 (count - 1)
      else if big_key =? Z.of_nat (length big) then Val None
      else
        do x <- zread big big_key ;
        do y <- zread pat pat_key ;
        if test x y then vec_search fuel test big pat index (big_key + 1) (pat_key + 1) count
        else vec_search fuel test big pat (index + 1) (index + 1) 0 count
  end.

(** vector.dylan:285-313 and string-speed.dylan:36-62 for patterns of up to two elements; [otherwise]
    is the rest of the method. *)
Definition sub_short (test : value -> value -> bool) (big pat : list value) (count : Z) (otherwise : outcome (option Z)) : outcome (option Z) :=
  let sz := Z.of_nat (length big) in
  match pat with
  | [] => Val (Some (count - 1))
  | [ch] =>
      do key <- find_one (Z.to_nat sz) test big ch 0 count ;
      Val (if key <? sz then Some key else None)
  | [ch1; ch2] =>
      do key <- find_two (Z.to_nat (sz - 1)) test big ch1 ch2 0 count ;
      Val (if key <? sz - 1 then Some key else None)
  | _ => otherwise
  end.

Definition sub_vectors (fuel : nat) (test : value -> value -> bool) (big pat : list value) (count : Z) : outcome (option Z) :=
  sub_short test big pat count (vec_search fuel test big pat 0 0 0 count).

(** as(<integer>, character) *)
Definition chr_code (v : value) : outcome Z := match v with VChr c => Val c | _ => bad end.

(** string-speed.dylan:85-90: filling the skip table; [n] is what remains below pat-last. *)
Fixpoint fill_skip (n : nat) (pat : list value) (pat_last i : Z) (skip : list Z) : outcome (list Z) :=
  match n with
  | O => Val skip
  | S n =>
      do ch <- zread pat i ;
      do code <- chr_code ch ;
      do skip <- zwrite skip code (pat_last - i) ;
      fill_skip n pat pat_last (i + 1) skip
  end.

(** string-speed.dylan:102-116, the local method search: compares backwards until pat-key < 0 (true)
    or the characters differ (false); the calls of do-skip are in [bm_skip].  [n] is pat-key + 1. *)
Fixpoint bm_match (n : nat) (big pat : list value) (big_key pat_key : Z) : outcome bool :=
  match n with
  | O => Val true
  | S n =>
      do x <- zread big big_key ;
      do y <- zread pat pat_key ;
      if chr_eq x y then bm_match n big pat (big_key - 1) (pat_key - 1) else Val false
  end.

(** string-speed.dylan:91-116, the local methods do-skip and search *)
Fixpoint bm_skip (fuel : nat) (big pat : list value) (last_char : value) (skip : list Z) (index count : Z) : outcome (option Z) :=
  match fuel with
  | O => NoFuel
  | S fuel =>
      let pat_sz := Z.of_nat (length pat) in
      let pat_last := pat_sz - 1 in
      if Z.of_nat (length big) <=? index then Val None
      else
        do char <- zread big index ;
        if chr_eq char last_char then
          do matched <- bm_match (length pat) big pat index pat_last ;
          let start := index - pat_last in
          if matched : bool then
            if count =? 1 then Val (Some start)
            else bm_skip fuel big pat last_char skip (start + pat_sz) (count - 1)
          else bm_skip fuel big pat last_char skip (start + pat_sz) count
        else
          do code <- chr_code char ;
          do d <- zread skip code ;
          bm_skip fuel big pat last_char skip (index + d) count
  end.

(** string-speed.dylan:82-118 *)
Definition sub_boyer_moore (fuel : nat) (big pat : list value) (count : Z) : outcome (option Z) :=
  let pat_sz := Z.of_nat (length pat) in
  let pat_last := pat_sz - 1 in
  do last_char <- zread pat pat_last ;
  do skip <- fill_skip (Z.to_nat pat_last) pat pat_last 0 (replicate (Z.to_nat 256) pat_sz) ;
  bm_skip fuel big pat last_char skip pat_last count.

Definition sub_strings (fuel : nat) (is_id : bool) (test : value -> value -> bool) (big pat : list value) (count : Z) : outcome (option Z) :=
  sub_short test big pat count
    (if is_id then sub_boyer_moore fuel big pat count else vec_search fuel test big pat 0 0 0 count).

(** The method called, by the classes of the two sequences. *)
Definition subsequence_position (fuel : nat) (is_id : bool) (test : value -> value -> bool) (big pat : coll) (count : Z) : outcome (option Z) :=
  match big, pat with
  | CVec VkString b, CVec VkString p => sub_strings fuel is_id test b p count
  | CVec _ b, CVec _ p => sub_vectors fuel test b p count
  | _, _ => sub_sequences fuel test big pat count
  end.
