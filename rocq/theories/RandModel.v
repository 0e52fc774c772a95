(** Model of the random number generator, sources/common-dylan/random.dylan, on 64-bit platforms, where
    $maximum-integer is 2^61-1. *)
From Verif Require Import Base IntModel NumStrModel.
From Coq Require Import ZArith.
Local Open Scope outcome_scope.
Local Open Scope Z_scope.

(** $recent-size, random.dylan:9 *)
Definition recent_size : Z := 54.

(** <random>, random.dylan:11-15 *)
Record random := Random { recent : list Z; recent_index : Z }.

(** recent[i], with bounds check *)
Definition recent_elt (a : list Z) (i : Z) : outcome Z :=
  if i <? 0 then Signal "element-range-error"
  else match a !! Z.to_nat i with Some v => Val v | None => Signal "element-range-error" end.

(** lcg-rand, random.dylan:19-21 *)
Definition lcg_rand (prev : Z) : outcome Z :=
  do x <- int_result (prev * 171) ;
  do x <- int_result (x + 11213) ;
  Val (x mod 53125).

(** The first loop of initialize, random.dylan:29-35: [n] turns from j on *)
Fixpoint seed_loop (n : nat) (j : nat) (prev : Z) (a : list Z) : outcome (list Z) :=
  match n with
  | O => Val a
  | S n =>
      do v1 <- lcg_rand prev ;
      do v2 <- lcg_rand v1 ;
      do x <- int_result (v1 mod 32768 + v2 mod 16384 * 32768) ;
      seed_loop n (j + 1) v2 (<[j := x]> a)
  end.

(** random-29, random.dylan:43-54.  All indices are within the vector, so the assignment is not checked. *)
Definition random_29 (r : random) : outcome (Z * random) :=
  let ri := (recent_index r + 1) mod recent_size in
  let a := recent r in
  let tap bit := recent_elt a ((ri + (recent_size - bit)) mod recent_size) in
  do t54 <- tap 54 ;
  do t8 <- tap 8 ;
  do t6 <- tap 6 ;
  do t3 <- tap 3 ;
  let v := Z.lxor (Z.lxor (Z.lxor t54 t8) t6) t3 in
  Val (v, Random (<[Z.to_nat ri := v]> a) ri).

(** The second loop of initialize, random.dylan:38-40 *)
Fixpoint warm_up (n : nat) (r : random) : outcome random :=
  match n with
  | O => Val r
  | S n => do ' (_, r) <- random_29 r ; warm_up n r
  end.

(** make(<random>, seed: seed): initialize, random.dylan:23-41.  The loop from 0 to 4 * $recent-size turns 217 times. *)
Definition make_random (seed : Z) : outcome random :=
  let a := <[0%nat := max_integer]> (replicate 54 0) in
  do s <- int_result (Z.abs seed) ;
  do a <- seed_loop 53 1 (s mod 32768) a ;
  warm_up 217 (Random a 0).

(** find-good-value, random.dylan:63-70 *)
Fixpoint find_good_value (fuel : nat) (limit : Z) (r : random) : outcome (Z * random) :=
  match fuel with
  | O => NoFuel
  | S fuel =>
      do ' (value, r) <- random_29 r ;
      if value <=? limit then Val (value, r) else find_good_value fuel limit r
  end.

(** random, random.dylan:58-72; modulo by zero cannot happen, because M - range + 1 overflows first *)
Definition random_below (range : Z) (r : random) : outcome (Z * random) :=
  do x <- int_result (max_integer - range) ;
  do x <- int_result (x + 1) ;
  let limit := max_integer - x mod range in
  do ' (value, r) <- find_good_value 100 limit r ;
  Val (value mod range, r).

(** A program that calls random several times on one generator *)
Fixpoint random_calls (ranges : list Z) (r : random) : outcome (list Z) :=
  match ranges with
  | [] => Val []
  | range :: ranges =>
      do ' (v, r) <- random_below range r ;
      do vs <- random_calls ranges r ;
      Val (v :: vs)
  end.
