(** C66: scale-float rounds to the nearest float when the product is too small to be exact. *)
From Verif Require Import Base NumStrModel FpModel FpSpec FpProofs FpRoundSpec FpRoundProofs.
From Coq Require Import ZArith Lia.
Local Open Scope Z_scope.

(** If |x| * 2^n is below the smallest normal float, scale-float gives the multiple of the smallest subnormal float (2^ex
    with ex = ex f 0) that is nearest to it, ties to even, with the sign of x: the result, but for the sign, is k * 2^ex
    with k nearest to num * 2^(ex raw + n - ex 0).  (k = 2^frac_bits is the smallest normal float.)  It is so for any
    finite x and any n, although the code multiplies several times when n is very small. *)
Theorem C66_scale_underflow f s raw frac x n : std f -> fields f s raw frac x -> finite f raw ->
  - 2 ^ 60 <= n <= 2 ^ 60 -> ex f raw + n < ex f 0 ->
  exists k y, scale_float f x n = Val y /\ nearest k (num f raw frac) (ex f 0 - (ex f raw + n)) /\
    fields f s (k / 2 ^ frac_bits f) (k mod 2 ^ frac_bits f) y /\
    num f (k / 2 ^ frac_bits f) (k mod 2 ^ frac_bits f) = k /\ ex f (k / 2 ^ frac_bits f) = ex f 0.
Proof.
  intros Hf Hx Hfin Hn He. destruct (std_facts f Hf). rewrite !(ex_eq f Hf) in *.
  destruct (scale_under_all f Hf s raw frac x n Hx Hfin Hn) as (k & E & Hk & Hb); [lia|].
  exists k, (s * (2 ^ exp_bits f * 2 ^ frac_bits f) + k). split; [done|]. split; [by replace (Z.max 1 0 - bias f - frac_bits f - (Z.max 1 raw - bias f - frac_bits f + n)) with (1 - Z.max 1 raw - n) by lia|].
  pose proof Hx as (Hs & _). pose proof (Z.div_mod k (2 ^ frac_bits f) ltac:(lia)) as Hd. pose proof (Z.mod_pos_bound k (2 ^ frac_bits f) ltac:(lia)) as Hm.
  assert (0 <= k / 2 ^ frac_bits f <= 1) as Hq. { split; [apply Z.div_pos; lia|]. apply Z.div_le_upper_bound; lia. }
  rewrite !(ex_eq f Hf). split; [|split; [|lia]].
  - split; [done|]. split; [lia|]. split; [done|]. lia.
  - unfold num. destruct (Z.eqb_spec (k / 2 ^ frac_bits f) 0) as [E0|E0]; [rewrite E0 in Hd; lia|]. assert (k / 2 ^ frac_bits f = 1) as E1 by lia. rewrite E1 in Hd. lia.
Qed.
Print Assumptions C66_scale_underflow.

(** 3 and 5 smallest subnormal floats, halved: ties go to the even multiple; 1.5 times the smallest normal float, times
    2^-25; a float far below all others. *)
Example C66_underflow_ex :
  scale_float single 3 (-1) = Val 2 /\ scale_float single 5 (-1) = Val 2 /\ scale_float single (3 * 2 ^ 22 + 2 ^ 31) (-24) = Val (1 + 2 ^ 31) /\
  scale_float single (2 ^ 23) (-24) = Val 0 /\ scale_float single (2 ^ 31 + 2 ^ 23) (-1000) = Val (2 ^ 31) /\ scale_float double (3 * 2 ^ 51) (-52) = Val 2.
Proof. by vm_compute. Qed.
Example C66_underflow_hyp : fields single 0 0 3 3 /\ finite single 0 /\ ex single 0 + -1 < ex single 0.
Proof. unfold fields, finite. vm_compute. intuition congruence. Qed.
