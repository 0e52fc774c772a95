(** C62: pseudo-random numbers. *)
From Coq Require Import ZArith Lia.
From Verif Require Import Base NumStrModel NumStrSpec NumStrProofs RandModel RandSpec RandProofs.
Local Open Scope Z_scope.

(** A generator made with a seed and called any number of times, with any ranges, gives the numbers of the sequence
    of that seed, each the next one below the largest multiple of the range, modulo the range; so two generators with
    the same seed give the same numbers.  The first 271 values of the sequence are passed over. *)
Theorem C62_sequence : forall seed, fits seed -> fits (Z.abs seed) ->
  exists s, sequence_of seed s /\
    forall ranges, Forall (fun range => 1 <= range < 2 ^ 61) ranges ->
      exists r outs, make_random seed = Val r /\ random_calls ranges r = Val outs /\ draws s 271 ranges outs.
Proof.
  intros seed Hf Ha. destruct (make_random_spec seed Hf Ha) as (s & r & Hs & Hm & Hst). exists s. split; [done|].
  intros ranges HF. destruct (random_calls_spec seed s Hs ranges r 217 Hst HF) as (outs & Ho & Hd). by exists r, outs.
Qed.
Print Assumptions C62_sequence.

(** Every number is at least zero and below the range of its call. *)
Theorem C62_range : forall seed r ranges, fits seed -> make_random seed = Val r ->
  Forall (fun range => 1 <= range < 2 ^ 61) ranges ->
  exists outs, random_calls ranges r = Val outs /\ Forall2 (fun range v => 0 <= v < range) ranges outs.
Proof.
  intros seed r ranges Hf Hm HF.
  assert (Ha : fits (Z.abs seed)). { by eapply make_random_fits. }
  destruct (make_random_spec seed Hf Ha) as (s & r' & Hs & Hm' & Hst). rewrite Hm in Hm'. injection Hm' as <-.
  destruct (random_calls_spec seed s Hs ranges r 217 Hst HF) as (outs & Ho & Hd). exists outs. split; [done|].
  clear Ho Hst Hm. revert HF. induction Hd as [|n m range ranges outs _ _ _ _ IH]; intros HF; [constructor|].
  apply Forall_cons in HF as [Hr HF]. constructor; [apply Z.mod_pos_bound; lia|by apply IH].
Qed.
Print Assumptions C62_range.

(** A range of zero or less is an error. *)
Theorem C62_bad_range : forall range r, fits range -> range <= 0 -> exists msg, random_below range r = Signal msg.
Proof. exact random_bad_range. Qed.
Print Assumptions C62_bad_range.

(** Only the least integer cannot be a seed. *)
Theorem C62_seed : forall seed, fits seed -> (exists r, make_random seed = Val r) <-> seed <> - 2 ^ 61.
Proof.
  intros seed Hf. split.
  - intros (r & Hm) ->. pose proof (make_random_fits _ _ Hm) as Ha. unfold fits in Ha. lia.
  - intros Hne. destruct (make_random_spec seed Hf) as (s & r & _ & Hm & _); [unfold fits in *; lia|]. by exists r.
Qed.
Print Assumptions C62_seed.

(** The values below the largest multiple of the range fall on all remainders equally often. *)
Theorem C62_fair : forall range v, 1 <= range < 2 ^ 61 -> 0 <= v < range ->
  2 ^ 61 - range < largest_multiple range <= 2 ^ 61 /\
  forall x, 0 <= x < largest_multiple range /\ x mod range = v <-> exists k, 0 <= k < 2 ^ 61 / range /\ x = k * range + v.
Proof. exact fair. Qed.
Print Assumptions C62_fair.

(** The sequence never gets stuck: every bit is set somewhere in any 54 successive values and clear somewhere in
    any 55. *)
Theorem C62_bits : forall seed s b n, sequence_of seed s -> 0 <= b < 61 ->
  (exists i, (n <= i < n + 54)%nat /\ Z.testbit (s i) b = true) /\ (exists i, (n <= i < n + 55)%nat /\ Z.testbit (s i) b = false).
Proof.
  intros seed s b n Hs Hb. destruct (bit_alive seed s b Hs Hb n) as (d & Hd & H1).
  destruct (bit_clear seed s b n Hs ltac:(lia)) as (e & He & H2).
  split; [exists (n + d)%nat|exists (n + e)%nat]; (split; [lia|done]).
Qed.
Print Assumptions C62_bits.

(** So random(2) gives both 0 and 1 in any 55 successive calls. *)
Theorem C62_coin : forall seed r ranges outs, fits seed -> make_random seed = Val r ->
  Forall (fun range => 1 <= range < 2 ^ 61) ranges -> random_calls (ranges ++ replicate 55 2) r = Val outs ->
  In 0 (drop (length ranges) outs) /\ In 1 (drop (length ranges) outs).
Proof. exact coin. Qed.
Print Assumptions C62_coin.

(** Not every number below the range is possible.  On a 64-bit machine the upper 32 bits of every value are all equal,
    because only one of the 54 values of the history starts with more than 29 bits; random(2^40) is never between 2^29
    and 2^40 - 2^29, whatever the seed and however often it is called. *)
Theorem C62_every_value_refuted :
  ~ (forall range v, 1 <= range < 2 ^ 61 -> 0 <= v < range ->
     exists seed r ranges outs, fits seed /\ make_random seed = Val r /\ Forall (fun range => 1 <= range < 2 ^ 61) ranges /\
       random_calls (ranges ++ [range]) r = Val (outs ++ [v])) /\
  forall seed r ranges outs v, fits seed -> make_random seed = Val r -> Forall (fun range => 1 <= range < 2 ^ 61) ranges ->
    random_calls (ranges ++ [2 ^ 40]) r = Val (outs ++ [v]) -> v < 2 ^ 29 \/ 2 ^ 40 - 2 ^ 29 <= v.
Proof.
  assert (H : forall seed r ranges outs v, fits seed -> make_random seed = Val r -> Forall (fun range => 1 <= range < 2 ^ 61) ranges ->
    random_calls (ranges ++ [2 ^ 40]) r = Val (outs ++ [v]) -> v < 2 ^ 29 \/ 2 ^ 40 - 2 ^ 29 <= v) by exact gap.
  split; [|done]. intros Hall. destruct (Hall (2 ^ 40) (2 ^ 30)) as (seed & r & ranges & outs & Hf & Hm & HF & E); [lia|lia|].
  pose proof (H seed r ranges outs (2 ^ 30) Hf Hm HF E). lia.
Qed.
Print Assumptions C62_every_value_refuted.

(** Examples. *)
Definition example_calls (seed : Z) (ranges : list Z) : outcome (list Z) :=
  match make_random seed with Val r => random_calls ranges r | _ => UB end.
Example C62_ex : example_calls 42 [6; 6; 6; 1000000; 2 ^ 40] = Val [4; 2; 1; 240421; 1099359437881].
Proof. vm_compute. reflexivity. Qed.
Example C62_ex_differ : match example_calls 42 [100; 100; 100], example_calls 43 [100; 100; 100] with
  | Val a, Val b => negb (bool_decide (a = b)) | _, _ => false end = true.
Proof. vm_compute. reflexivity. Qed.
