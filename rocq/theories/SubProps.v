(** C51: subsequence-position finds the count-th occurrence of a pattern. *)
From stdpp Require Import list_numbers.
From Verif Require Import Base CollModel CollSpec CollProofs CollIterProofs EqModel EqProofs SubModel SubSpec SubProofs.
From Coq Require Import ZArith ZifyBool ZifyNat.
Local Open Scope outcome_scope.
Local Open Scope Z_scope.

(** The call returns [r] (with every large enough bound on the number of steps of the model). *)
Definition finds (is_id : bool) (test : value -> value -> bool) (big pat : coll) (count : Z) (r : option Z) : Prop :=
  exists F, forall fuel, (F <= fuel)%nat -> subsequence_position fuel is_id test big pat count = Val r.

(** For every pair of built-in sequences, every test and every count from 1 on, the call returns the
    position of the count-th occurrence, #f when there are fewer.  Missing: an empty pattern with a
    count larger than the number of positions, and counts below 1 (see the refutations). *)
Theorem C51_position_partial is_id test big pat count :
  is_sequence big = true -> is_sequence pat = true -> wf_coll big -> wf_coll pat -> bytes_ok big -> bytes_ok pat ->
  1 <= count ->
  (is_id = true -> forall a b, test (VChr a) (VChr b) = (a =? b)) ->
  finite_coll pat ->
  (finite_coll big \/ exists i, nth_occurrence test big pat count i) ->
  (value_at pat (KInt 0) = None -> finite_coll big /\ occurs test big pat (Z.to_nat (count - 1))) ->
  exists r, finds is_id test big pat count r /\ is_position test big pat count r.
Proof.
  intros Hsb Hsp Hwb Hwp Hbb Hbp Hc Hid Hfp Hlim He.
  destruct (position_ok is_id test big pat count) as (F & r & H1 & H2); try done; try by apply wf_wf_keys.
  - intros Hn. assert (E : value_at pat (KInt 0) = None) by (apply (sv_end pat 0 0 Hsp Hn); lia).
    destruct (He E) as [Hf Ho]. destruct (slen big) as [n|] eqn:En; [|by destruct big]. exists n. split; [done|].
    apply (occ_empty test big pat n) in Ho; [lia|done..].
  - exists r. split; [by exists F|done].
Qed.
Print Assumptions C51_position_partial.

(** There is only one such result. *)
Theorem C51_unique test big pat count r r' :
  is_position test big pat count r -> is_position test big pat count r' -> r = r'.
Proof. intros H H'. by eapply is_position_unique. Qed.
Print Assumptions C51_unique.

(** An empty pattern occurs at each of the size + 1 positions; for a larger count the result should
    be #f, but two vectors give count - 1, a position outside the sequence, and other sequences give
    the size. *)
Theorem C51_empty_pattern_refuted is_id test count big :
  is_sequence big = true -> finite_coll big ->
  (forall n, slen big = Some n -> Z.of_nat n + 1 < count) ->
  exists r, finds is_id test big (match big with CVec k _ => CVec k [] | _ => CList [] end) count (Some r) /\
    ~ is_position test big (match big with CVec k _ => CVec k [] | _ => CList [] end) count (Some r) /\
    is_position test big (match big with CVec k _ => CVec k [] | _ => CList [] end) count None.
Proof.
  intros Hs Hf Hn. destruct (slen big) as [n|] eqn:En; [|by destruct big]. specialize (Hn n eq_refl).
  set (pat := match big with CVec k _ => CVec k [] | _ => CList [] end).
  assert (Hsp : is_sequence pat = true) by (by destruct big). assert (Hlp : slen pat = Some 0%nat) by (by destruct big).
  assert (HN : is_position test big pat count None).
  { exists (n + 1)%nat. split; [lia|]. exists (seq 0 (n + 1)). split; [apply NoDup_seq|]. split; [apply seq_length|].
    intros j. rewrite elem_of_seq, (occ_empty test big pat n) by done. lia. }
  assert (Hr : exists r, finds is_id test big pat count (Some r)).
  { unfold pat, finds. destruct big as [k b|d b|b|f b m|f b|]; try done; cbn in En.
    - destruct k; cbn; eexists; by exists 0%nat.
    - eexists. exists 0%nat. intros fuel _. cbn. done.
    - eexists. exists 0%nat. intros fuel _. cbn. done.
    - eexists. exists 0%nat. intros fuel _. cbn. done. }
  destruct Hr as [r Hr]. exists r. split; [done|]. split; [|done]. intros H. by pose proof (C51_unique _ _ _ _ _ _ HN H).
Qed.
Print Assumptions C51_empty_pattern_refuted.

(** With a count below 1 the result depends on the classes: a vector and a list with the same
    elements give different answers for the same pattern. *)
Theorem C51_count_refuted test x y count :
  test y x = false -> test x x = true -> count <= 0 ->
  finds false test (CVec VkObject [y; x]) (CVec VkObject [x]) count (Some 1) /\
  finds false test (CList [y; x]) (CList [x]) count None.
Proof.
  intros Hyx Hxx Hc. split.
  - exists 0%nat. intros fuel _. cbn [subsequence_position]. unfold sub_vectors. cbn [sub_short length]. change (Z.to_nat (Z.of_nat 2)) with 2%nat. cbn [find_one].
    rewrite (zread_val _ 0 y) by done. cbn [obind]. rewrite Hyx. change (0 + 1) with 1.
    rewrite (zread_val _ 1 x) by done. cbn [obind]. rewrite Hxx. destruct (Z.leb_spec (count - 1) 0); [done|lia].
  - exists 5%nat. intros fuel Hf. do 5 (destruct fuel as [|fuel]; [lia|]). cbn. rewrite Hyx. cbn. rewrite Hxx. cbn.
    destruct (Z.eqb_spec count 1); [lia|]. cbn. done.
Qed.
Print Assumptions C51_count_refuted.

(** ** Examples *)

Definition txt (l : list Z) : coll := CVec VkString (VChr <$> l).

(** "abcabcab", pattern "abca" would overlap; here "abc", and overlapping occurrences of "aba". *)
Example C51_sample_1 :
  subsequence_position 100 true chr_eq (txt [97; 98; 99; 97; 98; 99; 97; 98]) (txt [97; 98; 99]) 2 = Val (Some 3).
Proof. vm_compute. reflexivity. Qed.
Example C51_sample_2 :
  subsequence_position 100 true chr_eq (txt [97; 98; 97; 98; 97]) (txt [97; 98; 97]) 2 = Val (Some 2) /\
  subsequence_position 100 true chr_eq (txt [97; 98; 97; 98; 97]) (txt [97; 98; 97]) 3 = Val None.
Proof. split; vm_compute; reflexivity. Qed.

(** An infinite range searched for a list. *)
Example C51_sample_3 :
  let test := fun a b => match a, b with VInt x, VInt y => x =? y | _, _ => false end in
  nth_occurrence test (CRangeInf 5 2) (CList [VInt 9; VInt 11]) 1 2 /\
  subsequence_position 100 true test (CRangeInf 5 2) (CList [VInt 9; VInt 11]) 1 = Val (Some 2).
Proof.
  intros test.
  assert (H : forall i, occurs test (CRangeInf 5 2) (CList [VInt 9; VInt 11]) i <-> i = 2%nat).
  { intros i. rewrite occ_pos; [|done|done]. split.
    - intros H. destruct (H 0%nat (VInt 9) eq_refl) as (x & Hx & Ht). unfold sv in Hx. cbn in Hx.
      destruct (decide _); [|done]. injection Hx as <-. cbn in Ht. lia.
    - intros -> [|[|j]] y; rewrite sv_list; [| |done]; intros [= <-]; eexists; split; reflexivity. }
  split; [|vm_compute; reflexivity]. split; [by apply H|]. exists 0%nat. split; [done|].
  exists []. split; [constructor|]. split; [done|]. intros j. rewrite elem_of_nil, H. split; [done|lia].
Qed.

(** The hypotheses of the theorem hold for these. *)
Example C51_sample_4 :
  exists r, finds true chr_eq (txt [97; 98; 97; 98; 97]) (txt [97; 98; 97]) 2 r /\ is_position chr_eq (txt [97; 98; 97; 98; 97]) (txt [97; 98; 97]) 2 r.
Proof.
  apply C51_position_partial; try done.
  - repeat constructor.
  - repeat constructor.
  - cbn. repeat constructor; lia.
  - cbn. repeat constructor; lia.
  - by left.
Qed.

(** An empty pattern. *)
Example C51_sample_5 : finds false chr_eq (txt [97; 98]) (txt []) 3 (Some 2) /\ finds false chr_eq (txt [97; 98]) (txt []) 9 (Some 8).
Proof. split; exists 0%nat; done. Qed.
