(** C35: split and join. *)
From Verif Require Import Base SplitModel SplitSpec SplitProofs.
From Coq Require Import ZifyBool ZifyNat ZifyN.
Local Open Scope Z_scope.

Section props.
Context {A : Type}.
Implicit Types (s : list A) (test : A -> A -> bool).

Lemma matches_ne test (sep : list A) : sep <> [] -> forall m, matches test sep m -> m <> [].
Proof. intros H m Hm ->. by apply Forall2_nil_inv_r in Hm. Qed.
Lemma one_ne test (sep : A) : forall m, one test sep m -> m <> [].
Proof. by intros m (x & -> & _). Qed.

Lemma forall2_eq (l k : list A) : Forall2 eq l k -> l = k.
Proof. induction 1; congruence. Qed.

(** Splitting a subsequence on a separator sequence returns, for every test and
    count, the leftmost-separator decomposition of that subsequence, given up
    after [count] parts.  In particular it neither signals nor runs forever. *)
Theorem C35_split_sequence test s sep start epos count :
  sep <> [] -> 0 <= start <= epos -> epos <= Z.of_nat (length s) ->
  exists parts, split_seq test s sep start epos count false = Val parts /\
    SplitsUpTo (matches test sep) (Z.to_nat count) (subseq s start epos) parts.
Proof. intros H1 H2 H3. apply split_fn_ok; try done. by apply find_separator_ok. Qed.

(** The same for a separator object. *)
Theorem C35_split_object test s sep start epos count :
  0 <= start <= epos -> epos <= Z.of_nat (length s) ->
  exists parts, split_obj test s sep start epos count false = Val parts /\
    SplitsUpTo (one test sep) (Z.to_nat count) (subseq s start epos) parts.
Proof. intros H2 H3. apply split_fn_ok; try done. apply find_pos_ok. Qed.

(** With the default [count] the split is complete: no part contains a separator. *)
Theorem C35_default_count test s sep start epos :
  sep <> [] -> 0 <= start <= epos -> epos <= Z.of_nat (length s) ->
  exists parts, split_seq test s sep start epos (epos + 1) false = Val parts /\
    Splits (matches test sep) (subseq s start epos) parts /\
    Forall (fun p => ~ contains_sep (matches test sep) p) parts.
Proof.
  intros H1 H2 H3.
  destruct (C35_split_sequence test s sep start epos (epos + 1)) as (ps & HE & HS); [done..|].
  pose proof (subseq_length s start epos H2 H3).
  apply splits_up_to_all in HS; [|by apply matches_ne|lia].
  exists ps. split; [done|]. split; [done|]. eapply splits_parts; [|done]. by apply matches_ne.
Qed.

Theorem C35_default_count_object test s sep start epos :
  0 <= start <= epos -> epos <= Z.of_nat (length s) ->
  exists parts, split_obj test s sep start epos (epos + 1) false = Val parts /\
    Splits (one test sep) (subseq s start epos) parts /\
    Forall (fun p => ~ contains_sep (one test sep) p) parts.
Proof.
  intros H2 H3.
  destruct (C35_split_object test s sep start epos (epos + 1)) as (ps & HE & HS); [done..|].
  pose proof (subseq_length s start epos H2 H3).
  apply splits_up_to_all in HS; [|by apply one_ne|lia].
  exists ps. split; [done|]. split; [done|]. eapply splits_parts; [|done]. by apply one_ne.
Qed.

(** At most [count] parts (at least one), and only the last of exactly [count]
    parts may contain the separator. *)
Theorem C35_count test s sep start epos count :
  sep <> [] -> 0 <= start <= epos -> epos <= Z.of_nat (length s) ->
  exists parts, split_seq test s sep start epos count false = Val parts /\
    1 <= Z.of_nat (length parts) <= Z.max 1 count /\
    forall i p, parts !! i = Some p -> contains_sep (matches test sep) p ->
      S i = length parts /\ Z.max 1 count = Z.of_nat (length parts).
Proof.
  intros H1 H2 H3.
  destruct (C35_split_sequence test s sep start epos count) as (ps & HE & HS); [done..|].
  exists ps. split; [done|]. pose proof (splits_up_to_count _ _ _ _ HS) as HC. split; [lia|].
  intros i p Hi Hp. pose proof (lookup_lt_Some _ _ _ Hi) as Hlt.
  destruct (decide (S i < Nat.max (length ps) (Z.to_nat count))%nat) as [Hs|Hs].
  - exfalso. eapply (splits_up_to_parts _ (matches_ne test sep H1)); [exact HS|exact Hi|exact Hs|exact Hp].
  - split; lia.
Qed.

(** Joining the parts with the separator gives the subsequence back, whatever the
    count, when the test is equality. *)
Theorem C35_join_split test s sep start epos count fill :
  (forall x y, test x y = true <-> x = y) ->
  sep <> [] -> 0 <= start <= epos -> epos <= Z.of_nat (length s) ->
  exists parts, split_seq test s sep start epos count false = Val parts /\
    join fill parts sep None = Val (subseq s start epos).
Proof.
  intros Heq H1 H2 H3.
  destruct (C35_split_sequence test s sep start epos count) as (ps & HE & HS); [done..|].
  exists ps. split; [done|]. rewrite join_ok. f_equal.
  eapply splits_up_to_joined; [|exact HS]. intros m Hm. unfold matches in Hm.
  assert (Hm' : Forall2 eq sep m) by (eapply Forall2_impl; [exact Hm|]; intros x y; apply Heq).
  apply forall2_eq in Hm'. done.
Qed.

Theorem C35_join_split_object test s sep start epos count fill :
  (forall x y, test x y = true <-> x = y) ->
  0 <= start <= epos -> epos <= Z.of_nat (length s) ->
  exists parts, split_obj test s sep start epos count false = Val parts /\
    join fill parts [sep] None = Val (subseq s start epos).
Proof.
  intros Heq H2 H3.
  destruct (C35_split_object test s sep start epos count) as (ps & HE & HS); [done..|].
  exists ps. split; [done|]. rewrite join_ok. f_equal.
  eapply splits_up_to_joined; [|exact HS]. intros m (x & -> & Hx). apply Heq in Hx. congruence.
Qed.

(** Splitting what was joined gives the pieces back, when the pieces cannot be
    confused: the last contains no separator, and in each other piece followed by
    the separator the separator occurs only at the end. *)
Theorem C35_split_join test parts sep fill :
  (forall x y, test x y = true <-> x = y) -> sep <> [] -> parts <> [] ->
  (forall p, last parts = Some p -> ~ contains_sep (eq sep) p) ->
  (forall i p, parts !! i = Some p -> (S i < length parts)%nat ->
     forall a b, p ++ sep = a ++ sep ++ b -> b = []) ->
  exists s, join fill parts sep None = Val s /\
    split_seq test s sep 0 (Z.of_nat (length s)) (Z.of_nat (length s) + 1) false = Val parts.
Proof.
  intros Heq Hsep Hne Hl Hi. exists (joined sep parts). split; [apply join_ok|].
  destruct (C35_default_count test (joined sep parts) sep 0 (Z.of_nat (length (joined sep parts))))
    as (ps & -> & HS & _); [done|lia|done|]. f_equal.
  assert (Hm : forall m, matches test sep m <-> m = sep).
  { intros m. unfold matches. split.
    - intros Hm. assert (Hm' : Forall2 eq sep m)
        by (eapply Forall2_impl; [exact Hm|]; intros x y; apply Heq).
      apply forall2_eq in Hm'. done.
    - intros ->. apply Forall_Forall2_diag, Forall_forall. intros x _. by apply Heq. }
  unfold subseq in HS. cbn [Z.to_nat drop] in HS.
  rewrite Z.sub_0_r, Nat2Z.id, firstn_all in HS.
  eapply splits_det; [|exact HS|].
  - intros m m' H1 H2. apply Hm in H1. apply Hm in H2. congruence.
  - apply splits_joined; try done. intros p Hp Hc. apply (Hl p Hp).
    destruct Hc as (a & m & b & -> & H). exists a, m, b. split; [done|]. symmetry. by apply Hm.
Qed.

(** [remove-if-empty?] leaves out exactly the empty parts. *)
Theorem C35_remove_empty test s sep start epos :
  sep <> [] -> 0 <= start <= epos -> epos <= Z.of_nat (length s) ->
  exists parts, split_seq test s sep start epos (epos + 1) false = Val parts /\
    split_seq test s sep start epos (epos + 1) true = Val (filter (fun p => p <> []) parts).
Proof.
  intros H1 H2 H3.
  destruct (C35_default_count test s sep start epos) as (ps & HE & HS & _); [done..|].
  exists ps. split; [done|].
  destruct (split_fn_ne (matches test sep) (find_separator test sep) s start epos (epos + 1))
    as (qs & Hq & HQ); [by apply find_separator_ok|done..|].
  unfold split_seq. rewrite Hq. f_equal. pose proof (subseq_length s start epos H2 H3).
  apply splits_ne_all in HQ as (full & HF & ->); [|by apply matches_ne|lia].
  f_equal. eapply splits_det; [|exact HF|exact HS].
  intros m m' Hm Hm'. apply matches_size in Hm. apply matches_size in Hm'. lia.
Qed.

(** ... and with a count an empty part does not count. *)
Theorem C35_remove_empty_count test s sep start epos count :
  sep <> [] -> 0 <= start <= epos -> epos <= Z.of_nat (length s) ->
  exists parts, split_seq test s sep start epos count true = Val parts /\
    SplitsNonEmpty (matches test sep) (Z.to_nat count) (subseq s start epos) parts /\
    Forall (fun p => p <> []) parts /\ Z.of_nat (length parts) <= Z.max 1 count.
Proof.
  intros H1 H2 H3.
  destruct (split_fn_ne (matches test sep) (find_separator test sep) s start epos count)
    as (qs & Hq & HQ); [by apply find_separator_ok|done..|].
  exists qs. split; [done|]. split; [done|]. apply splits_ne_parts in HQ as [? ?]. split; [done|]. lia.
Qed.

(** [join] puts the separator between neighbours, and the conjunction before the
    last piece. *)
Theorem C35_join seqs (sep : list A) fill : join fill seqs sep None = Val (joined sep seqs).
Proof. apply join_ok. Qed.

Theorem C35_join_conjunction seqs (sep conj : list A) fill :
  join fill seqs sep (Some conj) = Val (joined_conj sep conj seqs).
Proof. apply join_conj_ok. Qed.

(** Bounds outside the sequence and empty separators are errors. *)
Theorem C35_bounds test s sep start epos count rie :
  sep <> [] -> start < 0 \/ epos < start \/ Z.of_nat (length s) < epos ->
  exists m, split_seq test s sep start epos count rie = Signal m.
Proof.
  intros H1 H2. destruct (decide (start < 0)); [by apply split_seq_negative|].
  apply split_seq_bad; [done|lia|]. unfold size. lia.
Qed.

Theorem C35_bounds_object test s sep start epos count rie :
  start < 0 \/ epos < start \/ Z.of_nat (length s) < epos ->
  exists m, split_obj test s sep start epos count rie = Signal m.
Proof.
  intros H2. destruct (decide (start < 0)); [by apply split_obj_negative|].
  apply split_obj_bad; [lia|]. unfold size. lia.
Qed.

Theorem C35_empty_separator test s start epos count rie :
  exists m, split_seq test s [] start epos count rie = Signal m.
Proof.
  unfold split_seq, split_fn, split_fuel. cbn [split_loop].
  unfold find_separator. cbn [find_separator_loop looking_at].
  change (size (@nil A)) with 0.
  destruct (decide (start <= epos - 0)).
  - rewrite bool_decide_true by done. cbn [obind].
    rewrite bool_decide_true by lia. rewrite bool_decide_true by lia. cbn [obind]. eauto.
  - rewrite bool_decide_false by done. cbn [obind].
    destruct (copy_sequence_bad s start epos) as [m ->]; [lia|]. cbn [obind]. eauto.
Qed.

End props.

(** Non-vacuity: overlapping separators, count, empty parts. *)
Example C35_ex_overlap :
  split_seq Z.eqb [1;1;1;2;1;1] [1;1] 0 6 7 false = Val [[]; [1;2]; []].
Proof. reflexivity. Qed.
Example C35_ex_count :
  split_seq Z.eqb [5;0;6;0;7] [0] 0 5 2 false = Val [[5]; [6;0;7]].
Proof. reflexivity. Qed.
Example C35_ex_remove :
  split_obj Z.eqb [0;5;0;0;6] 0 0 5 6 true = Val [[5]; [6]].
Proof. reflexivity. Qed.
Example C35_ex_join : join 0 [[1];[];[2;3]] [9;9] (Some [8]) = Val [1;9;9;8;2;3].
Proof. reflexivity. Qed.
(** The condition of [C35_split_join] is met by pieces that overlap the separator. *)
Example C35_ex_condition : forall a b, [2;1] ++ [1;2] = a ++ [1;2] ++ b -> b = [].
Proof.
  intros [|x [|y [|z a]]] b H; try discriminate H.
  - by inversion H.
  - apply (f_equal length) in H. rewrite !app_length in H. cbn in H. lia.
Qed.
(** Without it the statement is false: [1] ++ [1;1] ++ [] read from the left. *)
Example C35_ex_ambiguous :
  join 0 [[1];[]] [1;1] None = Val [1;1;1] /\
  split_seq Z.eqb [1;1;1] [1;1] 0 3 4 false = Val [[]; [1]].
Proof. done. Qed.

Print Assumptions C35_split_sequence.
Print Assumptions C35_split_object.
Print Assumptions C35_default_count.
Print Assumptions C35_default_count_object.
Print Assumptions C35_count.
Print Assumptions C35_join_split.
Print Assumptions C35_join_split_object.
Print Assumptions C35_split_join.
Print Assumptions C35_remove_empty.
Print Assumptions C35_remove_empty_count.
Print Assumptions C35_join.
Print Assumptions C35_join_conjunction.
Print Assumptions C35_bounds.
Print Assumptions C35_bounds_object.
Print Assumptions C35_empty_separator.
