(** C50: [=] on collections. *)
From stdpp Require Import list_numbers.
From Verif Require Import Base CollModel CollSpec CollProofs CollIterProofs EqModel EqSpec EqProofs.
From Coq Require Import ZArith ZifyBool ZifyNat.
Local Open Scope outcome_scope.
Local Open Scope Z_scope.

(** [returns same eqv c1 c2 b]: [c1 = c2] ends and returns [b]. *)
Definition returns (same : nat -> bool) (eqv : value -> value -> bool) (c1 c2 : coll) (b : bool) : Prop :=
  exists F, forall fuel, (F <= fuel)%nat -> coll_equal same eqv fuel c1 c2 = Val b.

Lemma returns_fun same eqv c1 c2 b b' : returns same eqv c1 c2 b -> returns same eqv c1 c2 b' -> b = b'.
Proof. intros [F H] [F' H']. specialize (H (F + F')%nat ltac:(lia)). specialize (H' (F + F')%nat ltac:(lia)). congruence. Qed.

(** [=] on two collections always returns, and is true just when the two have the same key test and
    equal elements under the same keys, except for the pairs in [odd_pair]. *)
Theorem C50_equal_partial same eqv c1 c2 :
  element_equality eqv -> wf_coll c1 -> wf_coll c2 -> sharing_ok same c1 c2 -> ~ odd_pair c1 c2 ->
  exists b, returns same eqv c1 c2 b /\ (b = true <-> equal_spec eqv c1 c2).
Proof.
  intros He W1 W2 Hs Ho. destruct (equal_ok same eqv c1 c2 He W1 W2 Hs Ho) as (F & b & H1 & H2).
  exists b. split; [by exists F|exact H2].
Qed.

(** Hence it is an equivalence on collections no two of which are such a pair. *)
Theorem C50_equivalence_partial eqv (P : coll -> Prop) (same : coll -> coll -> nat -> bool) :
  element_equality eqv -> (forall c, P c -> wf_coll c) ->
  (forall c1 c2, P c1 -> P c2 -> sharing_ok (same c1 c2) c1 c2 /\ ~ odd_pair c1 c2) ->
  (forall c, P c -> returns (same c c) eqv c c true) /\
  (forall c1 c2 b, P c1 -> P c2 -> returns (same c1 c2) eqv c1 c2 b -> returns (same c2 c1) eqv c2 c1 b) /\
  (forall c1 c2 c3, P c1 -> P c2 -> P c3 -> returns (same c1 c2) eqv c1 c2 true -> returns (same c2 c3) eqv c2 c3 true ->
     returns (same c1 c3) eqv c1 c3 true).
Proof.
  intros He Hwf HP. pose proof He as [Hrefl Hsym Htrans _ _].
  assert (D : forall c1 c2, P c1 -> P c2 -> exists b, returns (same c1 c2) eqv c1 c2 b /\ (b = true <-> equal_spec eqv c1 c2)).
  { intros c1 c2 H1 H2. destruct (HP c1 c2 H1 H2). apply C50_equal_partial; auto. }
  assert (D' : forall c1 c2, P c1 -> P c2 -> returns (same c1 c2) eqv c1 c2 true <-> equal_spec eqv c1 c2).
  { intros c1 c2 H1 H2. destruct (D c1 c2 H1 H2) as (b & Hb & Hd). rewrite <- Hd. split; [intros H; by eapply returns_fun|by intros ->]. }
  split; [|split].
  - intros c Hc. apply D'; [done..|]. split; [done|]. intros k. destruct (value_at c k); cbn; [apply Hrefl|done].
  - intros c1 c2 b H1 H2 Hb. destruct (D c1 c2 H1 H2) as (b1 & Hb1 & Hd1), (D c2 c1 H2 H1) as (b2 & Hb2 & Hd2).
    assert (b = b1) as -> by by eapply returns_fun. assert (b1 = b2) as ->; [|done].
    apply Bool.eq_iff_eq_true. rewrite Hd1, Hd2. by apply equal_spec_sym.
  - intros c1 c2 c3 H1 H2 H3. rewrite !D' by done. intros [A1 A2] [B1 B2]. split; [congruence|]. intros k. specialize (A2 k). specialize (B2 k).
    destruct (value_at c1 k), (value_at c2 k), (value_at c3 k); cbn in *; try done. by eapply Htrans.
Qed.

(** A list and a table are compared without looking at the key test of the table. *)
Theorem C50_list_table same eqv l kt t : element_equality eqv -> NoDup t.*1 ->
  (exists b, returns same eqv (CList l) (CTab kt t) b /\ (b = true <-> same_elements eqv (CList l) (CTab kt t))) /\
  (exists b, returns same eqv (CTab kt t) (CList l) b /\ (b = true <-> same_elements eqv (CList l) (CTab kt t))).
Proof.
  intros [_ Hsym _ _ _] Hnd. destruct (list_tab eqv l kt t Hsym Hnd) as (b & Hb & Hd).
  split; exists b; (split; [exists 0%nat; intros fuel _; exact Hb|exact Hd]).
Qed.

(** So a list of any elements is [=] to a table with another key test than ==, whereas a vector of the
    same elements, to which the list is [=], is not: [=] is not transitive. *)
Theorem C50_list_table_refuted same eqv l kt : element_equality eqv -> kt <> 0%nat ->
  let t := CTab kt (imap (fun i v => (KInt (Z.of_nat i), v)) l) in
  wf_coll t /\ ~ equal_spec eqv (CList l) t /\ returns same eqv (CList l) t true /\
  returns same eqv (CVec VkObject l) (CList l) true /\ returns same eqv (CVec VkObject l) t false.
Proof.
  intros He Hkt. pose proof He as [Hrefl Hsym _ _ _]. intros t.
  assert (Hk : (imap (fun i v => (KInt (Z.of_nat i), v)) l).*1 = ikeys (length l)).
  { apply list_eq. intros i. unfold ikeys. rewrite !list_lookup_fmap, list_lookup_imap. destruct (l !! i) as [v|] eqn:E; cbn.
    - apply lookup_lt_Some in E. rewrite (lookup_seq_lt 0 (length l) i E). done.
    - apply lookup_ge_None in E. rewrite lookup_seq_ge by done. done. }
  assert (Hnd : NoDup (imap (fun i v => (KInt (Z.of_nat i), v)) l).*1) by (rewrite Hk; apply ikeys_nodup).
  split; [done|]. split; [intros [H _]; cbn in H; lia|].
  assert (Hsame : same_elements eqv (CList l) t).
  { apply (seq_tab_same eqv (CList l) kt _ (length l)); [done..|]. split; [|by rewrite imap_length].
    intros j v _ Hv. rewrite sv_list in Hv. assert (value_at t (KInt (Z.of_nat j)) = Some v) as E; [|fold t; rewrite E; apply Hrefl].
    apply value_at_tab; [done|]. apply elem_of_list_lookup. exists j. rewrite list_lookup_imap, Hv. done. }
  split; [|split].
  - destruct (C50_list_table same eqv l kt _ He Hnd) as [(b & Hb & Hd) _]. destruct b; [done|]. exfalso. destruct Hd as [_ Hd]. by specialize (Hd Hsame).
  - destruct (C50_equal_partial same eqv (CVec VkObject l) (CList l) He I I I) as (b & Hb & Hd); [tauto|].
    destruct b; [done|]. exfalso. destruct Hd as [_ Hd]. enough (false = true) by done. apply Hd. split; [done|].
    intros [z| |]; cbn; try done. destruct (decide (0 <= z)); [|done]. destruct (l !! Z.to_nat z); cbn; [apply Hrefl|done].
  - destruct (C50_equal_partial same eqv (CVec VkObject l) t He I Hnd I) as (b & Hb & Hd); [tauto|].
    destruct b; [|done]. exfalso. destruct Hd as [Hd _]. specialize (Hd eq_refl) as [Hd _]. cbn in Hd. lia.
Qed.

(** Two ranges of one element each are not [=] if their steps differ, although both are [=] to the
    list of that element. *)
Theorem C50_ranges_refuted same eqv f b1 b2 : element_equality eqv -> b1 <> 0 -> b2 <> 0 -> b1 <> b2 ->
  equal_spec eqv (CRange f b1 1) (CRange f b2 1) /\ returns same eqv (CRange f b1 1) (CRange f b2 1) false /\
  returns same eqv (CRange f b1 1) (CList [VInt f]) true /\ returns same eqv (CList [VInt f]) (CRange f b2 1) true.
Proof.
  intros He H1 H2 H12. pose proof He as [Hrefl Hsym _ Hint _].
  assert (Hv : forall b k, value_at (CRange f b 1) k = value_at (CList [VInt f]) k).
  { intros b [z| |]; [|done..]. cbn [value_at]. destruct (decide (0 <= z < Z.of_nat 1)).
    - rewrite decide_True by lia. assert (z = 0) as -> by lia. rewrite Z.mul_0_l, Z.add_0_r. done.
    - destruct (decide (0 <= z)); [|done]. symmetry. apply lookup_ge_None. cbn. lia. }
  assert (Hspec : forall c1 c2, coll_key_test c1 = coll_key_test c2 -> (forall k, value_at c1 k = value_at c2 k) -> equal_spec eqv c1 c2).
  { intros c1 c2 Hk H. split; [done|]. intros k. rewrite H. destruct (value_at c2 k); cbn; [apply Hrefl|done]. }
  split; [|split; [|split]].
  - apply Hspec; [done|]. intros k. by rewrite !Hv.
  - exists 0%nat. intros fuel _. cbn. rewrite Z.eqb_refl. rewrite (proj2 (Z.eqb_neq b1 b2)) by done. done.
  - destruct (C50_equal_partial same eqv (CRange f b1 1) (CList [VInt f]) He H1 I I) as (b & Hb & Hd); [tauto|].
    destruct b; [done|]. destruct Hd as [_ Hd]. exfalso. enough (false = true) by done. apply Hd. apply Hspec; [done|]. apply Hv.
  - destruct (C50_equal_partial same eqv (CList [VInt f]) (CRange f b2 1) He I H2 I) as (b & Hb & Hd); [tauto|].
    destruct b; [done|]. destruct Hd as [_ Hd]. exfalso. enough (false = true) by done. apply Hd. apply Hspec; [done|]. intros k. by rewrite Hv.
Qed.

(** Examples: an element equality (structural on atoms), and results of [=]. *)
Definition atom_eq (a b : value) : bool :=
  match a, b with
  | VInt x, VInt y | VChr x, VChr y => x =? y
  | VObj x, VObj y => (x =? y)%nat
  | VFalse, VFalse | VVec _, VVec _ => true
  | _, _ => false
  end.
Example C50_atom_eq : element_equality atom_eq.
Proof.
  split; [intros []|intros [] []|intros [] [] []|..]; cbn; intros; rewrite ?Z.eqb_eq, ?Nat.eqb_eq in *; try done; congruence.
Qed.
Example C50_sample_1 :
  coll_equal (fun _ => false) atom_eq 9 (CDeq 3 [VInt 4; VInt 6; VInt 8]) (CRange 4 2 3) = Val true /\
  coll_equal (fun _ => false) atom_eq 9 (CRange 4 2 3) (CTab 0 [(KInt 2, VInt 8); (KInt 0, VInt 4); (KInt 1, VInt 6)]) = Val true /\
  coll_equal (fun _ => false) atom_eq 9 (CVec VkObject [VInt 4; VInt 6]) (CRangeInf 4 2) = Val false /\
  coll_equal (fun _ => false) atom_eq 9 (CTab 0 [(KInt 7, VInt 8)]) (CTab 0 [(KInt 6, VInt 8)]) = Val false.
Proof. split_and!; vm_compute; reflexivity. Qed.
Example C50_sample_2 : forall c1 c2, c1 ∈ [CList [VInt 4]; CVec VkObject [VInt 4]; CTab 0 [(KInt 0, VInt 4)]] ->
  c2 ∈ [CList [VInt 4]; CVec VkObject [VInt 4]; CTab 0 [(KInt 0, VInt 4)]] -> sharing_ok (fun _ => false) c1 c2 /\ ~ odd_pair c1 c2.
Proof. intros c1 c2 H1 H2. repeat (apply elem_of_cons in H1 as [->|H1]; [|]); try (by apply elem_of_nil in H1);
  repeat (apply elem_of_cons in H2 as [->|H2]; [|]); try (by apply elem_of_nil in H2); cbn; split; try done; tauto. Qed.

Print Assumptions C50_equal_partial.
Print Assumptions C50_equivalence_partial.
Print Assumptions C50_list_table.
Print Assumptions C50_list_table_refuted.
Print Assumptions C50_ranges_refuted.
