From Verif Require Import Base CollModel CollSpec CollProofs AccModel AccSpec SeqOpModel SeqOpSpec SeqOpProofs SelModel SelSpec SelProofs SelProofs2 FindModel FindSpec.
From Coq Require Import ZArith ZifyBool ZifyNat.
Local Open Scope Z_scope.

Section Find.
Context {A : Type}.
Implicit Types (p : A -> bool) (l : list A).

Fixpoint pos_of p (n : nat) l : option nat :=
  match l with
  | [] => None
  | x :: l => if p x then match n with O => Some O | S n => S <$> pos_of p n l end else S <$> pos_of p n l
  end.

Lemma pos_of_spec p : forall l n,
  match pos_of p n l with
  | Some i => (exists x, l !! i = Some x /\ p x = true) /\ length (List.filter p (take i l)) = n
  | None => (length (List.filter p l) <= n)%nat
  end.
Proof.
  induction l as [|x l IH]; intros n; cbn [pos_of]; [cbn; lia|]. destruct (p x) eqn:Hx.
  - destruct n as [|n]; [split; [by exists x|done]|]. specialize (IH n). destruct (pos_of p n l) as [i|]; cbn.
    + destruct IH as [IH1 IH2]. split; [done|]. rewrite Hx. cbn. by rewrite IH2.
    + rewrite Hx. cbn. lia.
  - specialize (IH n). destruct (pos_of p n l) as [i|]; cbn.
    + destruct IH as [IH1 IH2]. split; [done|]. by rewrite Hx.
    + by rewrite Hx.
Qed.

Lemma pos_of_hit p l (start stop n : nat) :
  nth_hit p l start stop n ((fun i => (start + i)%nat) <$> pos_of p n (take (stop - start) (drop start l))).
Proof.
  pose proof (pos_of_spec p (take (stop - start) (drop start l)) n) as H.
  destruct (pos_of p n (take (stop - start) (drop start l))) as [i|]; [|done]. cbn.
  destruct H as [(x & Hl & Hx) Hn]. apply lookup_take_Some in Hl as [Hl Hi]. rewrite lookup_drop in Hl.
  split_and!; [lia|lia|by exists x|]. rewrite take_take in Hn. unfold hits. rewrite <- Hn. do 2 f_equal. f_equal. lia.
Qed.

(** ** position on lists *)

Lemma position_loop_ok test t end_ : forall l index (n : nat),
  position_loop test t end_ index (Z.of_nat n) l =
  (fun i => index + Z.of_nat i) <$> pos_of (test t) n (match end_ with Some e => take (Z.to_nat (e - index)) l | None => l end).
Proof.
  induction l as [|x l IH]; intros index n; cbn [position_loop].
  { destruct end_; [by rewrite take_nil|done]. }
  destruct (at_end end_ index) eqn:He.
  { destruct end_ as [e|]; [|done]. cbn in He. by replace (Z.to_nat (e - index)) with O by lia. }
  assert (match end_ with Some e => take (Z.to_nat (e - index)) (x :: l) | None => x :: l end =
    x :: match end_ with Some e => take (Z.to_nat (e - (index + 1))) l | None => l end) as ->.
  { destruct end_ as [e|]; [|done]. cbn in He. by replace (Z.to_nat (e - index)) with (S (Z.to_nat (e - (index + 1)))) by lia. }
  cbn [pos_of]. destruct (test t x).
  - destruct n as [|n]; cbn [Z.eqb]; [cbn; f_equal; lia|]. replace (Z.of_nat (S n) =? 0) with false by lia.
    replace (Z.of_nat (S n) - 1) with (Z.of_nat n) by lia. rewrite IH. set (o := pos_of _ _ _). destruct o; cbn; f_equal; lia.
  - rewrite IH. set (o := pos_of _ _ _). destruct o; cbn; f_equal; lia.
Qed.

Lemma skip_states_ok : forall n l, skip_states n l = drop n l.
Proof. induction n as [|n IH]; intros l; [done|]. cbn. rewrite IH. destruct l; [by destruct n|done]. Qed.

Lemma position_list_ok test (start : nat) end_ skip count l t : 0 <= initial_skip skip count ->
  position_list test (Z.of_nat start) end_ skip count l t =
  (fun i => Z.of_nat (start + i)) <$> pos_of (test t) (Z.to_nat (initial_skip skip count))
     (take (match end_ with Some e => Z.to_nat e | None => length l end - start) (drop start l)).
Proof.
  intros Hs. unfold position_list. rewrite skip_states_ok, Nat2Z.id. rewrite <- (Z2Nat.id (initial_skip skip count)) at 1 by done.
  rewrite position_loop_ok.
  assert (match end_ with Some e => take (Z.to_nat (e - Z.of_nat start)) (drop start l) | None => drop start l end =
    take (match end_ with Some e => Z.to_nat e | None => length l end - start) (drop start l)) as ->.
  { destruct end_ as [e|]; [f_equal; lia|]. by rewrite take_ge by (rewrite drop_length; lia). }
  set (o := pos_of _ _ _). destruct o; cbn; f_equal; lia.
Qed.

Lemma position_loop_negative test t end_ : forall l index skip, skip < 0 -> position_loop test t end_ index skip l = None.
Proof.
  induction l as [|x l IH]; intros index skip Hs; cbn; [done|]. destruct (at_end end_ index); [done|].
  destruct (test t x); [|by apply IH]. replace (skip =? 0) with false by lia. apply IH. lia.
Qed.

(** ** position on vectors *)

Lemma position_vector_loop_ok test l t end_ : forall fuel (index n : nat), (Z.to_nat (end_ - Z.of_nat index) < fuel)%nat ->
  position_vector_loop fuel test l t end_ (Z.of_nat index) (Z.of_nat n) =
  match pos_of (test t) n (take (Z.to_nat end_ - index) (drop index l)) with
  | Some i => Val (Some (Z.of_nat (index + i)))
  | None => if (Z.of_nat index <? end_) && (Z.of_nat (length l) <? end_) then Signal element_range_error else Val None
  end.
Proof.
  induction fuel as [|fuel IH]; intros index n Hf; [lia|]. cbn [position_vector_loop].
  destruct (end_ <=? Z.of_nat index) eqn:He.
  { replace (Z.to_nat end_ - index)%nat with O by lia. cbn. by replace (Z.of_nat index <? end_) with false by lia. }
  replace (Z.of_nat index <? end_) with true by lia. unfold checked_element. replace (Z.of_nat index <? 0) with false by lia.
  rewrite Nat2Z.id. destruct (l !! index) as [x|] eqn:Hx.
  2:{ apply lookup_ge_None in Hx. rewrite drop_ge by done. rewrite take_nil. cbn. by replace (Z.of_nat (length l) <? end_) with true by lia. }
  cbn [obind]. rewrite (drop_S l x index) by done. replace (Z.to_nat end_ - index)%nat with (S (Z.to_nat end_ - S index)) by lia. cbn [take pos_of].
  apply lookup_lt_Some in Hx.
  replace (Z.of_nat index + 1) with (Z.of_nat (S index)) by lia.
  assert (Hstop : (Z.of_nat (S index) <? end_) && (Z.of_nat (length l) <? end_) = (true && (Z.of_nat (length l) <? end_))) by lia.
  destruct (test t x).
  - destruct n as [|n]; cbn [Z.eqb]; [by rewrite Nat.add_0_r|]. replace (Z.of_nat (S n) =? 0) with false by lia.
    replace (Z.of_nat (S n) - 1) with (Z.of_nat n) by lia. rewrite IH by lia. rewrite Hstop.
    set (o := pos_of _ _ _). destruct o; cbn [fmap option_fmap option_map]; [|done]. do 2 f_equal. lia.
  - rewrite IH by lia. rewrite Hstop.
    set (o := pos_of _ _ _). destruct o; cbn [fmap option_fmap option_map]; [|done]. do 2 f_equal. lia.
Qed.

(** ** find-key and find-element *)

Lemma find_key_loop_ok fn : forall l skip index,
  find_key_loop fn skip index l = (fun i => index + 1 + Z.of_nat i) <$> pos_of fn (Z.to_nat skip) l.
Proof.
  induction l as [|x l IH]; intros skip index; [done|]. cbn [find_key_loop pos_of]. destruct (fn x); cbn [andb].
  - destruct (skip - 1 <? 0) eqn:Hs.
    + replace (Z.to_nat skip) with O by lia. cbn. f_equal. lia.
    + replace (Z.to_nat skip) with (S (Z.to_nat (skip - 1))) by lia. rewrite IH. set (o := pos_of _ _ _). destruct o; cbn; f_equal; lia.
  - rewrite IH. set (o := pos_of _ _ _). destruct o; cbn; f_equal; lia.
Qed.

Lemma find_key_seq_ok fn skip l : find_key_seq fn skip l = Z.of_nat <$> pos_of fn (Z.to_nat skip) l.
Proof. unfold find_key_seq. rewrite find_key_loop_ok. set (o := pos_of _ _ _). destruct o; cbn; f_equal; lia. Qed.

Lemma pos_of_whole fn l n : nth_hit fn l 0 (length l) n (pos_of fn n l).
Proof.
  pose proof (pos_of_hit fn l 0 (length l) n) as H. rewrite drop_0, Nat.sub_0_r, firstn_all in H. by destruct (pos_of fn n l).
Qed.

Lemma find_element_ok fn skip failure l :
  find_element fn skip failure l = match pos_of fn (Z.to_nat skip) l with Some i => default failure (l !! i) | None => failure end.
Proof.
  unfold find_element. rewrite find_key_seq_ok. destruct (pos_of fn (Z.to_nat skip) l) as [i|]; cbn; [|done].
  replace (Z.of_nat i <? 0) with false by lia. by rewrite Nat2Z.id.
Qed.

(** ** fill-table! *)

Lemma fill_table_ok : forall (n : nat) (l : list (object A)), (length l <= n)%nat -> (forall i, l !! (2 * i)%nat <> Some False_) ->
  pairs_of l (fill_table l).
Proof.
  induction n as [|n IH]; intros l Hn Hk; [destruct l; [|cbn in Hn; lia]; intros i k v; cbn; split; [done|intros [? ?]; done]|].
  destruct l as [|k0 l]; [intros i k v; cbn; split; [done|intros [? ?]; done]|].
  destruct k0 as [|a]; [by destruct (Hk O)|]. destruct l as [|v0 l].
  { intros i k v. cbn. split; [done|]. intros [_ H]. by replace (i + (i + 0) + 1)%nat with (S (i + i)) in H by lia. }
  change (fill_table (Obj a :: v0 :: l)) with ((Obj a, v0) :: fill_table l).
  assert (pairs_of l (fill_table l)) as IHl.
  { apply IH; [cbn in Hn; lia|]. intros i. specialize (Hk (S i)). replace (2 * S i)%nat with (S (S (2 * i))) in Hk by lia. exact Hk. }
  intros [|i] k v; [cbn; split; [by intros [= -> ->]|by intros [[= ->] [= ->]]]|].
  replace (2 * S i)%nat with (S (S (2 * i))) by lia. replace (S (S (2 * i)) + 1)%nat with (S (S (2 * i + 1))) by lia. cbn [lookup list_lookup].
  apply IHl.
Qed.
End Find.

(** ** difference *)

Lemma difference_ok fuel test c1 m1 c2 m2 : wf_coll c1 -> holds_list c1 m1 -> holds_list c2 m2 -> symmetric_if_string test c2 ->
  (length m1 < fuel)%nat -> (length m2 < fuel)%nat ->
  exists c', difference fuel test c1 c2 = Val c' /\ of_class_of c1 c' /\ elements_are c' (List.filter (fun x => negb (among test m2 x)) m1) /\ wf_coll c'.
Proof.
  intros Hw H1 H2 Hs Hf1 Hf2. unfold difference. rewrite (for_in_ok fuel c1 m1) by done.
  assert (forall l r, foldM (fun (result : list value) item => do b <- member_of fuel test item c2 ; Val (if negb b then item :: result else result))%outcome r l
    = Val (rev (List.filter (fun x => negb (among test m2 x)) l) ++ r)) as ->.
  { intros l r. rewrite <- foldM_filter. revert r. induction l as [|x l IH]; intros r; [done|]. cbn [foldM].
    rewrite (member_ok fuel test x c2 m2) by done. cbn [obind]. apply IH. }
  cbn [obind]. rewrite app_nil_r, rev_involutive. apply (as_own c1 m1); try done. intros v Hv.
  apply elem_of_list_In, filter_In in Hv as [Hv _]. by apply elem_of_list_In.
Qed.
