(** Proofs about the list operations, continued: every structure of pairs, and
    the size and equality of them. *)
From Verif Require Import Base ListModel ListSpec ListProofs ListCutProofs ListCopyProofs.
From stdpp Require Import list_numbers.
From Coq Require Import ZifyBool ZifyNat.
Open Scope Z_scope.

(** ** Where following tails leads *)

Definition next (h : heap) (o : obj) : obj :=
  match o with
  | OList a => match h !! a with Some (_, t) => t | None => o end
  | OAtom _ => o
  end.
Definition after (h : heap) (n : nat) (l : obj) : obj := Nat.iter n (next h) l.

Lemma after_S h n l : after h (S n) l = next h (after h n l).
Proof. done. Qed.
Lemma after_S' h n l : after h (S n) l = after h n (next h l).
Proof. unfold after. by rewrite Nat.iter_succ_r. Qed.
Lemma after_add h n m l : after h (n + m) l = after h n (after h m l).
Proof. unfold after. by rewrite Nat.iter_add. Qed.

Lemma seg_after h o xs cs e : seg h o xs cs e -> e = after h (length cs) o.
Proof.
  revert o cs. induction xs as [|x xs IH]; intros o [|c cs] H; try done.
  destruct H as (-> & Hc & t & Ht & H). cbn [length]. rewrite after_S'. cbn [next]. rewrite Ht. by apply IH.
Qed.

(** From every object, following [n] tails either ends or is at a pair. *)
Lemma follow n : forall h l, heap_ok h -> obj_ok h l ->
  (exists xs cs e, seg h l xs cs e /\ is_pair e = false) \/
  (exists xs cs e, length cs = n /\ seg h l xs cs e /\ is_pair e = true /\ obj_ok h e).
Proof.
  induction n as [|n IH]; intros h l Hh Hl.
  - destruct (is_pair l) eqn:E; [right|left]; exists [], [], l; done.
  - destruct (is_pair l) eqn:E; [|left; by exists [], [], l].
    destruct l as [[|a]|]; try done. cbn in Hl.
    destruct (lookup_lt_is_Some_2 h (S a) Hl) as [[x t] Ht].
    destruct (proj2 Hh _ _ _ Ht) as [_ Hto].
    destruct (IH h t Hh Hto) as [(xs & cs & e & Hs & He)|(xs & cs & e & Hn & Hs & He)]; [left|right];
      exists (x :: xs), (S a :: cs), e; (split; [..|]).
    + eapply seg_cons; done.
    + done.
    + cbn. by f_equal.
    + split; [by eapply seg_cons|done].
Qed.

Lemma pigeonhole (l : list nat) n : Forall (fun a => a < n)%nat l -> (n < length l)%nat ->
  exists i j c, (i < j)%nat /\ l !! i = Some c /\ l !! j = Some c.
Proof.
  intros Hf Hl.
  destruct (decide (NoDup l)) as [Hn|Hn].
  - exfalso. assert (l ⊆+ seq 0 n) as Hsub.
    { apply NoDup_submseteq; [done|]. intros a Ha. apply elem_of_seq. rewrite Forall_forall in Hf.
      specialize (Hf a Ha). cbn in Hf. lia. }
    apply submseteq_length in Hsub. rewrite seq_length in Hsub. lia.
  - clear Hf Hl. induction l as [|a l IH]; [by destruct Hn; constructor|].
    destruct (decide (a ∈ l)) as [Ha|Ha].
    + apply elem_of_list_lookup in Ha as [j Hj]. exists 0%nat, (S j), a. split; [lia|]. done.
    + destruct IH as (i & j & c & Hij & Hi & Hj).
      { intros H. apply Hn. by constructor. }
      exists (S i), (S j), c. split; [lia|]. done.
Qed.

Lemma seg_pair_at h o xs cs e i c : seg h o xs cs e -> cs !! i = Some c -> after h i o = OList c.
Proof.
  revert o cs i. induction xs as [|x xs IH]; intros o [|d cs] i H Hi; try done.
  destruct H as (-> & Hd & t & Ht & H). destruct i as [|i]; cbn in Hi; [by injection Hi as ->|].
  rewrite after_S'. cbn [next]. rewrite Ht. by eapply IH.
Qed.

(** All the objects met are pairs. *)
Definition all_pairs (h : heap) (l : obj) : Prop :=
  forall n, exists c x t, after h n l = OList c /\ c <> 0%nat /\ h !! c = Some (x, t).

Lemma circular_all_pairs h l : circular h l -> all_pairs h l.
Proof.
  intros Hc n. destruct (Hc (S n)) as (xs & cs & e & Hn & Hs & He).
  destruct (lookup_lt_is_Some_2 cs n) as [c Hcn]; [lia|].
  assert (Hl := seg_length _ _ _ _ _ Hs).
  destruct (lookup_lt_is_Some_2 xs n) as [x Hx]; [lia|].
  destruct (seg_lookup _ _ _ _ _ _ _ Hs Hx) as (c' & t & Hc' & Ht). assert (c' = c) as -> by congruence.
  exists c, x, t. split; [by eapply seg_pair_at|]. split; [|done].
  eapply seg_in; [exact Hs|]. by eapply elem_of_list_lookup_2.
Qed.

Lemma all_pairs_circular h l : all_pairs h l -> circular h l.
Proof.
  intros Ha n. revert l Ha. induction n as [|n IH]; intros l Ha.
  - exists [], [], l. split; [done|]. split; [done|]. destruct (Ha 0%nat) as (c & x & t & E & Hc & _).
    cbn in E. subst l. by apply is_pair_S.
  - destruct (Ha 0%nat) as (c & x & t & E & Hc & Ht). cbn in E. subst l.
    destruct (IH t) as (xs & cs & e & Hn & Hs & He).
    { intros m. destruct (Ha (S m)) as (c' & x' & t' & E & H). rewrite after_S' in E. cbn [next] in E.
      rewrite Ht in E. eauto. }
    exists (x :: xs), (c :: cs), e. split; [cbn; by f_equal|]. split; [by eapply seg_cons|done].
Qed.

(** Every structure ends somewhere or goes round. *)
Lemma ends_or_circular h l : heap_ok h -> obj_ok h l ->
  (exists xs cs e, seg h l xs cs e /\ is_pair e = false) \/
  (circular h l /\ exists k, (1 <= k <= length h)%nat /\ after h k l = after h (k + k) l).
Proof.
  intros Hh Hl. destruct (follow (length h) h l Hh Hl) as [H|(xs & cs & e & Hn & Hs & He & Heo)]; [by left|right].
  destruct e as [a|]; [|done].
  destruct (pigeonhole (cs ++ [a]) (length h)) as (i & j & c & Hij & Hi & Hj).
  { apply Forall_app. split; [by eapply seg_old|]. constructor; [done|constructor]. }
  { rewrite app_length. cbn. lia. }
  assert (Hat : forall n d, (cs ++ [a]) !! n = Some d -> after h n l = OList d).
  { intros n d Hd. destruct (decide (n < length cs)%nat) as [Hlt|Hge].
    - rewrite lookup_app_l in Hd by done. by eapply seg_pair_at.
    - assert (n = length cs) as ->.
      { apply lookup_lt_Some in Hd. rewrite app_length in Hd. cbn in Hd. lia. }
      rewrite lookup_app_r, Nat.sub_diag in Hd by lia. injection Hd as ->. symmetry. by eapply seg_after. }
  assert (Hjl : (j <= length h)%nat) by (apply lookup_lt_Some in Hj; rewrite app_length in Hj; cbn in Hj; lia).
  assert (Hper : forall x, (i <= x)%nat -> after h (x + (j - i)) l = after h x l).
  { intros x Hx. replace (x + (j - i))%nat with ((x - i) + j)%nat by lia.
    rewrite after_add, (Hat j c Hj), <- (Hat i c Hi), <- after_add. f_equal. lia. }
  assert (Hperq : forall q x, (i <= x)%nat -> after h (x + q * (j - i)) l = after h x l).
  { intros q. induction q as [|q IHq]; intros x Hx; [f_equal; lia|].
    replace (x + S q * (j - i))%nat with ((x + q * (j - i)) + (j - i))%nat by lia.
    rewrite Hper by lia. by apply IHq. }
  assert (Hpair : forall n, (n <= j)%nat -> exists c x t, after h n l = OList c /\ c <> 0%nat /\ h !! c = Some (x, t)).
  { intros n Hle. destruct (lookup_lt_is_Some_2 (cs ++ [a]) n) as [d Hd].
    { apply lookup_lt_Some in Hj. lia. }
    rewrite (Hat n d Hd). exists d.
    assert (d <> 0%nat /\ (d < length h)%nat) as [Hd0 Hdl].
    { apply elem_of_list_lookup_2, elem_of_app in Hd as [Hd|Hd]; [by eapply seg_in|].
      apply elem_of_list_singleton in Hd as ->. split; [by destruct a|done]. }
    destruct (lookup_lt_is_Some_2 h d Hdl) as [[x t] Hx]. eauto. }
  split.
  - apply all_pairs_circular. intros n. destruct (decide (n <= j)%nat) as [Hle|Hgt]; [by apply Hpair|].
    replace n with ((i + (n - i) mod (j - i)) + ((n - i) / (j - i)) * (j - i))%nat.
    2: { pose proof (Nat.div_mod_eq (n - i) (j - i)). lia. }
    rewrite Hperq by lia. apply Hpair. pose proof (Nat.mod_upper_bound (n - i) (j - i)). lia.
  - exists ((i / (j - i) + 1) * (j - i))%nat.
    pose proof (Nat.div_mod_eq i (j - i)). pose proof (Nat.mod_upper_bound i (j - i)).
    split; [lia|]. symmetry. apply Hperq. lia.
Qed.

(** ** size *)

Lemma size_loop_circular h l : all_pairs h l -> forall d k kk fuel,
  kk = (k + d)%nat -> after h kk l = after h (kk + kk) l -> (1 <= kk)%nat -> (d < fuel)%nat ->
  size_loop fuel h (2 * Z.of_nat k) (after h (k + k) l) (after h k l) = Val None.
Proof.
  intros Ha. induction d as [|d IH]; intros k kk fuel Hk Hkk H1 Hf; (destruct fuel as [|f]; [lia|]); cbn [size_loop].
  - assert (kk = k) as -> by lia. rewrite <- Hkk.
    destruct (Ha k) as (c & x & t & E & Hc & Ht). rewrite E. rewrite (tail_val _ _ _ _ Ht). cbn [obind].
    assert (is_nil t = false) as ->.
    { destruct (Ha (S k)) as (c' & x' & t' & E' & Hc' & _). rewrite after_S, E in E'. cbn [next] in E'. rewrite Ht in E'.
      rewrite E'. by apply is_nil_S. }
    unfold same. rewrite bool_decide_eq_true_2 by done. replace (0 <? 2 * Z.of_nat k) with true by lia. done.
  - destruct (Ha (k + k)%nat) as (c & x & t & E & Hc & Ht). rewrite E, (tail_val _ _ _ _ Ht). cbn [obind].
    assert (Et : after h (S (k + k)) l = t) by (rewrite after_S, E; cbn [next]; by rewrite Ht).
    destruct (Ha (S (k + k))) as (c2 & x2 & t2 & E2 & Hc2 & Ht2). rewrite Et in E2. rewrite E2 in Et, Ht |- *.
    rewrite is_nil_S by done.
    destruct (same (OList c) (after h k l) && (0 <? 2 * Z.of_nat k)) eqn:Es; [done|].
    rewrite is_pair_S by done. rewrite (tail_val _ _ _ _ Ht2). cbn [obind].
    assert (Et2 : after h (S k + S k) l = t2).
    { replace (S k + S k)%nat with (S (S (k + k))) by lia. rewrite after_S, Et. cbn [next]. by rewrite Ht2. }
    destruct (Ha (S k + S k)%nat) as (c3 & x3 & t3 & E3 & Hc3 & Ht3). rewrite <- Et2, E3.
    rewrite is_nil_S, is_pair_S by done.
    destruct (Ha k) as (c4 & x4 & t4 & E4 & Hc4 & Ht4). rewrite E4, (tail_val _ _ _ _ Ht4). cbn [obind].
    assert (Et4 : after h (S k) l = t4) by (rewrite after_S, E4; cbn [next]; by rewrite Ht4).
    destruct (Ha (S k)) as (c5 & x5 & t5 & E5 & Hc5 & _). rewrite <- Et4, E5, is_pair_S by done.
    rewrite <- E3, <- E5. replace (2 * Z.of_nat k + 2) with (2 * Z.of_nat (S k)) by lia.
    eapply (IH (S k) kk); [lia|done|lia|lia].
Qed.

Lemma size_loop_improper z xs : forall fuel h count fast slow cs ys ds,
  0 <= count -> seg h fast xs cs (OAtom z) -> xs <> [] -> seg h slow ys ds (OAtom z) ->
  (length xs + Z.to_nat count / 2 = length ys)%nat -> Z.even count = true -> (length xs <= fuel)%nat ->
  size_loop fuel h count fast slow = Signal "Taking size of an improper list".
Proof.
  intros fuel. revert xs. induction fuel as [|f IH]; intros xs h count fast slow cs ys ds H0 Hf Hne Hs Hlen Hev Hfu.
  { destruct xs; [done|]. cbn in Hfu. lia. }
  destruct xs as [|x xs]; [done|]. assert (Hf0 := Hf). seg_inv Hf. cbn [size_loop].
  rewrite (tail_val _ _ _ _ Ht). cbn [obind].
  assert (Hsame : same (OList c) slow && (0 <? count) = false).
  { destruct (Z.ltb_spec 0 count) as [Hc0|Hc0]; [|by rewrite andb_false_r].
    unfold same. destruct (decide (OList c = slow)) as [<-|Hne']; [|by rewrite bool_decide_eq_false_2].
    exfalso. destruct (seg_det h (OList c) _ _ (OAtom z) _ _ (OAtom z) eq_refl eq_refl Hf0 Hs) as (E & _ & _).
    apply (f_equal length) in E. apply Z.even_spec in Hev as [k Hk]. subst count.
    replace (Z.to_nat (2 * k)) with (Z.to_nat k * 2)%nat in Hlen by lia. rewrite Nat.div_mul in Hlen by lia. lia. }
  destruct xs as [|x2 xs].
  { seg_inv Hf. cbn [is_nil is_pair]. by rewrite Hsame. }
  seg_inv Hf. rewrite is_nil_S by done. rewrite Hsame, is_pair_S by done.
  rewrite (tail_val _ _ _ _ Ht0). cbn [obind].
  destruct xs as [|x3 xs].
  { seg_inv Hf. done. }
  match type of Hf with seg _ ?t3 _ _ _ => assert (exists c3, t3 = OList c3 /\ c3 <> 0%nat) as (c3 & -> & Hc3) end.
  { destruct cs; [by destruct Hf|]. destruct Hf as (-> & Hc3 & _). eauto. }
  rewrite is_nil_S, is_pair_S by done.
  destruct ys as [|y ys]; [cbn in Hlen; lia|]. seg_inv Hs.
  erewrite tail_val by eassumption. cbn [obind].
  destruct ys as [|y2 ys]; [cbn in Hlen; lia|].
  match type of Hs with seg _ ?t3 _ _ _ => assert (is_pair t3 = true) as -> end.
  { destruct ds; [by destruct Hs|]. destruct Hs as (-> & Hc4 & _). by apply is_pair_S. }
  eapply (IH (x3 :: xs)); try done.
  - lia.
  - replace (Z.to_nat (count + 2)) with (Z.to_nat count + 1 * 2)%nat by lia. rewrite Nat.div_add by lia.
    cbn [length] in *. lia.
  - by rewrite Z.even_add, Hev.
  - cbn [length] in *. lia.
Qed.

Lemma list_size_circular h l fuel k :
  circular h l -> (1 <= k)%nat -> after h k l = after h (k + k) l -> (k < fuel)%nat ->
  list_size fuel h l = Val None.
Proof.
  intros Hc H1 Hk Hf. apply circular_all_pairs in Hc. unfold list_size.
  destruct (Hc 0%nat) as (c & x & t & E & Hc0 & _). cbn in E. subst l. rewrite is_nil_S by done.
  apply (size_loop_circular h (OList c) Hc k 0 k fuel); [lia|done|lia|lia].
Qed.

Lemma list_size_improper h l fuel xs cs z :
  seg h l xs cs (OAtom z) -> xs <> [] -> (length xs < fuel)%nat ->
  list_size fuel h l = Signal "Taking size of an improper list".
Proof.
  intros Hs Hne Hf. unfold list_size.
  assert (is_nil l = false) as ->.
  { destruct xs; [done|]. destruct cs; [by destruct Hs|]. destruct Hs as (-> & Hc & _). by apply is_nil_S. }
  apply (size_loop_improper z xs fuel h 0 l l cs xs cs); try done; try lia.
Qed.

(** ** Equality *)

Fixpoint depth (t : tree) : nat := match t with Leaf _ => 1%nat | Node l r => S (max (depth l) (depth r)) end.
#[global] Instance tree_eq_dec : EqDecision tree.
Proof. solve_decision. Defined.

Lemma tree_det h o t t' : is_tree h o t -> is_tree h o t' -> t = t'.
Proof.
  intros H. revert t'. induction H as [o Hp|a x t l r Ha Hc Hl IHl Hr IHr]; intros t' H'.
  - inversion H'; subst; [done|]. exfalso. destruct a; done.
  - inversion H' as [? Hp|? x' u' l' r' ? Hc' Hl' Hr']; subst.
    + exfalso. by destruct a.
    + rewrite Hc in Hc'. injection Hc' as <- <-. f_equal; eauto.
Qed.

Lemma equal_ok fuel : forall h o1 o2 t1 t2, is_tree h o1 t1 -> is_tree h o2 t2 ->
  (depth t1 <= fuel)%nat -> (depth t2 <= fuel)%nat -> equal fuel h o1 o2 = Val (bool_decide (t1 = t2)).
Proof.
  induction fuel as [|f IH]; intros h o1 o2 t1 t2 H1 H2 D1 D2.
  { destruct t1; cbn in D1; lia. }
  cbn [equal].
  destruct H1 as [o1 Hp1|a1 x1 u1 l1 r1 Ha1 Hc1 Hl1 Hr1].
  - rewrite Hp1. cbn [andb]. destruct H2 as [o2 Hp2|a2 x2 u2 l2 r2 Ha2 Hc2 Hl2 Hr2].
    + unfold same. f_equal. apply bool_decide_ext. split; [by intros ->|by intros [= ->]].
    + unfold same. rewrite !bool_decide_eq_false_2; [done|done|]. intros ->. by destruct a2.
  - destruct H2 as [o2 Hp2|a2 x2 u2 l2 r2 Ha2 Hc2 Hl2 Hr2].
    + rewrite Hp2, andb_false_r. unfold same. rewrite !bool_decide_eq_false_2; [done|done|]. intros <-. by destruct a1.
    + rewrite !is_pair_S by done. cbn [andb]. unfold same. destruct (decide (OList a1 = OList a2)) as [E|E].
      * rewrite bool_decide_eq_true_2 by done. injection E as ->. rewrite Hc1 in Hc2. injection Hc2 as <- <-.
        rewrite (tree_det _ _ _ _ Hl1 Hl2), (tree_det _ _ _ _ Hr1 Hr2). by rewrite bool_decide_eq_true_2.
      * rewrite bool_decide_eq_false_2 by done. rewrite (head_val _ _ _ _ Hc1), (head_val _ _ _ _ Hc2). cbn [obind].
        cbn [depth] in D1, D2. rewrite (IH h x1 x2 l1 l2) by (done || lia). cbn [obind].
        destruct (decide (l1 = l2)) as [-> |Hne].
        -- rewrite bool_decide_eq_true_2 by done. rewrite (tail_val _ _ _ _ Hc1), (tail_val _ _ _ _ Hc2). cbn [obind].
           rewrite (IH h u1 u2 r1 r2) by (done || lia). f_equal. apply bool_decide_ext.
           split; [by intros ->|by intros [= ->]].
        -- rewrite bool_decide_eq_false_2 by done. rewrite bool_decide_eq_false_2; [done|]. by intros [= -> _].
Qed.
