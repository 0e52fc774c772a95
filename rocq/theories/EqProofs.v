(** Proofs about [=] on collections. *)
From stdpp Require Import list_numbers.
From Verif Require Import Base CollModel CollSpec CollProofs CollIterProofs EqModel EqSpec.
From Coq Require Import ZArith ZifyBool ZifyNat.
Local Open Scope outcome_scope.
Local Open Scope Z_scope.

(** The element at a position of a sequence. *)
Definition sv (c : coll) (i : nat) : option value := value_at c (KInt (Z.of_nat i)).
Definition seq_from (eqv : value -> value -> bool) (c1 c2 : coll) (i : nat) : Prop :=
  forall j, (i <= j)%nat -> both eqv (sv c1 j) (sv c2 j).

Lemma seq_from_step eqv c1 c2 i : seq_from eqv c1 c2 i <-> both eqv (sv c1 i) (sv c2 i) /\ seq_from eqv c1 c2 (S i).
Proof.
  split.
  - intros H. split; [by apply H|]. intros j Hj. apply H. lia.
  - intros [H1 H2] j Hj. destruct (decide (i = j)) as [<-|]; [done|]. apply H2. lia.
Qed.

Lemma seq_key c k : is_sequence c = true -> (forall i : nat, k <> KInt (Z.of_nat i)) -> value_at c k = None.
Proof.
  intros Hs Hk. destruct (value_at c k) eqn:E; [|done]. exfalso.
  destruct c, k; cbn in *; try done; destruct (decide _); try done; apply (Hk (Z.to_nat z)); f_equal; lia.
Qed.

Lemma key_cases (k : key) : (exists i : nat, k = KInt (Z.of_nat i)) \/ forall i : nat, k <> KInt (Z.of_nat i).
Proof.
  destruct k as [z| |]; [|right; done..]. destruct (decide (0 <= z)).
  - left. exists (Z.to_nat z). f_equal. lia.
  - right. intros i [= ?]. lia.
Qed.

Lemma seq_same eqv c1 c2 : is_sequence c1 = true -> is_sequence c2 = true ->
  same_elements eqv c1 c2 <-> seq_from eqv c1 c2 0.
Proof.
  intros H1 H2. split.
  - intros H j _. apply H.
  - intros H k. destruct (key_cases k) as [[i ->]|Hn]; [apply H; lia|]. by rewrite !seq_key.
Qed.

Lemma sv_entry c i v : is_sequence c = true -> sv c i = Some v <-> entry_at c i = Some (KInt (Z.of_nat i), v).
Proof. intros Hs. unfold sv, entry_at. destruct c; try done; destruct (value_at _ _); split; intros H; try done; congruence. Qed.

Lemma sv_below c i : is_sequence c = true -> below i (slen c) <-> is_Some (sv c i).
Proof.
  intros Hs. rewrite entry_below. split; intros [x Hx].
  - destruct x as [k v]. exists v. apply sv_entry; [done|]. pose proof (entry_seq _ _ _ _ Hs Hx) as [-> _]. done.
  - apply sv_entry in Hx; [|done]. by eexists.
Qed.

Lemma sv_end c n i : is_sequence c = true -> slen c = Some n -> (n <= i)%nat -> sv c i = None.
Proof. intros Hs Hn Hi. apply eq_None_not_Some. rewrite <- sv_below by done. rewrite Hn. cbn. lia. Qed.

Lemma not_end c i : upto i (slen c) -> slen c <> Some i -> below i (slen c).
Proof. destruct (slen c); cbn; [|done]. intros H1 H2. destruct (decide (n = i)); [congruence|lia]. Qed.

(** What holds at position [i] of a sequence in an iteration over it. *)
Lemma at_pos c i : is_sequence c = true -> wf_keys c -> upto i (slen c) ->
  (run_fin (f_fin (fip_of c)) c (pos_state c i) (f_limit (fip_of c)) = Val true /\ (forall j, (i <= j)%nat -> sv c j = None) /\ slen c = Some i) \/
  (exists v, run_fin (f_fin (fip_of c)) c (pos_state c i) (f_limit (fip_of c)) = Val false /\
     run_elt (f_elt (fip_of c)) c (pos_state c i) = Val v /\ sv c i = Some v /\
     run_next (f_next (fip_of c)) c (pos_state c i) = Val (pos_state c (S i)) /\ upto (S i) (slen c)).
Proof.
  intros Hs Hwf Hi. rewrite pos_fin by done. destruct (decide (slen c = Some i)) as [E|E].
  - left. rewrite bool_decide_true by done. split; [done|]. split; [|done]. intros j Hj. by eapply sv_end.
  - right. rewrite bool_decide_false by done. pose proof (not_end _ _ Hi E) as Hb.
    destruct (proj1 (sv_below c i Hs) Hb) as [v Hv]. exists v. split; [done|].
    apply sv_entry in Hv as He; [|done]. split; [by eapply pos_elt|]. split; [done|]. split; [by apply pos_next|].
    destruct (slen c); cbn in *; [lia|done].
Qed.

Definition decides (b : bool) (P : Prop) : Prop := b = true <-> P.

Lemma both_none_l eqv o : both eqv None o <-> o = None.
Proof. by destruct o. Qed.
Lemma both_none_r eqv o : both eqv o None <-> o = None.
Proof. by destruct o. Qed.

Lemma seq_from_end_l eqv c1 c2 i : (forall j, (i <= j)%nat -> sv c1 j = None) ->
  seq_from eqv c1 c2 i <-> forall j, (i <= j)%nat -> sv c2 j = None.
Proof.
  intros H. split.
  - intros Hs j Hj. specialize (Hs j Hj). rewrite H in Hs by done. by apply both_none_l in Hs.
  - intros Hs j Hj. by rewrite H, Hs.
Qed.

Lemma sv_end_slen c i : is_sequence c = true -> upto i (slen c) ->
  (forall j, (i <= j)%nat -> sv c j = None) <-> slen c = Some i.
Proof.
  intros Hs Hi. split.
  - intros H. destruct (decide (slen c = Some i)) as [|E]; [done|]. pose proof (not_end _ _ Hi E) as Hb.
    apply sv_below in Hb; [|done]. rewrite H in Hb by lia. by destruct Hb.
  - intros E j Hj. by eapply sv_end.
Qed.

Definition remains (c : coll) (i m : nat) : Prop := exists n, slen c = Some n /\ (n <= i + m)%nat.

Lemma remains_step c i m : remains c i (S m) -> remains c (S i) m.
Proof. intros (n & H1 & H2). exists n. split; [done|lia]. Qed.

Lemma seq_seq_ok eqv c1 c2 m i fuel :
  is_sequence c1 = true -> is_sequence c2 = true -> wf_keys c1 -> wf_keys c2 -> upto i (slen c1) -> upto i (slen c2) ->
  (remains c1 i m \/ remains c2 i m) -> (m < fuel)%nat ->
  exists b, eq_seq_seq fuel eqv c1 (fip_of c1) (pos_state c1 i) c2 (fip_of c2) (pos_state c2 i) = Val b /\ decides b (seq_from eqv c1 c2 i).
Proof.
  intros Hs1 Hs2 Hw1 Hw2. revert i fuel. induction m as [|m IH]; intros i fuel Hu1 Hu2 Hr Hf;
    (destruct fuel as [|fuel]; [lia|]); cbn [eq_seq_seq];
    (destruct (at_pos c1 i Hs1 Hw1 Hu1) as [(F1 & N1 & L1)|(v1 & F1 & E1 & V1 & X1 & U1)]; rewrite F1; cbn [obind];
     [rewrite pos_fin by done; eexists; split; [done|]; unfold decides; rewrite bool_decide_eq_true, seq_from_end_l by done;
      symmetry; by apply sv_end_slen|]);
    (destruct (at_pos c2 i Hs2 Hw2 Hu2) as [(F2 & N2 & L2)|(v2 & F2 & E2 & V2 & X2 & U2)]; rewrite F2; cbn [obind];
     [exists false; split; [done|]; unfold decides; split; [done|]; intros H; specialize (H i (le_n _)); rewrite V1, N2 in H by lia; done|]).
  - exfalso. destruct Hr as [(n & Hn & ?)|(n & Hn & ?)].
    + rewrite (sv_end c1 n i) in V1 by (try done; lia). done.
    + rewrite (sv_end c2 n i) in V2 by (try done; lia). done.
  - rewrite E1, E2. cbn [obind]. destruct (eqv v1 v2) eqn:Ev.
    + rewrite X1, X2. cbn [obind]. destruct (IH (S i) fuel U1 U2) as (b & Hb & Hd).
      { destruct Hr as [Hr|Hr]; [left|right]; by apply remains_step. } { lia. }
      exists b. split; [done|]. unfold decides in *. rewrite Hd, (seq_from_step _ _ _ i), V1, V2. cbn. rewrite Ev. tauto.
    + exists false. split; [done|]. split; [done|]. rewrite (seq_from_step _ _ _ i), V1, V2. cbn. rewrite Ev. by intros [? _].
Qed.

(** ** Lists *)

Lemma sv_list l i : sv (CList l) i = l !! i.
Proof. unfold sv. by rewrite value_at_nat. Qed.
Lemma sv_vec k l i : sv (CVec k l) i = l !! i.
Proof. unfold sv. by rewrite value_at_nat. Qed.

Lemma list_seq_ok eqv l c2 i l0 :
  (forall a b, eqv a b = true -> eqv b a = true) ->
  is_sequence c2 = true -> wf_keys c2 -> upto i (slen c2) -> drop i l0 = l -> (i <= length l0)%nat ->
  exists b, eq_list_seq eqv l c2 (fip_of c2) (pos_state c2 i) = Val b /\ decides b (seq_from eqv (CList l0) c2 i).
Proof.
  intros Hsym Hs Hw. revert i. induction l as [|x l IH]; intros i Hu Hd Hi; cbn [eq_list_seq].
  - rewrite pos_fin by done. eexists. split; [done|]. unfold decides. rewrite bool_decide_eq_true, seq_from_end_l.
    + symmetry. by apply sv_end_slen.
    + intros j Hj. rewrite sv_list. apply lookup_ge_None. apply (f_equal length) in Hd. rewrite drop_length in Hd. cbn in Hd. lia.
  - assert (Hx : l0 !! i = Some x).
    { rewrite <- (Nat.add_0_r i), <- lookup_drop, Hd. done. }
    assert (Hl : drop (S i) l0 = l). { rewrite <- (drop_drop l0 1 i) || rewrite <- Nat.add_1_r, <- drop_drop. by rewrite Hd. }
    destruct (at_pos c2 i Hs Hw Hu) as [(F2 & N2 & L2)|(v2 & F2 & E2 & V2 & X2 & U2)]; rewrite F2; cbn [obind].
    + exists false. split; [done|]. split; [done|]. intros H. specialize (H i (le_n _)). rewrite sv_list, Hx, N2 in H by lia. done.
    + rewrite E2. cbn [obind]. destruct (eqv v2 x) eqn:Ev; cbn [negb].
      * rewrite X2. cbn [obind]. destruct (IH (S i)) as (b & Hb & Hdec); [done|done|by apply lookup_lt_Some in Hx|].
        exists b. split; [done|]. unfold decides in *. rewrite Hdec, (seq_from_step _ _ _ i), sv_list, Hx, V2. cbn. apply Hsym in Ev. tauto.
      * exists false. split; [done|]. split; [done|]. rewrite (seq_from_step _ _ _ i), sv_list, Hx, V2. cbn. intros [H _].
        apply Hsym in H. congruence.
Qed.

Lemma list_list_ok same eqv l1 l2 i l10 l20 :
  (forall a, eqv a a = true) ->
  (forall i, same i = true -> drop i l10 = drop i l20) ->
  drop i l10 = l1 -> drop i l20 = l2 ->
  decides (eq_list_list same eqv i l1 l2) (seq_from eqv (CList l10) (CList l20) i).
Proof.
  intros Hrefl Hsame. revert i l2. induction l1 as [|x l1 IH]; intros i l2 H1 H2.
  - assert (Hn1 : forall j, (i <= j)%nat -> sv (CList l10) j = None).
    { intros j Hj. rewrite sv_list. apply lookup_ge_None. apply (f_equal length) in H1. rewrite drop_length in H1. cbn in H1. lia. }
    unfold decides. rewrite seq_from_end_l by done. destruct l2 as [|y l2]; cbn [eq_list_list].
    + split; [|done]. intros _ j Hj. rewrite sv_list. apply lookup_ge_None. apply (f_equal length) in H2. rewrite drop_length in H2. cbn in H2. lia.
    + split; [done|]. intros H. specialize (H i (le_n _)). rewrite sv_list in H. rewrite <- (Nat.add_0_r i), <- lookup_drop, H2 in H. done.
  - assert (Hx : l10 !! i = Some x). { rewrite <- (Nat.add_0_r i), <- lookup_drop, H1. done. }
    assert (Hl1 : drop (S i) l10 = l1). { rewrite <- Nat.add_1_r, <- drop_drop. by rewrite H1. }
    unfold decides. destruct l2 as [|y l2]; cbn [eq_list_list].
    + split; [done|]. intros H. specialize (H i (le_n _)). rewrite !sv_list, Hx in H.
      rewrite <- (Nat.add_0_r i) in H. rewrite <- lookup_drop, H2 in H. done.
    + assert (Hy : l20 !! i = Some y). { rewrite <- (Nat.add_0_r i), <- lookup_drop, H2. done. }
      assert (Hl2 : drop (S i) l20 = l2). { rewrite <- Nat.add_1_r, <- drop_drop. by rewrite H2. }
      pose proof (IH (S i) l2 Hl1 Hl2) as HI. unfold decides in HI. rewrite orb_true_iff, andb_true_iff, HI. rewrite (seq_from_step _ _ _ i), !sv_list, Hx, Hy. cbn [both].
      split; [|by right]. intros [Hs|H]; [|done].
      apply Hsame in Hs. rewrite H1, H2 in Hs. injection Hs as Exy El. split; [by rewrite Exy|].
      intros j Hj. rewrite !sv_list.
      assert (l10 !! j = l20 !! j) as ->.
      { replace j with (i + (j - i))%nat by lia. rewrite <- !lookup_drop, H1, H2, Exy, El. done. }
      destruct (l20 !! j); cbn; [apply Hrefl|done].
Qed.

(** ** Vectors and strings *)

Lemma znth_nat (l : list value) (i : nat) : znth l (Z.of_nat i) = l !! i.
Proof. unfold znth. rewrite (proj2 (Z.leb_le _ _)) by lia. by rewrite Nat2Z.id. Qed.

Lemma grovel_ok eqv k1 k2 l1 l2 n i : length l1 = length l2 -> (i + n)%nat = length l1 ->
  exists b, eq_grovel n eqv l1 l2 (Z.of_nat i) = Val b /\ decides b (seq_from eqv (CVec k1 l1) (CVec k2 l2) i).
Proof.
  intros Hl. revert i. induction n as [|n IH]; intros i Hi; cbn [eq_grovel].
  - exists true. split; [done|]. split; [|done]. intros _ j Hj. rewrite !sv_vec, !(proj2 (lookup_ge_None _ _)) by lia. done.
  - unfold vector_element. rewrite !znth_nat. destruct (lookup_lt_is_Some_2 l1 i) as [x Hx]; [lia|]. destruct (lookup_lt_is_Some_2 l2 i) as [y Hy]; [lia|].
    rewrite Hx, Hy. cbn [obind]. destruct (eqv x y) eqn:Ev.
    + replace (Z.of_nat i + 1) with (Z.of_nat (S i)) by lia. destruct (IH (S i)) as (b & Hb & Hd); [lia|].
      exists b. split; [done|]. unfold decides in *. rewrite Hd, (seq_from_step _ _ _ i), !sv_vec, Hx, Hy. cbn. tauto.
    + exists false. split; [done|]. split; [done|]. rewrite (seq_from_step _ _ _ i), !sv_vec, Hx, Hy. cbn. rewrite Ev. by intros [? _].
Qed.

Lemma seq_from_length eqv c1 c2 n1 n2 : is_sequence c1 = true -> is_sequence c2 = true ->
  slen c1 = Some n1 -> slen c2 = Some n2 -> seq_from eqv c1 c2 0 -> n1 = n2.
Proof.
  intros S1 S2 H1 H2 H.
  destruct (decide (n1 < n2)%nat); [|destruct (decide (n2 < n1)%nat); [|lia]].
  - specialize (H n1 (Nat.le_0_l _)). rewrite (sv_end c1 n1) in H by (try done; lia). apply both_none_l in H.
    assert (is_Some (sv c2 n1)) as [? ?] by (apply sv_below; [done|]; rewrite H2; cbn; lia). congruence.
  - specialize (H n2 (Nat.le_0_l _)). rewrite (sv_end c2 n2) in H by (try done; lia). apply both_none_r in H.
    assert (is_Some (sv c1 n2)) as [? ?] by (apply sv_below; [done|]; rewrite H1; cbn; lia). congruence.
Qed.

Lemma vectors_ok eqv k1 k2 l1 l2 :
  exists b, eq_vectors eqv l1 l2 = Val b /\ decides b (seq_from eqv (CVec k1 l1) (CVec k2 l2) 0).
Proof.
  unfold eq_vectors. destruct (length l1 =? length l2)%nat eqn:E.
  - apply Nat.eqb_eq in E. by apply (grovel_ok eqv k1 k2 l1 l2 (length l1) 0).
  - exists false. split; [done|]. split; [done|]. intros H. apply (seq_from_length _ _ _ (length l1) (length l2)) in H; try done. lia.
Qed.

Lemma string_loop_ok eqv l1 l2 m i fuel eq :
  (forall a b, eqv (VChr a) (VChr b) = true <-> a = b) ->
  Forall (fun v => is_char v = true) l1 -> Forall (fun v => is_char v = true) l2 -> length l1 = length l2 -> (i + m)%nat = length l1 -> (m < fuel)%nat ->
  let c1 := CVec VkString l1 in let c2 := CVec VkString l2 in
  exists b, eq_string_loop fuel c1 (fip_of c1) (pos_state c1 i) c2 (fip_of c2) (pos_state c2 i) eq = Val b /\
    decides b (eq = true /\ seq_from eqv c1 c2 i).
Proof.
  intros Hchr W1 W2 Hl. revert i fuel eq. induction m as [|m IH]; intros i fuel eq Hi Hf c1 c2; (destruct fuel as [|fuel]; [lia|]); cbn [eq_string_loop];
    (destruct (at_pos c1 i) as [(F1 & N1 & L1)|(v1 & F1 & E1 & V1 & X1 & U1)]; [done|done|cbn; lia| |]; rewrite F1; cbn [obind]).
  - exists eq. split; [done|]. unfold decides. split; [|tauto]. intros ->. split; [done|]. apply seq_from_end_l; [done|].
    intros j Hj. unfold c2. rewrite sv_vec. apply lookup_ge_None. lia.
  - exfalso. unfold c1 in V1. rewrite sv_vec in V1. apply lookup_lt_Some in V1. lia.
  - exfalso. cbn in L1. injection L1. lia.
  - destruct (at_pos c2 i) as [(F2 & N2 & L2)|(v2 & F2 & E2 & V2 & X2 & U2)]; [done|done|cbn; lia| |]; rewrite F2; cbn [obind].
    { exfalso. cbn in L2. injection L2. lia. }
    rewrite E1, E2. cbn [obind]. destruct eq; cbn [negb].
    + rewrite X1, X2. cbn [obind]. destruct (IH (S i) fuel (chr_eq v1 v2)) as (b & Hb & Hd); [lia|lia|].
      exists b. split; [done|]. unfold decides in *. rewrite Hd, (seq_from_step _ _ _ i), V1, V2. cbn.
      unfold c1, c2 in V1, V2. rewrite sv_vec in V1, V2.
      pose proof (Forall_lookup_1 _ _ _ _ W1 V1) as C1. pose proof (Forall_lookup_1 _ _ _ _ W2 V2) as C2.
      destruct v1, v2; try done. cbn. rewrite Z.eqb_eq. rewrite Hchr. tauto.
    + exists false. split; [done|]. unfold decides. split; [done|]. by intros [? _].
Qed.

Lemma strings_ok eqv l1 l2 fuel :
  (forall a b, eqv (VChr a) (VChr b) = true <-> a = b) ->
  Forall (fun v => is_char v = true) l1 -> Forall (fun v => is_char v = true) l2 -> (length l1 < fuel)%nat ->
  exists b, eq_strings fuel (CVec VkString l1) (CVec VkString l2) = Val b /\ decides b (seq_from eqv (CVec VkString l1) (CVec VkString l2) 0).
Proof.
  intros Hchr W1 W2 Hf. unfold eq_strings. cbn [coll_size obind]. destruct (length l1 =? length l2)%nat eqn:E; cbn [negb].
  - apply Nat.eqb_eq in E. destruct (string_loop_ok eqv l1 l2 (length l1) 0 fuel true Hchr W1 W2 E) as (b & Hb & Hd); [lia|done|].
    exists b. split; [exact Hb|]. unfold decides in *. rewrite Hd. tauto.
  - exists false. split; [done|]. split; [done|]. intros H. apply (seq_from_length _ _ _ (length l1) (length l2)) in H; try done. lia.
Qed.

(** ** Tables *)

Lemma lookup_key_value kt t k : lookup_key k t = value_at (CTab kt t) k.
Proof.
  cbn. induction t as [|[x v] t IH]; [done|]. cbn. case_bool_decide as Hx.
  - subst. by rewrite decide_True.
  - rewrite decide_False by done. rewrite IH. by destruct (list_find _ t) as [[? ?]|].
Qed.

Lemma coll_loop_ok eqv kt1 t1 c2 m i fuel eq :
  NoDup t1.*1 -> is_sequence c2 = false -> (i + m)%nat = length t1 -> (m < fuel)%nat ->
  let c1 := CTab kt1 t1 in
  exists b, eq_coll_loop fuel eqv c1 (fip_of c1) (pos_state c1 i) c2 eq = Val b /\
    decides b (eq = true /\ forall j k v, (i <= j)%nat -> t1 !! j = Some (k, v) -> both eqv (Some v) (value_at c2 k)).
Proof.
  intros Hnd Hc2. revert i fuel eq. induction m as [|m IH]; intros i fuel eq Hi Hf c1; (destruct fuel as [|fuel]; [lia|]); cbn [eq_coll_loop];
    rewrite pos_fin by (try done; cbn; lia); cbn [slen c1 obind].
  - rewrite bool_decide_true by (f_equal; lia). exists eq. split; [done|]. unfold decides. split; [|tauto]. intros ->. split; [done|].
    intros j k v Hj Hv. apply lookup_lt_Some in Hv. lia.
  - rewrite bool_decide_false by (intros [= ?]; lia). destruct (lookup_lt_is_Some_2 t1 i) as [[k v] Hkv]; [lia|].
    rewrite (pos_elt c1 i k v Hkv), (pos_key c1 i k v Hnd Hkv). cbn [obind]. destruct eq; cbn [negb].
    + rewrite pos_next by (cbn; lia). cbn [obind]. destruct c2 as [| | | | |kt2 t2]; try done. cbn [element_nf obind].
      rewrite (lookup_key_value kt2).
      destruct (IH (S i) fuel (match value_at (CTab kt2 t2) k with Some e2 => eqv v e2 | None => false end)) as (b & Hb & Hd); [lia|lia|].
      exists b. split; [done|]. unfold decides in *. rewrite Hd. split.
      * intros [H1 H2]. split; [done|]. intros j k' v' Hj Hj'. destruct (decide (i = j)) as [<-|]; [|eapply H2; [|done]; lia].
        rewrite Hkv in Hj'. injection Hj' as <- <-. destruct (value_at (CTab kt2 t2) k); done.
      * intros [_ H]. split.
        { specialize (H i k v (le_n _) Hkv). destruct (value_at (CTab kt2 t2) k); done. }
        intros j k' v' Hj. apply H. lia.
    + exists false. split; [done|]. unfold decides. split; [done|]. by intros [? _].
Qed.

(** Same number of keys, and the keys of the first are keys of the second. *)
Lemma same_keys (t1 t2 : list (key * value)) : NoDup t1.*1 -> NoDup t2.*1 -> length t1 = length t2 ->
  (forall k, k ∈ t1.*1 -> k ∈ t2.*1) -> forall k, k ∈ t2.*1 -> k ∈ t1.*1.
Proof.
  intros N1 N2 Hl H k Hk. assert (t1.*1 ≡ₚ t2.*1) as ->; [|done].
  apply submseteq_Permutation_length_le; [rewrite !fmap_length; lia|by apply NoDup_submseteq].
Qed.

Lemma value_at_key kt (t : list (key * value)) k : NoDup t.*1 -> (exists v, value_at (CTab kt t) k = Some v) <-> k ∈ t.*1.
Proof.
  intros Hnd. rewrite elem_of_list_fmap. split.
  - intros [v Hv]. apply value_at_tab in Hv; [|done]. by exists (k, v).
  - intros ([k' v] & -> & Hin). exists v. by apply value_at_tab.
Qed.

Lemma tables_ok eqv kt1 t1 kt2 t2 fuel : NoDup t1.*1 -> NoDup t2.*1 -> (length t1 < fuel)%nat ->
  exists b, eq_coll_coll fuel eqv (CTab kt1 t1) (CTab kt2 t2) = Val b /\ decides b (equal_spec eqv (CTab kt1 t1) (CTab kt2 t2)).
Proof.
  intros N1 N2 Hf. unfold eq_coll_coll. cbn [coll_key_test coll_size obind]. unfold decides, equal_spec. cbn [coll_key_test].
  destruct (decide (kt1 = kt2)) as [E|E].
  2: { rewrite bool_decide_false by done. exists false. split; [done|]. split; [done|]. by intros [? _]. }
  rewrite bool_decide_true by done. cbn [negb]. destruct (length t1 =? length t2)%nat eqn:El; cbn [negb].
  - apply Nat.eqb_eq in El. destruct (coll_loop_ok eqv kt1 t1 (CTab kt2 t2) (length t1) 0 fuel true) as (b & Hb & Hd); [done..|].
    exists b. split; [exact Hb|]. unfold decides in Hd. rewrite Hd. split.
    + intros [_ H]. split; [done|]. intros k.
      assert (H' : forall k v, value_at (CTab kt1 t1) k = Some v -> both eqv (Some v) (value_at (CTab kt2 t2) k)).
      { intros k' v Hv. apply value_at_tab in Hv; [|done]. apply elem_of_list_lookup in Hv as [j Hj]. apply (H j); [lia|done]. }
      destruct (value_at (CTab kt1 t1) k) as [v|] eqn:Ev; [by apply H'|]. apply both_none_l.
      destruct (value_at (CTab kt2 t2) k) as [w|] eqn:Ew; [|done]. exfalso.
      assert (k ∈ t1.*1) as Hin.
      { apply (same_keys t1 t2); try done.
        - intros k' Hk'. apply (value_at_key kt1) in Hk' as [v Hv]; [|done]. apply H' in Hv.
          apply (value_at_key kt2); [done|]. destruct (value_at (CTab kt2 t2) k'); [by eexists|done].
        - apply (value_at_key kt2); [done|]. by eexists. }
      apply (value_at_key kt1) in Hin as [v Hv]; [|done]. congruence.
    + intros [_ H]. split; [done|]. intros j k v _ Hj. specialize (H k).
      assert (value_at (CTab kt1 t1) k = Some v) as Hv. { apply value_at_tab; [done|]. by eapply elem_of_list_lookup_2. }
      by rewrite Hv in H.
  - exists false. split; [done|]. split; [done|]. intros [_ H]. apply Nat.eqb_neq in El. exfalso. apply El.
    assert (t1.*1 ≡ₚ t2.*1) as HP.
    { apply NoDup_Permutation; [done..|]. intros k. rewrite <- (value_at_key kt1), <- (value_at_key kt2) by done. specialize (H k).
      destruct (value_at (CTab kt1 t1) k), (value_at (CTab kt2 t2) k); try done; split; intros [? ?]; try done; by eexists. }
    apply Permutation_length in HP. by rewrite !fmap_length in HP.
Qed.

(** ** A sequence and a table *)

Definition ikeys (n : nat) : list key := map (fun i : nat => KInt (Z.of_nat i)) (seq 0 n).

Lemma ikeys_in n k : k ∈ ikeys n <-> exists i : nat, k = KInt (Z.of_nat i) /\ (i < n)%nat.
Proof.
  unfold ikeys. rewrite elem_of_list_fmap. split; intros (i & -> & H); exists i; (split; [done|]); apply elem_of_seq in H || apply elem_of_seq; lia.
Qed.
Lemma ikeys_nodup n : NoDup (ikeys n).
Proof. unfold ikeys. apply NoDup_fmap_2; [intros x y [= ?]; lia|]. apply NoDup_seq. Qed.
Lemma ikeys_length n : length (ikeys n) = n.
Proof. unfold ikeys. by rewrite map_length, seq_length. Qed.

(** Some natural number up to the number of entries is not a key. *)
Lemma missing_key kt (t : list (key * value)) : NoDup t.*1 -> exists j : nat, (j <= length t)%nat /\ value_at (CTab kt t) (KInt (Z.of_nat j)) = None.
Proof.
  intros Hnd. destruct (decide (Forall (fun j : nat => value_at (CTab kt t) (KInt (Z.of_nat j)) <> None) (seq 0 (S (length t))))) as [H|H].
  - exfalso. assert (ikeys (S (length t)) ⊆+ t.*1) as Hs.
    { apply NoDup_submseteq; [apply ikeys_nodup|]. intros k Hk. apply ikeys_in in Hk as (i & -> & Hi).
      apply (value_at_key kt); [done|]. rewrite Forall_forall in H. specialize (H i). destruct (value_at (CTab kt t) (KInt (Z.of_nat i))); [by eexists|].
      exfalso. apply H; [|done]. apply elem_of_seq. lia. }
    apply submseteq_length in Hs. rewrite ikeys_length, fmap_length in Hs. lia.
  - apply not_Forall_Exists in H; [|intros ?; apply _]. apply Exists_exists in H as (j & Hj & Hn). apply elem_of_seq in Hj. exists j. split; [lia|].
    destruct (value_at (CTab kt t) (KInt (Z.of_nat j))) eqn:E; [|done]. exfalso. apply Hn. cbv beta. rewrite E. congruence.
Qed.

Definition agree_with (eqv : value -> value -> bool) (c1 c2 : coll) (i : nat) : Prop :=
  forall j v, (i <= j)%nat -> sv c1 j = Some v -> both eqv (Some v) (value_at c2 (KInt (Z.of_nat j))).

Lemma seq_tab_same eqv c1 kt t n : is_sequence c1 = true -> slen c1 = Some n -> NoDup t.*1 ->
  same_elements eqv c1 (CTab kt t) <-> agree_with eqv c1 (CTab kt t) 0 /\ n = length t.
Proof.
  intros Hs Hn Hnd. split.
  - intros H. split.
    + intros j v _ Hv. specialize (H (KInt (Z.of_nat j))). unfold sv in Hv. by rewrite Hv in H.
    + assert (ikeys n ≡ₚ t.*1) as HP.
      { apply NoDup_Permutation; [apply ikeys_nodup|done|]. intros k. rewrite <- (value_at_key kt) by done. rewrite ikeys_in. split.
        - intros (i & -> & Hi). specialize (H (KInt (Z.of_nat i))). change (value_at c1 _) with (sv c1 i) in H.
          assert (is_Some (sv c1 i)) as [v Hv] by (apply sv_below; [done|]; by rewrite Hn). rewrite Hv in H.
          destruct (value_at (CTab kt t) _); [by eexists|done].
        - intros [v Hv]. specialize (H k). rewrite Hv in H. destruct (key_cases k) as [[i ->]|Hk]; [|by rewrite seq_key in H].
          exists i. split; [done|]. change (value_at c1 _) with (sv c1 i) in H.
          assert (below i (slen c1)) as Hb. { apply sv_below; [done|]. destruct (sv c1 i); [by eexists|done]. }
          by rewrite Hn in Hb. }
      apply Permutation_length in HP. by rewrite ikeys_length, fmap_length in HP.
  - intros [H Hl] k. destruct (value_at c1 k) as [v|] eqn:Ev.
    + destruct (key_cases k) as [[i ->]|Hk]; [|by rewrite seq_key in Ev]. by apply H; [lia|].
    + apply both_none_l. destruct (value_at (CTab kt t) k) as [w|] eqn:Ew; [|done]. exfalso.
      assert (ikeys n ≡ₚ t.*1) as HP.
      { apply submseteq_Permutation_length_le; [rewrite ikeys_length, fmap_length; lia|]. apply NoDup_submseteq; [apply ikeys_nodup|].
        intros k' Hk'. apply ikeys_in in Hk' as (i & -> & Hi). apply (value_at_key kt); [done|].
        assert (is_Some (sv c1 i)) as [v Hv] by (apply sv_below; [done|]; by rewrite Hn).
        specialize (H i v (Nat.le_0_l _) Hv). destruct (value_at (CTab kt t) _); [by eexists|done]. }
      assert (k ∈ t.*1) as Hin by (apply (value_at_key kt); [done|]; by eexists).
      rewrite <- HP in Hin. apply ikeys_in in Hin as (i & -> & Hi).
      assert (is_Some (sv c1 i)) as [v Hv] by (apply sv_below; [done|]; by rewrite Hn). unfold sv in Hv. congruence.
Qed.

Lemma agree_step eqv c1 c2 i v : sv c1 i = Some v ->
  agree_with eqv c1 c2 i <-> both eqv (Some v) (value_at c2 (KInt (Z.of_nat i))) /\ agree_with eqv c1 c2 (S i).
Proof.
  intros Hv. split.
  - intros H. split; [by apply H|]. intros j w Hj. apply H. lia.
  - intros [H1 H2] j w Hj Hw. destruct (decide (i = j)) as [<-|]; [congruence|]. apply H2; [lia|done].
Qed.

Lemma seq_coll_loop_ok eqv c1 kt t m i fuel eq :
  is_sequence c1 = true -> wf_keys c1 -> upto i (slen c1) ->
  (eq = false \/ exists j, (i <= j <= i + m)%nat /\ (slen c1 = Some j \/ value_at (CTab kt t) (KInt (Z.of_nat j)) = None)) -> (S m < fuel)%nat ->
  exists b n, eq_seq_coll_loop fuel eqv c1 (fip_of c1) (pos_state c1 i) (Z.of_nat i) (CTab kt t) eq = Val (b, Z.of_nat n) /\
    decides b (eq = true /\ agree_with eqv c1 (CTab kt t) i /\ slen c1 <> None) /\ (b = true -> slen c1 = Some n).
Proof.
  intros Hs Hw. revert i fuel eq. induction m as [|m IH]; intros i fuel eq Hu Hj Hf; (destruct fuel as [|fuel]; [lia|]); cbn [eq_seq_coll_loop];
    (destruct (at_pos c1 i Hs Hw Hu) as [(F1 & N1 & L1)|(v1 & F1 & E1 & V1 & X1 & U1)]; rewrite F1; cbn [obind];
     [exists eq, i; split; [done|]; unfold decides; split; [|done]; split; [|tauto]; intros ->; split; [done|];
      split; [|congruence]; intros j v Hj' Hv; rewrite N1 in Hv by done; done|]);
    rewrite E1; cbn [obind];
    (destruct eq; cbn [negb]; [|exists false, i; split; [done|]; unfold decides; split; [|done]; split; [done|]; by intros [? _]]);
    rewrite X1; cbn [obind element_nf]; rewrite (lookup_key_value kt); replace (Z.of_nat i + 1) with (Z.of_nat (S i)) by lia.
  - destruct Hj as [|(j & Hj & Hd)]; [done|]. assert (j = i) as -> by lia.
    destruct Hd as [Hd|Hd]; [rewrite (sv_end c1 i i Hs Hd) in V1 by lia; done|].
    rewrite Hd. destruct fuel as [|fuel]; [lia|]. cbn [eq_seq_coll_loop].
    destruct (at_pos c1 (S i) Hs Hw U1) as [(F2 & N2 & L2)|(v2 & F2 & E2 & V2 & X2 & U2)]; rewrite F2; cbn [obind].
    + exists false, (S i). split; [done|]. unfold decides. split; [|done]. split; [done|]. intros (_ & H & _).
      specialize (H i v1 (le_n _) V1). by rewrite Hd in H.
    + rewrite E2. cbn [obind negb]. exists false, (S i). split; [done|]. unfold decides. split; [|done]. split; [done|]. intros (_ & H & _).
      specialize (H i v1 (le_n _) V1). by rewrite Hd in H.
  - destruct (IH (S i) fuel (match value_at (CTab kt t) (KInt (Z.of_nat i)) with Some e2 => eqv v1 e2 | None => false end)) as (b & n & Hb & Hd & Hn); [done| |lia|].
    + destruct Hj as [|(j & Hj & Hd)]; [done|]. destruct (decide (j = i)) as [->|].
      * destruct Hd as [Hd|Hd]; [rewrite (sv_end c1 i i Hs Hd) in V1 by lia; done|]. left. by rewrite Hd.
      * right. exists j. split; [lia|done].
    + exists b, n. split; [done|]. split; [|done]. unfold decides in *. rewrite Hd. rewrite (agree_step _ _ _ i v1 V1).
      destruct (value_at (CTab kt t) (KInt (Z.of_nat i))); cbn [both]; [tauto|split; [by intros [? _]|tauto]].
Qed.

Lemma seq_coll_ok eqv c1 kt t fuel :
  is_sequence c1 = true -> wf_keys c1 -> NoDup t.*1 -> (S (length t) < fuel)%nat ->
  exists b, eq_seq_coll fuel eqv c1 (CTab kt t) = Val b /\ decides b (equal_spec eqv c1 (CTab kt t)).
Proof.
  intros Hs Hw Hnd Hf. unfold eq_seq_coll, decides, equal_spec. cbn [coll_key_test].
  assert (Hk1 : coll_key_test c1 = 0%nat) by by destruct c1. rewrite Hk1.
  destruct (decide (kt = 0%nat)) as [E|E].
  2: { rewrite bool_decide_false by done. exists false. split; [done|]. split; [done|]. intros [? _]. congruence. }
  rewrite bool_decide_true by done. cbn [negb]. rewrite fip_init. destruct (missing_key kt t Hnd) as (j & Hj & Hm).
  destruct (seq_coll_loop_ok eqv c1 kt t (length t) 0 fuel true) as (b & n & Hb & Hd & Hn); [done|done|destruct (slen c1); cbn; [lia|done]| |lia|].
  { right. exists j. split; [lia|by right]. }
  change (Z.of_nat 0) with 0 in Hb. rewrite Hb. cbn [obind coll_size]. destruct b.
  - specialize (Hn eq_refl). eexists. split; [done|]. rewrite (seq_tab_same _ _ _ _ n) by done. rewrite Z.eqb_eq.
    destruct Hd as [Hd _]. specialize (Hd eq_refl). destruct Hd as (_ & Ha & _). split; [intros H; split; [congruence|split; [done|lia]]|intros (_ & _ & H); lia].
  - exists false. split; [done|]. split; [done|]. intros [_ H]. destruct Hd as [_ Hd]. apply Hd. split; [done|]. split.
    + intros j' v _ Hv. specialize (H (KInt (Z.of_nat j'))). unfold sv in Hv. by rewrite Hv in H.
    + intros Hinf. specialize (H (KInt (Z.of_nat j))). rewrite Hm in H. apply both_none_r in H.
      assert (is_Some (sv c1 j)) as [v Hv] by (apply sv_below; [done|]; by rewrite Hinf). unfold sv in Hv. congruence.
Qed.

Lemma list_coll_ok eqv l i l0 kt t :
  (forall a b, eqv a b = true -> eqv b a = true) -> drop i l0 = l -> (i <= length l0)%nat ->
  exists b, eq_list_coll eqv l (Z.of_nat i) (CTab kt t) = Val b /\
    decides b (agree_with eqv (CList l0) (CTab kt t) i /\ length l0 = length t).
Proof.
  intros Hsym. revert i. induction l as [|x l IH]; intros i Hd Hi; cbn [eq_list_coll coll_size obind element_nf].
  - assert (length l0 = i) as Hl. { apply (f_equal length) in Hd. rewrite drop_length in Hd. cbn in Hd. lia. }
    eexists. split; [done|]. unfold decides. rewrite Z.eqb_eq. split; [|intros [_ H]; lia]. intros H. split; [|lia].
    intros j v Hj Hv. rewrite sv_list in Hv. apply lookup_lt_Some in Hv. lia.
  - assert (Hx : l0 !! i = Some x). { rewrite <- (Nat.add_0_r i), <- lookup_drop, Hd. done. }
    assert (Hl : drop (S i) l0 = l). { rewrite <- Nat.add_1_r, <- drop_drop. by rewrite Hd. }
    assert (Hsx : sv (CList l0) i = Some x) by by rewrite sv_list.
    rewrite (lookup_key_value kt). destruct (value_at (CTab kt t) (KInt (Z.of_nat i))) as [w|] eqn:Ew.
    + destruct (eqv w x) eqn:Ev; cbn [negb].
      * replace (Z.of_nat i + 1) with (Z.of_nat (S i)) by lia. destruct (IH (S i)) as (b & Hb & Hdec); [done|by apply lookup_lt_Some in Hx|].
        exists b. split; [done|]. unfold decides in *. rewrite Hdec, (agree_step _ _ _ i x Hsx), Ew. cbn [both]. apply Hsym in Ev. tauto.
      * exists false. split; [done|]. split; [done|]. rewrite (agree_step _ _ _ i x Hsx), Ew. cbn [both]. intros [[H _] _]. apply Hsym in H. congruence.
    + exists false. split; [done|]. split; [done|]. rewrite (agree_step _ _ _ i x Hsx), Ew. cbn [both]. tauto.
Qed.

(** ** Ranges *)

Lemma sv_range f b n i : sv (CRange f b n) i = if decide (i < n)%nat then Some (VInt (f + Z.of_nat i * b)) else None.
Proof. unfold sv. by rewrite value_at_nat. Qed.
Lemma sv_inf f b i : sv (CRangeInf f b) i = Some (VInt (f + Z.of_nat i * b)).
Proof. unfold sv. by rewrite value_at_nat. Qed.

Definition is_range (c : coll) : bool := match c with CRange _ _ _ | CRangeInf _ _ => true | _ => false end.

Lemma eq_ranges_S f1 b1 n1 f2 b2 n2 : eq_ranges (CRange f1 b1 (S n1)) (CRange f2 b2 (S n2)) = (f1 =? f2) && (b1 =? b2) && (n1 =? n2)%nat.
Proof. done. Qed.

Lemma ranges_ok eqv c1 c2 : (forall a b, eqv (VInt a) (VInt b) = true <-> a = b) ->
  is_range c1 = true -> is_range c2 = true -> ~ odd_pair c1 c2 ->
  decides (eq_ranges c1 c2) (seq_from eqv c1 c2 0).
Proof.
  intros Hint R1 R2 Ho. unfold decides. destruct c1 as [| | |f1 b1 n1|f1 b1|], c2 as [| | |f2 b2 n2|f2 b2|]; try done.
  - destruct n1 as [|n1], n2 as [|n2]; cbn [eq_ranges].
    + split; [|done]. intros _ j _. rewrite !sv_range, !decide_False by lia. done.
    + split; [done|]. intros H. apply (seq_from_length _ _ _ 0 (S n2)) in H; done.
    + split; [done|]. intros H. apply (seq_from_length _ _ _ (S n1) 0) in H; done.
    + rewrite !andb_true_iff, !Z.eqb_eq, Nat.eqb_eq. split.
      * intros [[-> ->] [= ->]] j _. rewrite !sv_range. destruct (decide _); cbn; [|done]. by apply Hint.
      * intros H. assert (S n1 = S n2) as [= <-] by (by apply (seq_from_length _ _ _ (S n1) (S n2)) in H).
        pose proof (H 0%nat (le_n _)) as H0. rewrite !sv_range, !decide_True in H0 by lia. cbn [both] in H0. apply Hint in H0.
        destruct (decide (b1 = b2)) as [->|Hb]; [split; [split; [lia|done]|done]|]. exfalso.
        destruct n1 as [|n1]; [apply Ho; cbn; split; [lia|done]|].
        pose proof (H 1%nat ltac:(lia)) as H1. rewrite !sv_range, !decide_True in H1 by lia. cbn [both] in H1. apply Hint in H1. lia.
  - cbn [eq_ranges]. assert (match n1 with 0%nat => false | S _ => false end = false) as E by by destruct n1.
    split; [by destruct n1|]. intros H. specialize (H n1 (Nat.le_0_l _)). rewrite sv_range, sv_inf, decide_False in H by lia. done.
  - cbn [eq_ranges]. split; [done|]. intros H. specialize (H n2 (Nat.le_0_l _)). rewrite sv_range, sv_inf, decide_False in H by lia. done.
  - cbn [eq_ranges]. rewrite andb_true_iff, !Z.eqb_eq. split.
    + intros [-> ->] j _. rewrite !sv_inf. cbn. by apply Hint.
    + intros H. pose proof (H 0%nat (le_n _)) as H0. rewrite !sv_inf in H0. cbn [both] in H0. apply Hint in H0.
      pose proof (H 1%nat ltac:(lia)) as H1. rewrite !sv_inf in H1. cbn [both] in H1. apply Hint in H1. lia.
Qed.

(** ** All pairs *)

Lemma both_sym eqv o1 o2 : (forall a b, eqv a b = true -> eqv b a = true) -> both eqv o1 o2 -> both eqv o2 o1.
Proof. intros Hs. destruct o1, o2; cbn; auto. Qed.

Lemma equal_spec_sym eqv c1 c2 : (forall a b, eqv a b = true -> eqv b a = true) -> equal_spec eqv c1 c2 <-> equal_spec eqv c2 c1.
Proof. intros Hs. split; intros [H1 H2]; (split; [done|]); intros k; apply both_sym; auto. Qed.

Lemma seq_spec eqv c1 c2 : is_sequence c1 = true -> is_sequence c2 = true -> equal_spec eqv c1 c2 <-> seq_from eqv c1 c2 0.
Proof.
  intros H1 H2. unfold equal_spec. rewrite seq_same by done. assert (coll_key_test c1 = coll_key_test c2) by by destruct c1, c2.
  tauto.
Qed.

Lemma list_tab eqv l kt t : (forall a b, eqv a b = true -> eqv b a = true) -> NoDup t.*1 ->
  exists b, eq_list_coll eqv l 0 (CTab kt t) = Val b /\ decides b (same_elements eqv (CList l) (CTab kt t)).
Proof.
  intros Hsym Hnd. destruct (list_coll_ok eqv l 0 l kt t Hsym) as (b & Hb & Hd); [done|lia|]. exists b. split; [exact Hb|].
  unfold decides in *. rewrite Hd. by rewrite (seq_tab_same eqv (CList l) kt t (length l)).
Qed.

Lemma equal_ok same eqv c1 c2 : element_equality eqv -> wf_coll c1 -> wf_coll c2 -> sharing_ok same c1 c2 -> ~ odd_pair c1 c2 ->
  exists F b, (forall fuel, (F <= fuel)%nat -> coll_equal same eqv fuel c1 c2 = Val b) /\ decides b (equal_spec eqv c1 c2).
Proof.
  intros [Hrefl Hsym _ Hint Hchr] W1 W2 Hsh Ho.
  assert (Hss : forall c c', is_sequence c = true -> is_sequence c' = true -> wf_keys c -> wf_keys c' -> (slen c <> None \/ slen c' <> None) ->
    exists F b, (forall fuel, (F <= fuel)%nat -> eq_seq_seq fuel eqv c (fip_of c) (f_init (fip_of c)) c' (fip_of c') (f_init (fip_of c')) = Val b) /\ decides b (equal_spec eqv c c')).
  { intros c c' S1 S2 K1 K2 Hfin.
    assert (exists m, remains c 0 m \/ remains c' 0 m) as [m Hm].
    { destruct Hfin as [Hf|Hf]; [destruct (slen c) as [n|] eqn:En|destruct (slen c') as [n|] eqn:En]; try done; exists n; [left|right]; by exists n. }
    exists (S m). rewrite !fip_init.
    destruct (seq_seq_ok eqv c c' m 0 (S m)) as (b & Hb & Hd); try done; [destruct (slen c); cbn; [lia|done]|destruct (slen c'); cbn; [lia|done]|lia|].
    exists b. split.
    - intros fuel Hf. destruct (seq_seq_ok eqv c c' m 0 fuel) as (b' & Hb' & Hd'); try done; [destruct (slen c); cbn; [lia|done]|destruct (slen c'); cbn; [lia|done]|].
      rewrite Hb'. f_equal. apply Bool.eq_iff_eq_true. unfold decides in *. tauto.
    - unfold decides in *. by rewrite seq_spec. }
  assert (Hls : forall l c, is_sequence c = true -> wf_keys c ->
    exists b, eq_list_seq eqv l c (fip_of c) (f_init (fip_of c)) = Val b /\ decides b (equal_spec eqv (CList l) c)).
  { intros l c S1 K1. rewrite fip_init. destruct (list_seq_ok eqv l c 0 l) as (b & Hb & Hd); try done; [destruct (slen c); cbn; [lia|done]|lia|].
    exists b. split; [done|]. unfold decides in *. by rewrite seq_spec. }
  assert (Hst : forall c kt t, is_sequence c = true -> wf_keys c -> NoDup t.*1 ->
    exists F b, (forall fuel, (F <= fuel)%nat -> eq_seq_coll fuel eqv c (CTab kt t) = Val b) /\ decides b (equal_spec eqv c (CTab kt t))).
  { intros c kt t S1 K1 N. exists (S (S (length t))). destruct (seq_coll_ok eqv c kt t (S (S (length t)))) as (b & Hb & Hd); [done..|lia|].
    exists b. split; [|done]. intros fuel Hf. destruct (seq_coll_ok eqv c kt t fuel) as (b' & Hb' & Hd'); [done..|lia|]. rewrite Hb'. f_equal.
    apply Bool.eq_iff_eq_true. unfold decides in *. tauto. }
  assert (Hlt : forall l t, NoDup t.*1 ->
    exists b, eq_list_coll eqv l 0 (CTab 0 t) = Val b /\ decides b (equal_spec eqv (CList l) (CTab 0 t))).
  { intros l t N. destruct (list_tab eqv l 0 t Hsym N) as (b & Hb & Hd). exists b. split; [done|]. unfold decides, equal_spec in *. cbn [coll_key_test]. tauto. }
  assert (Hswap : forall F b c c', (F /\ decides b (equal_spec eqv c c')) -> F /\ decides b (equal_spec eqv c' c)).
  { intros F b c c' [HF Hd]. split; [done|]. unfold decides in *. rewrite (equal_spec_sym eqv c' c) by done. done. }
  assert (Hr : is_range c1 = true -> is_range c2 = true -> exists F b, (forall fuel, (F <= fuel)%nat -> Val (eq_ranges c1 c2) = Val b) /\ decides b (equal_spec eqv c1 c2)).
  { intros R1 R2. exists 0%nat, (eq_ranges c1 c2). split; [done|]. unfold decides. rewrite seq_spec by (by destruct c1, c2). by apply ranges_ok. }
  assert (Hvv : forall k1 k2 l1 l2, exists F b, (forall fuel : nat, (F <= fuel)%nat -> eq_vectors eqv l1 l2 = Val b) /\ decides b (equal_spec eqv (CVec k1 l1) (CVec k2 l2))).
  { intros k1 k2 l1 l2. destruct (vectors_ok eqv k1 k2 l1 l2) as (b & Hb & Hd). exists 0%nat, b. split; [done|]. unfold decides in *. by rewrite seq_spec. }
  pose proof (wf_wf_keys _ W1) as K1. pose proof (wf_wf_keys _ W2) as K2.
  destruct c1 as [k1 l1|d1 l1|l1|f1 b1 n1|f1 b1|kt1 t1], c2 as [k2 l2|d2 l2|l2|f2 b2 n2|f2 b2|kt2 t2]; cbn [coll_equal]; try (by apply Hr);
    try (by apply Hst);
    try (by (edestruct Hst as (F & b & H); [| | |exists F, b; apply Hswap; exact H])); 
    try (by (edestruct Hls as (b & H1 & H2); [| |exists 0%nat, b; split; [intros; exact H1|exact H2]]));
    try (by (edestruct Hls as (b & H1 & H2); [| |exists 0%nat, b; apply Hswap; split; [intros; exact H1|exact H2]])).
  all: try (by (destruct k1; apply Hss; try done; cbn; auto)); try (by (destruct k2; apply Hss; try done; cbn; auto)); try (by (apply Hss; try done; cbn; auto)).
  - destruct k1, k2; try apply Hvv.
    exists (S (length l1)). destruct (strings_ok eqv l1 l2 (S (length l1)) Hchr W1 W2) as (b & Hb & Hd); [lia|]. exists b. split.
    + intros fuel Hf. destruct (strings_ok eqv l1 l2 fuel Hchr W1 W2) as (b' & Hb' & Hd'); [lia|]. rewrite Hb'. f_equal. apply Bool.eq_iff_eq_true. unfold decides in *. tauto.
    + unfold decides in *. by rewrite seq_spec.
  - destruct (Hls l2 (CVec k1 l1)) as (b & H1 & H2); [done..|]. exists 0%nat, b. apply Hswap. split; [|exact H2]. intros fuel _. destruct k1; exact H1.
  - destruct (Hst (CVec k1 l1) kt2 t2) as (F & b & H1 & H2); [done..|]. exists F, b. split; [|exact H2]. intros fuel Hf. specialize (H1 fuel Hf). destruct k1; exact H1.
  - exists 0%nat, (eq_list_list same eqv 0 l1 l2). split; [done|]. unfold decides. rewrite seq_spec by done. by apply list_list_ok.
  - cbn [odd_pair] in Ho. assert (kt2 = 0%nat) as -> by lia. edestruct Hlt as (b & H1 & H2); [|exists 0%nat, b; split; [intros; exact H1|exact H2]]. done.
  - cbn [odd_pair] in Ho. assert (kt1 = 0%nat) as -> by lia. edestruct Hlt as (b & H1 & H2); [|exists 0%nat, b; apply Hswap; split; [intros; exact H1|exact H2]]. done.
  - exists (S (length t1)). destruct (tables_ok eqv kt1 t1 kt2 t2 (S (length t1)) W1 W2) as (b & Hb & Hd); [lia|]. exists b. split; [|done].
    intros fuel Hf. destruct (tables_ok eqv kt1 t1 kt2 t2 fuel W1 W2) as (b' & Hb' & Hd'); [lia|]. rewrite Hb'. f_equal. apply Bool.eq_iff_eq_true. unfold decides in *. tauto.
Qed.
