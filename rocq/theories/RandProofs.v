(** Proofs about random numbers. *)
From Coq Require Import ZifyBool ZifyNat ZifyN Lia.
From Verif Require Import Base IntModel IntProofs NumStrModel NumStrSpec NumStrProofs RandModel RandSpec.
Local Open Scope Z_scope.
Local Open Scope outcome_scope.

(** *** The history as a window, oldest first *)
Definition wf (r : random) : Prop := length (recent r) = 54%nat /\ 0 <= recent_index r < 54.
Definition window (r : random) : list Z :=
  let k := S (Z.to_nat (recent_index r)) in drop k (recent r) ++ take k (recent r).

Lemma rotate_lookup (a : list Z) k j : length a = 54%nat -> (k <= 54)%nat -> (j < 54)%nat ->
  (drop k a ++ take k a) !! j = a !! ((j + k) mod 54)%nat.
Proof.
  intros Hl Hk Hj. destruct (decide (j < 54 - k)%nat) as [H|H].
  - rewrite lookup_app_l by (rewrite drop_length; lia). rewrite lookup_drop. f_equal. rewrite Nat.mod_small by lia. lia.
  - rewrite lookup_app_r by (rewrite drop_length; lia). rewrite drop_length, Hl.
    rewrite lookup_take by lia. f_equal.
    replace (j + k)%nat with (j - (54 - k) + 1 * 54)%nat by lia. rewrite Nat.mod_add by lia. rewrite Nat.mod_small by lia. done.
Qed.

(** The state stands at place [n] of the sequence. *)
Definition stands (r : random) (s : nat -> Z) (n : nat) : Prop :=
  wf r /\ forall i, (i < 54)%nat -> window r !! i = Some (s (n + i)%nat).

Definition feeds (s : nat -> Z) : Prop := forall n, s (n + 54)%nat = Z.lxor (s n) (Z.lxor (s (n + 46)%nat) (Z.lxor (s (n + 48)%nat) (s (n + 51)%nat))).

Lemma tap_spec r s n bit z : z = Z.of_nat bit -> stands r s n -> (1 <= bit <= 54)%nat ->
  recent_elt (recent r) (((recent_index r + 1) mod recent_size + (recent_size - z)) mod recent_size) = Val (s (n + (54 - bit))%nat).
Proof.
  intros ->. intros [[Hl Hi] Hw] Hb. unfold recent_elt, recent_size.
  pose proof (Z.mod_pos_bound ((recent_index r + 1) mod 54 + (54 - Z.of_nat bit)) 54 ltac:(lia)) as Hm.
  destruct (_ <? 0) eqn:E; [lia|].
  specialize (Hw (54 - bit)%nat ltac:(lia)). unfold window in Hw. rewrite rotate_lookup in Hw by lia.
  replace (Z.to_nat _) with ((54 - bit + S (Z.to_nat (recent_index r))) mod 54)%nat; [by rewrite Hw|].
  apply Nat2Z.inj. rewrite Z2Nat.id by lia. rewrite Nat2Z.inj_mod. rewrite Zplus_mod_idemp_l. f_equal. lia.
Qed.

Lemma next_place i k : (i < 53)%nat -> (k < 54)%nat ->
  ((i + S ((k + 1) mod 54)) mod 54 = (S i + S k) mod 54)%nat /\ ((i + S ((k + 1) mod 54)) mod 54 <> (k + 1) mod 54)%nat.
Proof.
  intros Hi Hk. assert (Hc : (k = 53 \/ k + 1 < 54)%nat) by lia. destruct Hc as [->|Hc].
  - replace ((53 + 1) mod 54)%nat with 0%nat by (vm_compute; reflexivity).
    replace (S i + 54)%nat with (S i + 1 * 54)%nat by lia. rewrite Nat.mod_add by lia. rewrite !Nat.mod_small by lia. lia.
  - rewrite (Nat.mod_small (k + 1)) by lia. split; [f_equal; lia|].
    destruct (decide (i + S (k + 1) < 54)%nat) as [H|H]; [rewrite Nat.mod_small by lia; lia|].
    replace (i + S (k + 1))%nat with (i + S (k + 1) - 54 + 1 * 54)%nat by lia. rewrite Nat.mod_add by lia.
    rewrite Nat.mod_small by lia. lia.
Qed.
Lemma last_place k : (k < 54)%nat -> ((53 + S k) mod 54 = k)%nat.
Proof.
  intros Hk. replace (53 + S k)%nat with (k + 1 * 54)%nat by lia. rewrite Nat.mod_add by lia. by rewrite Nat.mod_small by lia.
Qed.
Lemma next_index k : 0 <= k < 54 -> Z.to_nat ((k + 1) mod 54) = ((Z.to_nat k + 1) mod 54)%nat.
Proof.
  intros Hk. assert (Hc : k = 53 \/ k + 1 < 54) by lia. destruct Hc as [->|Hc]; [vm_compute; reflexivity|].
  rewrite Z.mod_small by lia. rewrite Nat.mod_small by lia. lia.
Qed.

(** Putting in a new value moves the window on. *)
Lemma advance r s n v : stands r s n -> v = s (n + 54)%nat ->
  stands (Random (<[Z.to_nat ((recent_index r + 1) mod 54) := v]> (recent r)) ((recent_index r + 1) mod 54)) s (S n).
Proof.
  intros [[Hl Hi] Hw] ->. pose proof (Z.mod_pos_bound (recent_index r + 1) 54 ltac:(lia)) as Hm.
  assert (Hk : (Z.to_nat (recent_index r) < 54)%nat) by (clear Hm; lia).
  pose proof (next_index _ Hi) as Hnext.
  assert (Hri : (Z.to_nat ((recent_index r + 1) mod 54) < 54)%nat) by (rewrite Hnext; apply Nat.mod_upper_bound; lia).
  split; [split; cbn [recent recent_index]; [by rewrite insert_length|done]|]. clear Hm.
  intros i Hi'. unfold window. cbn [recent recent_index].
  rewrite rotate_lookup; [|by rewrite insert_length|exact Hri|exact Hi'].
  rewrite Hnext in Hri |- *. clear Hnext Hi. unfold window in Hw.
  generalize dependent (Z.to_nat (recent_index r)). intros k Hw Hk Hri.
  destruct (decide (i = 53)%nat) as [->|Hne].
  - rewrite (last_place _ Hri), list_lookup_insert by (rewrite Hl; exact Hri). do 2 f_equal. lia.
  - assert (Hi53 : (i < 53)%nat) by (clear Hri; lia). destruct (next_place i k Hi53 Hk) as [H1 H2].
    rewrite list_lookup_insert_ne by (intros E; apply H2; by symmetry). rewrite H1.
    assert (HSi : (S i < 54)%nat) by (clear Hri; lia). specialize (Hw (S i) HSi).
    rewrite (rotate_lookup _ _ _ Hl Hk HSi) in Hw.
    replace (n + S i)%nat with (S n + i)%nat in Hw by lia. exact Hw.
Qed.

Lemma random_29_spec r s n : feeds s -> stands r s n ->
  exists r', random_29 r = Val (s (n + 54)%nat, r') /\ stands r' s (S n).
Proof.
  intros Hs Hst. unfold random_29. cbv zeta.
  rewrite (tap_spec r s n 54 54 eq_refl Hst ltac:(lia)). cbn [obind]. rewrite (tap_spec r s n 8 8 eq_refl Hst ltac:(lia)). cbn [obind].
  rewrite (tap_spec r s n 6 6 eq_refl Hst ltac:(lia)). cbn [obind]. rewrite (tap_spec r s n 3 3 eq_refl Hst ltac:(lia)). cbn [obind].
  assert (E : Z.lxor (Z.lxor (Z.lxor (s (n + (54 - 54))%nat) (s (n + (54 - 8))%nat)) (s (n + (54 - 6))%nat)) (s (n + (54 - 3))%nat) = s (n + 54)%nat).
  { rewrite Hs, !Z.lxor_assoc. cbn [Nat.sub]. by rewrite Nat.add_0_r. }
  rewrite E. eexists. split; [reflexivity|]. by apply advance.
Qed.

Lemma warm_up_spec s : feeds s -> forall k r n, stands r s n -> exists r', warm_up k r = Val r' /\ stands r' s (n + k)%nat.
Proof.
  intros Hs. induction k as [|k IH]; intros r n Hst; cbn [warm_up]; [exists r; by rewrite Nat.add_0_r|].
  destruct (random_29_spec r s n Hs Hst) as (r' & -> & Hst'). cbn [obind].
  destruct (IH r' (S n) Hst') as (r'' & E & H). exists r''. split; [done|]. by replace (n + S k)%nat with (S n + k)%nat by lia.
Qed.

(** *** The seed *)
Lemma lcg_spec x : 0 <= x < 2 ^ 40 -> lcg_rand x = Val ((171 * x + 11213) mod 53125).
Proof.
  intros Hx. unfold lcg_rand. rewrite int_result_ok by (unfold fits; lia). cbn [obind].
  rewrite int_result_ok by (unfold fits; lia). cbn [obind]. do 2 f_equal. lia.
Qed.
Lemma congruential_bound x0 k : 0 <= x0 < 2 ^ 40 -> 0 <= congruential x0 k < 2 ^ 40.
Proof. intros H. destruct k; [done|]. cbn [congruential]. pose proof (Z.mod_pos_bound (171 * congruential x0 k + 11213) 53125 ltac:(lia)). lia. Qed.

Definition seed_value (x0 : Z) (j : nat) : Z := congruential x0 (2 * j + 1) mod 32768 + 32768 * (congruential x0 (2 * j + 2) mod 16384).

Lemma seed_loop_spec x0 : 0 <= x0 < 2 ^ 40 -> forall n j a, length a = 54%nat -> (S j + n = 54)%nat ->
  (forall i, (i < j)%nat -> a !! S i = Some (seed_value x0 i)) ->
  exists a', seed_loop n (S j) (congruential x0 (2 * j)) a = Val a' /\ length a' = 54%nat /\ a' !! 0%nat = a !! 0%nat /\
    forall i, (i < 53)%nat -> a' !! S i = Some (seed_value x0 i).
Proof.
  intros Hx. induction n as [|n IH]; intros j a Hl Hn Ha; cbn [seed_loop].
  - exists a. split; [done|]. split; [done|]. split; [done|]. intros i Hi. apply Ha. lia.
  - rewrite lcg_spec by (by apply congruential_bound). cbn [obind].
    change ((171 * congruential x0 (2 * j) + 11213) mod 53125) with (congruential x0 (S (2 * j))).
    rewrite lcg_spec by (by apply congruential_bound). cbn [obind].
    change ((171 * congruential x0 (S (2 * j)) + 11213) mod 53125) with (congruential x0 (S (S (2 * j)))).
    pose proof (Z.mod_pos_bound (congruential x0 (S (2 * j))) 32768 ltac:(lia)).
    pose proof (Z.mod_pos_bound (congruential x0 (S (S (2 * j)))) 16384 ltac:(lia)).
    rewrite int_result_ok by (unfold fits; lia). cbn [obind].
    replace (S j + 1)%nat with (S (S j)) by lia. replace (S (S (2 * j))) with (2 * S j)%nat by lia.
    set (x := _ + _ * 32768). destruct (IH (S j) (<[S j := x]> a)) as (a' & E & Hl' & Hz0 & Hz1).
    + by rewrite insert_length.
    + lia.
    + intros i Hi. destruct (decide (i = j)) as [->|Hne].
      * rewrite list_lookup_insert by lia. f_equal. unfold x, seed_value.
        replace (2 * j + 1)%nat with (S (2 * j)) by lia. replace (2 * j + 2)%nat with (2 * S j)%nat by lia. lia.
      * rewrite list_lookup_insert_ne by lia. apply Ha. lia.
    + exists a'. split; [done|]. split; [done|]. split; [|done]. rewrite Hz0. by rewrite list_lookup_insert_ne by lia.
Qed.

(** *** The sequence exists *)
Definition step (w : list Z) : list Z :=
  tail w ++ [Z.lxor (nth 0 w 0) (Z.lxor (nth 46 w 0) (Z.lxor (nth 48 w 0) (nth 51 w 0)))].
Definition generated (w : list Z) (n : nat) : Z := nth 0 (Nat.iter n step w) 0.

Lemma iter_S w n : Nat.iter (S n) step w = step (Nat.iter n step w).
Proof. done. Qed.
Lemma iter_length w n : length w = 54%nat -> length (Nat.iter n step w) = 54%nat.
Proof.
  intros H. induction n as [|n IH]; [done|]. rewrite iter_S.
  destruct (Nat.iter n step w) as [|x l]; [done|]. unfold step. rewrite app_length. cbn in *. lia.
Qed.
Lemma generated_nth w n i : length w = 54%nat -> (i < 54)%nat -> nth i (Nat.iter n step w) 0 = generated w (n + i).
Proof.
  intros H. revert n. induction i as [|i IH]; intros n Hi; [by rewrite Nat.add_0_r|].
  replace (n + S i)%nat with (S n + i)%nat by lia. rewrite <- IH by lia. rewrite iter_S. pose proof (iter_length w n H) as Hl.
  destruct (Nat.iter n step w) as [|x l] eqn:E; [done|]. unfold step. cbn [tail nth]. cbn in Hl.
  rewrite app_nth1 by lia. done.
Qed.
Lemma generated_feeds w : length w = 54%nat -> feeds (generated w).
Proof.
  intros H n. replace (n + 54)%nat with (S n + 53)%nat by lia. rewrite <- generated_nth by lia.
  replace (generated w n) with (nth 0 (Nat.iter n step w) 0) by done.
  rewrite <- (generated_nth w n 46), <- (generated_nth w n 48), <- (generated_nth w n 51) by lia.
  rewrite iter_S. pose proof (iter_length w n H) as Hl.
  destruct (Nat.iter n step w) as [|x l]; [done|]. cbn in Hl. unfold step. cbn [tail]. rewrite app_nth2 by lia.
  replace (53 - length l)%nat with 0%nat by lia. done.
Qed.

Lemma make_random_spec seed : fits seed -> fits (Z.abs seed) ->
  exists s r, sequence_of seed s /\ make_random seed = Val r /\ stands r s 217.
Proof.
  intros Hf Ha. unfold make_random. rewrite (int_result_ok _ Ha). cbn [obind].
  set (x0 := Z.abs seed mod 32768). assert (Hx : 0 <= x0 < 2 ^ 40).
  { pose proof (Z.mod_pos_bound (Z.abs seed) 32768 ltac:(lia)). unfold x0. lia. }
  destruct (seed_loop_spec x0 Hx 53 0 (<[0%nat := max_integer]> (replicate 54 0))) as (a & E & Hl & H0 & H1).
  { done. } { lia. } { lia. }
  change (congruential x0 (2 * 0)) with x0 in E. rewrite E. cbn [obind].
  set (w := drop 1 a ++ take 1 a). assert (Hw : length w = 54%nat). { unfold w. rewrite app_length, drop_length, take_length. lia. }
  set (s := generated w). assert (Hs : feeds s) by (by apply generated_feeds).
  assert (Hst : stands (Random a 0) s 0).
  { split; [split; [done|cbn; lia]|]. intros i Hi. unfold s.
    rewrite <- (generated_nth w 0 i Hw Hi). change (Nat.iter 0 step w) with w. unfold window. cbn [recent recent_index]. change (S (Z.to_nat 0)) with 1%nat.
    fold w. destruct (lookup_lt_is_Some_2 w i ltac:(lia)) as [x Hx']. rewrite Hx'. f_equal. symmetry. by apply nth_lookup_Some. }
  destruct (warm_up_spec s Hs 217 _ _ Hst) as (r & -> & Hr). exists s, r. split; [|split; [done|by replace (0 + 217)%nat with 217%nat in Hr]].
  destruct Hst as [_ Hst]. assert (Hin : forall i, (i < 54)%nat -> a !! ((i + 1) mod 54)%nat = Some (s i)).
  { intros i Hi. specialize (Hst i Hi). unfold window in Hst. cbn [recent recent_index] in Hst. rewrite rotate_lookup in Hst; [done|done|lia|done]. }
  split.
  - intros j Hj. specialize (Hin j ltac:(lia)). rewrite Nat.mod_small in Hin by lia. replace (j + 1)%nat with (S j) in Hin by lia.
    rewrite H1 in Hin by lia. injection Hin as <-. done.
  - specialize (Hin 53%nat ltac:(lia)). change ((53 + 1) mod 54)%nat with 0%nat in Hin. rewrite H0 in Hin.
    rewrite list_lookup_insert in Hin by (rewrite replicate_length; lia).
    apply (inj Some) in Hin. rewrite <- Hin. apply max_integer_eq.
  - exact Hs.
Qed.

(** *** Bits *)
Definition high : Z := 2 ^ 61 - 2 ^ 29.
Definition part (lo : Z) (h : bool) : Z := Z.lxor lo (if h then high else 0).
Definition narrow (x : Z) (h : bool) : Prop := exists lo, 0 <= lo < 2 ^ 29 /\ x = part lo h.

Lemma lxor_small n a b : 0 <= n -> 0 <= a < 2 ^ n -> 0 <= b < 2 ^ n -> 0 <= Z.lxor a b < 2 ^ n.
Proof.
  intros Hn Ha Hb. split; [apply Z.lxor_nonneg; lia|].
  destruct (Z.eq_dec (Z.lxor a b) 0) as [->|Hne]; [lia|].
  assert (0 <= Z.lxor a b) by (apply Z.lxor_nonneg; lia).
  apply Z.log2_lt_pow2; [lia|]. pose proof (Z.log2_lxor a b ltac:(lia) ltac:(lia)) as Hl.
  assert (Hlog : forall x, 0 <= x < 2 ^ n -> Z.log2 x < n \/ x = 0).
  { intros x Hx. destruct (Z.eq_dec x 0); [tauto|]. left. apply Z.log2_lt_pow2; lia. }
  destruct (Z.eq_dec n 0) as [->|Hn0]; [change (2 ^ 0) with 1 in *; assert (a = 0) as -> by lia; assert (b = 0) as -> by lia; done|].
  destruct (Hlog a Ha) as [?| ->], (Hlog b Hb) as [?| ->]; change (Z.log2 0) with 0 in *; lia.
Qed.

Lemma narrow_xor x y h k : narrow x h -> narrow y k -> narrow (Z.lxor x y) (xorb h k).
Proof.
  intros (a & Ha & ->) (b & Hb & ->). exists (Z.lxor a b). split; [apply lxor_small; lia|]. unfold part.
  rewrite Z.lxor_assoc, <- (Z.lxor_assoc (if h then high else 0) b), (Z.lxor_comm (if h then high else 0) b), (Z.lxor_assoc b), <- Z.lxor_assoc.
  f_equal. destruct h, k; cbn [xorb]; rewrite ?Z.lxor_nilpotent, ?Z.lxor_0_l, ?Z.lxor_0_r; done.
Qed.

Lemma part_add lo : 0 <= lo < 2 ^ 29 -> Z.lxor lo high = lo + high.
Proof.
  intros H. symmetry. apply Z.add_nocarry_lxor. change high with (Z.shiftl (2 ^ 32 - 1) 29).
  apply Z.bits_inj'. intros i Hi. rewrite Z.land_spec, Z.bits_0.
  destruct (Z.lt_ge_cases i 29).
  - rewrite Z.shiftl_spec_low by lia. by rewrite andb_false_r.
  - destruct (Z.eq_dec lo 0) as [->|]; [by rewrite Z.bits_0|].
    rewrite Z.bits_above_log2; [done|lia|]. assert (Z.log2 lo < 29) by (apply Z.log2_lt_pow2; lia). lia.
Qed.

Lemma narrow_range x h : narrow x h -> if h then high <= x < 2 ^ 61 else 0 <= x < 2 ^ 29.
Proof.
  intros (lo & Hlo & ->). unfold part. destruct h.
  - rewrite part_add by done. unfold high. lia.
  - by rewrite Z.lxor_0_r.
Qed.
Lemma narrow_low x : 0 <= x < 2 ^ 29 -> narrow x false.
Proof. intros H. exists x. split; [done|]. unfold part. by rewrite Z.lxor_0_r. Qed.
Lemma narrow_ones : narrow (2 ^ 61 - 1) true.
Proof. exists (2 ^ 29 - 1). split; [lia|]. unfold part. rewrite part_add by lia. unfold high. lia. Qed.

Lemma sequence_narrow seed s : sequence_of seed s -> forall n, exists h, narrow (s n) h.
Proof.
  intros [H1 H2 H3] n. induction n as [n IH] using lt_wf_ind.
  destruct (decide (n < 53)%nat) as [Hn|Hn].
  - exists false. apply narrow_low. rewrite H1 by done. set (x := congruential _ _). set (y := congruential _ (2 * n + 2)).
    pose proof (Z.mod_pos_bound x 32768 ltac:(lia)). pose proof (Z.mod_pos_bound y 16384 ltac:(lia)). lia.
  - destruct (decide (n = 53)%nat) as [->|Hne]; [exists true; rewrite H2; apply narrow_ones|].
    replace n with (n - 54 + 54)%nat by lia. rewrite H3.
    destruct (IH (n - 54)%nat) as (? & ?); [lia|]. destruct (IH (n - 54 + 46)%nat) as (? & ?); [lia|].
    destruct (IH (n - 54 + 48)%nat) as (? & ?); [lia|]. destruct (IH (n - 54 + 51)%nat) as (? & ?); [lia|].
    eexists. repeat apply narrow_xor; done.
Qed.

(** Any 55 values contain a small one. *)
Lemma small_value seed s n : sequence_of seed s -> exists d, (d <= 54)%nat /\ 0 <= s (n + d)%nat < 2 ^ 29.
Proof.
  intros Hs. pose proof (sequence_narrow seed s Hs) as Hn.
  destruct (decide (Forall (fun d => 2 ^ 29 <= s (n + d)%nat) (seq 0 54))) as [Hall|Hno].
  - exists 54%nat. split; [lia|]. rewrite (seq_next _ _ Hs). rewrite Forall_forall in Hall.
    assert (Ht : forall d, (d < 54)%nat -> narrow (s (n + d)%nat) true).
    { intros d Hd. destruct (Hn (n + d)%nat) as ([] & Hh); [done|]. apply narrow_range in Hh.
      assert (Hd54 : d ∈ seq 0 54) by (apply elem_of_list_In, in_seq; lia). specialize (Hall d Hd54). lia. }
    pose proof (Ht 0%nat ltac:(lia)) as T0. rewrite Nat.add_0_r in T0.
    apply (narrow_range _ (xorb true (xorb true (xorb true true)))).
    repeat apply narrow_xor; [done|apply Ht; lia..].
  - apply not_Forall_Exists in Hno; [|apply _]. apply Exists_exists in Hno as (d & Hd & Hlt).
    apply elem_of_list_In, in_seq in Hd. exists d. split; [lia|]. destruct (Hn (n + d)%nat) as (h & Hh). apply narrow_range in Hh.
    unfold compose in Hlt. destruct h; [unfold high in Hh; lia|lia].
Qed.

(** *** Calls *)
Lemma find_good_spec s limit : feeds s -> forall d fuel r n, stands r s n ->
  (forall i, (i < d)%nat -> limit < s (n + 54 + i)%nat) -> s (n + 54 + d)%nat <= limit -> (d < fuel)%nat ->
  exists r', find_good_value fuel limit r = Val (s (n + 54 + d)%nat, r') /\ stands r' s (n + d + 1).
Proof.
  intros Hs. induction d as [|d IH]; intros fuel r n Hst Hbad Hgood Hf; (destruct fuel as [|fuel]; [lia|]); cbn [find_good_value];
    destruct (random_29_spec r s n Hs Hst) as (r' & -> & Hst'); cbn [obind].
  - rewrite Nat.add_0_r in Hgood. assert (s (n + 54)%nat <=? limit = true) as -> by lia. exists r'. rewrite !Nat.add_0_r. split; [done|].
    by replace (n + 1)%nat with (S n) by lia.
  - pose proof (Hbad 0%nat ltac:(lia)) as H0. rewrite Nat.add_0_r in H0. assert (s (n + 54)%nat <=? limit = false) as -> by lia.
    destruct (IH fuel r' (S n) Hst') as (r'' & E & H).
    + intros i Hi. replace (S n + 54 + i)%nat with (n + 54 + S i)%nat by lia. apply Hbad. lia.
    + replace (S n + 54 + d)%nat with (n + 54 + S d)%nat by lia. done.
    + lia.
    + exists r''. replace (n + 54 + S d)%nat with (S n + 54 + d)%nat by lia. split; [done|].
      by replace (n + S d + 1)%nat with (S n + d + 1)%nat by lia.
Qed.

Lemma first_below (P : nat -> Prop) (dec : forall n, Decision (P n)) : forall d, P d -> exists e, (e <= d)%nat /\ P e /\ forall i, (i < e)%nat -> ~ P i.
Proof.
  intros d. induction d as [d IH] using lt_wf_ind. intros Hd.
  destruct (decide (Exists P (seq 0 d))) as [He|Hne].
  - apply Exists_exists in He as (i & Hi & HP). apply elem_of_list_In, in_seq in Hi.
    destruct (IH i ltac:(lia) HP) as (e & Hle & HPe & Hmin). exists e. split; [lia|done].
  - exists d. split; [lia|]. split; [done|]. intros i Hi HP. apply Hne. apply Exists_exists. exists i. split; [|done].
    apply elem_of_list_In, in_seq. lia.
Qed.

Lemma limit_spec range : 1 <= range < 2 ^ 61 ->
  max_integer - (max_integer - range + 1) mod range = largest_multiple range - 1 /\ 2 ^ 29 <= largest_multiple range.
Proof.
  intros Hr. rewrite max_integer_eq. unfold largest_multiple.
  replace (2 ^ 61 - 1 - range + 1) with (2 ^ 61 + (-1) * range) by lia. rewrite Z.mod_add by lia.
  pose proof (Z.div_mod (2 ^ 61) range ltac:(lia)) as E. pose proof (Z.mod_pos_bound (2 ^ 61) range ltac:(lia)) as Hm.
  assert (1 <= 2 ^ 61 / range). { apply Z.div_le_lower_bound; lia. }
  split; [lia|]. nia.
Qed.

Lemma random_below_spec seed s r n range : sequence_of seed s -> stands r s n -> 1 <= range < 2 ^ 61 ->
  exists m r', (n + 54 <= m)%nat /\ (m <= n + 108)%nat /\ (forall i, (n + 54 <= i < m)%nat -> largest_multiple range <= s i) /\ s m < largest_multiple range /\
    random_below range r = Val (s m mod range, r') /\ stands r' s (m - 53).
Proof.
  intros Hs Hst Hr. unfold random_below.
  rewrite int_result_ok by (rewrite max_integer_eq; unfold fits; lia). cbn [obind].
  rewrite int_result_ok by (rewrite max_integer_eq; unfold fits; lia). cbn [obind]. cbv zeta.
  destruct (limit_spec range Hr) as [-> Hlim].
  destruct (small_value seed s (n + 54) Hs) as (d0 & Hd0 & Hsm).
  assert (Hok : s (n + 54 + d0)%nat < largest_multiple range) by lia.
  destruct (first_below (fun d => s (n + 54 + d)%nat < largest_multiple range) _ d0 Hok) as (d & Hd & Hgood & Hbad).
  destruct (find_good_spec s (largest_multiple range - 1) (seq_next _ _ Hs) d 100 r n Hst) as (r' & -> & Hst').
  - intros i Hi. specialize (Hbad i Hi). lia.
  - lia.
  - lia.
  - cbn [obind]. exists (n + 54 + d)%nat, r'. split; [lia|]. split; [lia|]. split.
    + intros i Hi. specialize (Hbad (i - (n + 54))%nat ltac:(lia)). replace (n + 54 + (i - (n + 54)))%nat with i in Hbad by lia. lia.
    + split; [done|]. split; [done|]. by replace (n + 54 + d - 53)%nat with (n + d + 1)%nat by lia.
Qed.

Lemma random_calls_spec seed s : sequence_of seed s -> forall ranges r n, stands r s n ->
  Forall (fun range => 1 <= range < 2 ^ 61) ranges ->
  exists outs, random_calls ranges r = Val outs /\ draws s (n + 54) ranges outs.
Proof.
  intros Hs. induction ranges as [|range ranges IH]; intros r n Hst HF; cbn [random_calls].
  - exists []. split; [done|constructor].
  - apply Forall_cons in HF as [Hr HF].
    destruct (random_below_spec seed s r n range Hs Hst Hr) as (m & r' & Hm & _ & Hbad & Hgood & -> & Hst'). cbn [obind].
    destruct (IH r' (m - 53)%nat Hst' HF) as (outs & -> & Hd). cbn [obind]. eexists. split; [done|].
    econstructor; [exact Hm|done|done|]. by replace (S m) with (m - 53 + 54)%nat by lia.
Qed.

(** Every window has every bit set somewhere. *)
Lemma bit_alive seed s b : sequence_of seed s -> 0 <= b < 61 -> forall n, exists d, (d < 54)%nat /\ Z.testbit (s (n + d)%nat) b = true.
Proof.
  intros Hs Hb. induction n as [|n (d & Hd & IH)].
  - exists 53%nat. split; [lia|]. cbn [Nat.add]. rewrite (seq_ones _ _ Hs). change (2 ^ 61 - 1) with (Z.ones 61).
    apply Z.ones_spec_low. lia.
  - destruct (decide (Exists (fun d => Z.testbit (s (S n + d)%nat) b = true) (seq 0 54))) as [He|Hne].
    + apply Exists_exists in He as (e & He & HP). apply elem_of_list_In, in_seq in He. exists e. split; [lia|done].
    + exfalso. assert (Hz : forall e, (e < 54)%nat -> Z.testbit (s (S n + e)%nat) b = false).
      { intros e He. apply not_true_is_false. intros HP. apply Hne, Exists_exists. exists e. split; [|done].
        apply elem_of_list_In, in_seq. lia. }
      destruct d as [|d].
      * rewrite Nat.add_0_r in IH. pose proof (Hz 53%nat ltac:(lia)) as H53. replace (S n + 53)%nat with (n + 54)%nat in H53 by lia.
        rewrite (seq_next _ _ Hs), !Z.lxor_spec, IH in H53.
        pose proof (Hz 45%nat ltac:(lia)) as A. replace (S n + 45)%nat with (n + 46)%nat in A by lia. rewrite A in H53. clear A.
        pose proof (Hz 47%nat ltac:(lia)) as A. replace (S n + 47)%nat with (n + 48)%nat in A by lia. rewrite A in H53. clear A.
        pose proof (Hz 50%nat ltac:(lia)) as A. replace (S n + 50)%nat with (n + 51)%nat in A by lia. rewrite A in H53. done.
      * specialize (Hz d ltac:(lia)). replace (S n + d)%nat with (n + S d)%nat in Hz by lia. congruence.
Qed.

(** And clear somewhere among any 55. *)
Lemma bit_clear seed s b n : sequence_of seed s -> 0 <= b -> exists d, (d <= 54)%nat /\ Z.testbit (s (n + d)%nat) b = false.
Proof.
  intros Hs Hb.
  destruct (decide (Exists (fun d => Z.testbit (s (n + d)%nat) b = false) (seq 0 54))) as [He|Hne].
  - apply Exists_exists in He as (e & He & HP). apply elem_of_list_In, in_seq in He. exists e. split; [lia|done].
  - assert (Hz : forall e, (e < 54)%nat -> Z.testbit (s (n + e)%nat) b = true).
    { intros e He. apply not_false_is_true. intros HP. apply Hne, Exists_exists. exists e. split; [|done].
      apply elem_of_list_In, in_seq. lia. }
    exists 54%nat. split; [lia|]. rewrite (seq_next _ _ Hs), !Z.lxor_spec.
    pose proof (Hz 0%nat ltac:(lia)) as A. rewrite Nat.add_0_r in A. rewrite A, !Hz by lia. done.
Qed.

Lemma make_random_fits seed r : make_random seed = Val r -> fits (Z.abs seed).
Proof.
  unfold make_random. destruct (decide (fits (Z.abs seed))) as [|H]; [done|]. by rewrite int_result_bad.
Qed.

Lemma random_bad_range range r : fits range -> range <= 0 -> exists msg, random_below range r = Signal msg.
Proof.
  intros Hf Hr. unfold random_below, fits in *. destruct (decide (range = 0)) as [->|Hne].
  - rewrite int_result_ok by (rewrite max_integer_eq; unfold fits; lia). cbn [obind].
    rewrite int_result_bad by (rewrite max_integer_eq; unfold fits; lia). by eexists.
  - rewrite int_result_bad by (rewrite max_integer_eq; unfold fits; lia). by eexists.
Qed.

Lemma fair range v : 1 <= range < 2 ^ 61 -> 0 <= v < range ->
  2 ^ 61 - range < largest_multiple range <= 2 ^ 61 /\
  forall x, 0 <= x < largest_multiple range /\ x mod range = v <-> exists k, 0 <= k < 2 ^ 61 / range /\ x = k * range + v.
Proof.
  intros Hr Hv. unfold largest_multiple.
  pose proof (Z.div_mod (2 ^ 61) range ltac:(lia)) as E. pose proof (Z.mod_pos_bound (2 ^ 61) range ltac:(lia)) as Hm.
  split; [lia|]. intros x. split.
  - intros [Hx Hmod]. exists (x / range). pose proof (Z.div_mod x range ltac:(lia)) as Ex.
    split; [|lia]. split; [apply Z.div_pos; lia|]. apply Z.div_lt_upper_bound; lia.
  - intros (k & Hk & ->). split; [nia|]. rewrite Z.add_comm, Z.mod_add by lia. apply Z.mod_small. lia.
Qed.

(** The calls of a program one after the other. *)
Lemma draws_app s : forall l1 l2 n outs, draws s n (l1 ++ l2) outs ->
  exists outs1 outs2 m, outs = outs1 ++ outs2 /\ length outs1 = length l1 /\ (n <= m)%nat /\ draws s m l2 outs2.
Proof.
  induction l1 as [|x l1 IH]; intros l2 n outs H; [exists [], outs, n; cbn; done|].
  cbn [app] in H. inversion H as [|? m ? ? outs' Hle _ _ Hd]; subst.
  destruct (IH l2 _ _ Hd) as (o1 & o2 & m' & -> & Hlen & Hle' & Hd'). exists (s m mod x :: o1), o2, m'.
  split; [done|]. split; [cbn; lia|]. split; [lia|done].
Qed.

Lemma draws_coin seed s : sequence_of seed s -> forall k n outs, draws s n (replicate k 2) outs ->
  forall i, (i < k)%nat -> In (s (n + i)%nat mod 2) outs.
Proof.
  intros Hs. induction k as [|k IH]; intros n outs H i Hi; [lia|].
  cbn [replicate] in H. inversion H as [|? m ? ? outs' Hle Hbad _ Hd]; subst.
  assert (m = n) as ->.
  { destruct (decide (m = n)) as [|Hne]; [done|]. specialize (Hbad n ltac:(lia)).
    destruct (sequence_narrow seed s Hs n) as (h & Hh). apply narrow_range in Hh.
    change (largest_multiple 2) with (2 ^ 61) in Hbad. destruct h; lia. }
  destruct i as [|i]; [left; by rewrite Nat.add_0_r|]. right. replace (n + S i)%nat with (S n + i)%nat by lia. apply IH; [done|lia].
Qed.

Lemma odd_mod x : x mod 2 = if Z.testbit x 0 then 1 else 0.
Proof. rewrite Z.bit0_odd, Zmod_odd. done. Qed.

Lemma coin seed r ranges outs : fits seed -> make_random seed = Val r ->
  Forall (fun range => 1 <= range < 2 ^ 61) ranges -> random_calls (ranges ++ replicate 55 2) r = Val outs ->
  In 0 (drop (length ranges) outs) /\ In 1 (drop (length ranges) outs).
Proof.
  intros Hf Hm HF Ho. pose proof (make_random_fits _ _ Hm) as Ha.
  destruct (make_random_spec seed Hf Ha) as (s & r' & Hs & Hm' & Hst). rewrite Hm in Hm'. injection Hm' as <-.
  destruct (random_calls_spec seed s Hs (ranges ++ replicate 55 2) r 217 Hst) as (outs' & Ho' & Hd).
  { rewrite Forall_app. split; [done|]. apply Forall_replicate. lia. }
  rewrite Ho in Ho'. injection Ho' as <-.
  destruct (draws_app _ _ _ _ _ Hd) as (o1 & o2 & m & -> & Hlen & _ & Hd2). rewrite <- Hlen, drop_app.
  pose proof (draws_coin seed s Hs 55 m o2 Hd2) as Hin. split.
  - destruct (bit_clear seed s 0 m Hs ltac:(lia)) as (d & Hle & Hb). specialize (Hin d ltac:(lia)). by rewrite odd_mod, Hb in Hin.
  - destruct (bit_alive seed s 0 Hs ltac:(lia) m) as (d & Hle & Hb). specialize (Hin d ltac:(lia)). by rewrite odd_mod, Hb in Hin.
Qed.

Lemma gap seed r ranges outs v : fits seed -> make_random seed = Val r -> Forall (fun range => 1 <= range < 2 ^ 61) ranges ->
  random_calls (ranges ++ [2 ^ 40]) r = Val (outs ++ [v]) -> v < 2 ^ 29 \/ 2 ^ 40 - 2 ^ 29 <= v.
Proof.
  intros Hf Hm HF Ho. pose proof (make_random_fits _ _ Hm) as Ha.
  destruct (make_random_spec seed Hf Ha) as (s & r' & Hs & Hm' & Hst). rewrite Hm in Hm'. injection Hm' as <-.
  destruct (random_calls_spec seed s Hs (ranges ++ [2 ^ 40]) r 217 Hst) as (outs' & Ho' & Hd).
  { rewrite Forall_app. split; [done|]. constructor; [lia|constructor]. }
  rewrite Ho in Ho'. injection Ho' as <-.
  destruct (draws_app _ _ _ _ _ Hd) as (o1 & o2 & m & E & Hlen & _ & Hd2).
  inversion Hd2 as [|? k ? ? o3 _ _ _ Hd3]; subst. inversion Hd3; subst.
  apply app_inj_tail in E as [_ ->]. destruct (sequence_narrow seed s Hs k) as (h & Hh). apply narrow_range in Hh. destruct h.
  - right. unfold high in Hh. replace (s k) with (s k - (2 ^ 61 - 2 ^ 40) + (2 ^ 21 - 1) * 2 ^ 40) by lia.
    rewrite Z.mod_add, Z.mod_small by lia. lia.
  - left. rewrite Z.mod_small by lia. lia.
Qed.
