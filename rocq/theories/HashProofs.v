(** Proofs about hashing and the interning of symbols. *)
From Verif Require Import Base IntModel IntSpec IntProofs IntBitsProofs TableModel TableSpec TableProbe TableVec TableOps TableProofs HashModel HashSpec.
From Coq Require Import ZifyBool ZifyNat.
Open Scope Z_scope.

(** ** Hash codes are <integer>s *)
Lemma hash_index_ok w : inw w -> exists h, machine_word_as_hash_index w = Val h /\ representable h.
Proof.
  intros Hw. unfold machine_word_as_hash_index, machine_word_is_integer.
  rewrite ashr_val by lia. cbn [obind].
  destruct (bool_decide (w / 2 ^ (64 - 2 - 1) = 0) || bool_decide (w / 2 ^ (64 - 2 - 1) = -1)) eqn:E.
  - assert (Hr : representable w).
    { unfold representable. change (2 ^ (64 - 2 - 1)) with (2 ^ 61) in E. rewrite p61 in *.
      pose proof (Z.div_mod w 2305843009213693952 ltac:(lia)).
      pose proof (Z.mod_pos_bound w 2305843009213693952 ltac:(lia)).
      apply orb_true_iff in E. rewrite !bool_decide_eq_true in E. lia. }
    exists w. split; [|done]. rewrite (coerce_to_integer_spec w Hw). by apply exact_ok.
  - exists (untag (force_tag w)). split; [done|]. rewrite (untag_force w Hw).
    pose proof (untag_representable w Hw) as H. exact H.
Qed.

Lemma merge_ok id1 id2 o : representable id1 -> representable id2 ->
  exists h, merge_hash_ids id1 id2 o = Val h /\ representable h.
Proof.
  intros H1 H2. unfold merge_hash_ids.
  assert (exists i, (if o then do w <- coerce_to_word id1 ; do r <- rotate_left w 5 ;
      machine_word_as_hash_index r else Val id1)%outcome = Val i /\ representable i) as (i & -> & Hi).
  { destruct o; [|eauto]. rewrite coerce_to_word_spec. cbn [obind]. unfold rotate_left.
    destruct (lshr_ok id1 (64 - 5) ltac:(lia)) as (lo & -> & _ & _). cbn [obind]. rewrite shl_val by lia. cbn [obind].
    apply hash_index_ok. apply wrap_range. }
  cbn [obind]. eexists. split; [reflexivity|].
  unfold int_logxor. rewrite untag_force.
  - apply untag_representable. apply inw_lxor; by apply tag_inw.
  - apply inw_lxor; by apply tag_inw.
Qed.

Lemma small_representable x : 0 <= x < 1099511627776 -> representable x.
Proof. unfold representable. rewrite p61. lia. Qed.

Lemma hash_step_ok h c : 0 <= h < 970747 -> 0 <= c < 2000000 ->
  exists h', hash_step h c = Val h' /\ 0 <= h' < 970747.
Proof.
  intros Hh Hc. unfold hash_step.
  rewrite int_ash_spec; [|apply small_representable; lia|rewrite p61; lia].
  rewrite bool_decide_eq_false_2 by lia. change (2 ^ 6) with 64.
  rewrite exact_ok by (apply small_representable; lia). cbn [obind].
  rewrite int_add_spec by (apply small_representable; lia).
  rewrite exact_ok by (apply small_representable; lia). cbn [obind].
  rewrite int_modulo_spec by first [apply small_representable; lia|lia].
  eexists. split; [reflexivity|]. apply Z.mod_pos_bound. lia.
Qed.

Lemma string_hash_loop_ok s : forall h, 0 <= h < 970747 -> Forall is_code s ->
  exists h', string_hash_loop s h = Val h' /\ 0 <= h' < 970747.
Proof.
  induction s as [|c s IH]; intros h Hh Hs; [by exists h|]. inversion Hs as [|? ? Hc Hs']; subst.
  unfold is_code in Hc. cbn [string_hash_loop].
  destruct (hash_step_ok h c Hh ltac:(lia)) as (h1 & -> & H1). cbn [obind]. by apply IH.
Qed.

Lemma next_hash_ok s h i : Forall is_code s -> representable h -> 0 <= i < Z.of_nat (length s) ->
  exists h', next_hash s h i = Val h' /\ representable h'.
Proof.
  intros Hs Hh Hi. unfold next_hash.
  destruct (lookup_lt_is_Some_2 s (Z.to_nat i)) as [c Hc]; [lia|].
  rewrite (zread_val _ _ c) by (done || lia). cbn [obind].
  pose proof (Forall_lookup_1 _ _ _ _ Hs Hc) as Hcc. unfold is_code in Hcc.
  rewrite int_add_spec by (apply small_representable; lia).
  rewrite exact_ok by (apply small_representable; lia). cbn [obind].
  apply merge_ok; [done|]. apply small_representable; lia.
Qed.

Lemma string_hash_ok s : Forall is_code s -> representable (Z.of_nat (length s)) ->
  exists h, string_hash s = Val h /\ representable h.
Proof.
  intros Hs Hl. unfold string_hash. destruct (decide (Z.of_nat (length s) <= 30)) as [Hd|Hd].
  - rewrite bool_decide_eq_true_2 by done.
    destruct (string_hash_loop_ok s (Z.of_nat (length s)) ltac:(lia) Hs) as (h & -> & Hh).
    exists h. split; [done|]. apply small_representable. lia.
  - rewrite bool_decide_eq_false_2 by done.
    destruct (next_hash_ok s (Z.of_nat (length s)) 0 Hs Hl ltac:(lia)) as (h1 & -> & H1). cbn [obind].
    rewrite int_ash_m1 by done. cbn [obind].
    pose proof (Z.div_mod (Z.of_nat (length s)) 2 ltac:(lia)).
    pose proof (Z.mod_pos_bound (Z.of_nat (length s)) 2 ltac:(lia)).
    destruct (next_hash_ok s h1 (Z.of_nat (length s) / 2) Hs H1 ltac:(lia)) as (h2 & -> & H2). cbn [obind].
    assert (representable (Z.of_nat (length s) - 1)).
    { unfold representable in *. lia. }
    rewrite int_sub_spec by first [done|apply small_representable; lia].
    rewrite exact_ok by done. cbn [obind].
    apply next_hash_ok; [done|done|lia].
Qed.

Lemma land_low c : 0 <= int_logand c 159 < 256.
Proof.
  rewrite int_logand_spec. split; [apply Z.land_nonneg; right; lia|].
  rewrite Z.land_comm.
  assert (Z.land 159 c = Z.land 159 (c mod 2 ^ 8)) as ->.
  { rewrite <- Z.land_ones by lia. rewrite Z.land_assoc. rewrite (Z.land_comm 159 c), <- Z.land_assoc.
    change (Z.land 159 (Z.ones 8)) with 159. f_equal. }
  pose proof (Z.mod_pos_bound c (2 ^ 8) ltac:(lia)) as Hm. change (2 ^ 8) with 256 in *.
  assert (Z.land 159 (c mod 256) = Z.land 159 (c mod 256) mod 2 ^ 8) as ->.
  { rewrite <- Z.land_ones by lia. rewrite <- Z.land_assoc, (Z.land_comm (c mod 256)), Z.land_assoc.
    by change (Z.land 159 (Z.ones 8)) with 159. }
  apply Z.mod_pos_bound. lia.
Qed.

(** ** Case-insensitive hashing of a range *)
Fixpoint steps (l : list Z) (h : Z) : outcome Z :=
  match l with [] => Val h | c :: l => (do h <- hash_step h c ; steps l h)%outcome end.

Definition slice (l : list Z) (s e : Z) : list Z := take (Z.to_nat (e - s)) (drop (Z.to_nat s) l).

Lemma ci_hash_loop_steps str n : forall i h, 0 <= i -> i + Z.of_nat n <= Z.of_nat (length str) ->
  ci_hash_loop str n i h =
  steps (map (fun c => int_logand c 159) (take n (drop (Z.to_nat i) str))) h.
Proof.
  induction n as [|n IH]; intros i h Hi Hn; [done|]. cbn [ci_hash_loop].
  destruct (lookup_lt_is_Some_2 str (Z.to_nat i)) as [c Hc]; [lia|].
  rewrite (zread_val _ _ c) by (done || lia). cbn [obind].
  rewrite (drop_S _ _ _ Hc). cbn [take map steps].
  destruct (hash_step h (int_logand c 159)) as [h'| | |]; cbn [obind]; try done.
  rewrite IH by lia. by replace (Z.to_nat (i + 1)) with (S (Z.to_nat i)) by lia.
Qed.

Lemma ci_string_hash_2_steps str s e : 0 <= s <= e -> e <= Z.of_nat (length str) ->
  ci_string_hash_2 str s e = steps (map (fun c => int_logand c 159) (slice str s e)) 0.
Proof. intros H1 H2. unfold ci_string_hash_2, slice. apply ci_hash_loop_steps; lia. Qed.

Lemma ci_string_hash_steps str :
  ci_string_hash str = steps (map (fun c => int_logand c 159) str) 0.
Proof.
  unfold ci_string_hash. rewrite ci_string_hash_2_steps by lia. unfold slice. cbn [Z.to_nat drop].
  rewrite Z.sub_0_r, Nat2Z.id, firstn_all. done.
Qed.

Lemma steps_ok l : forall h, 0 <= h < 970747 -> Forall (fun c => 0 <= c < 256) l ->
  exists h', steps l h = Val h' /\ 0 <= h' < 970747.
Proof.
  induction l as [|c l IH]; intros h Hh Hl; [by exists h|]. inversion Hl as [|? ? Hc Hl']; subst.
  cbn [steps]. destruct (hash_step_ok h c Hh ltac:(lia)) as (h1 & -> & H1). cbn [obind]. by apply IH.
Qed.

Lemma ci_hash_ok str s e : 0 <= s <= e -> e <= Z.of_nat (length str) ->
  exists h, ci_string_hash_2 str s e = Val h /\ 0 <= h < 970747.
Proof.
  intros H1 H2. rewrite ci_string_hash_2_steps by done. apply steps_ok; [lia|].
  apply Forall_map, Forall_true. intros x. apply land_low.
Qed.

Lemma fold_land c : Z.land (fold_letter c) 159 = Z.land c 159.
Proof.
  unfold fold_letter. destruct ((65 <=? c) && (c <=? 90)) eqn:E; [|done].
  assert (exists n, (n < 26)%nat /\ c = 65 + Z.of_nat n) as (n & Hn & ->).
  { exists (Z.to_nat (c - 65)). lia. }
  do 26 (destruct n as [|n]; [reflexivity|]). lia.
Qed.

Lemma masked_fold s : map (fun c => int_logand c 159) s =
  map (fun c => int_logand c 159) (map fold_letter s).
Proof.
  rewrite map_map. apply map_ext. intros c. rewrite !int_logand_spec. by rewrite fold_land.
Qed.

(** ** String tests *)
Lemma as_lowercase_fold c : as_lowercase c = fold_letter c.
Proof. unfold as_lowercase, is_uppercase, fold_letter. done. Qed.

Lemma same_letter_true c1 c2 : same_letter c1 c2 = true <-> fold_letter c1 = fold_letter c2.
Proof.
  unfold same_letter. rewrite !as_lowercase_fold, orb_true_iff, !Z.eqb_eq. split; [|by right].
  intros [->|H]; done.
Qed.

Lemma equal_loop_false same s1 s2 : equal_loop same s1 s2 false = false.
Proof. by destruct s1, s2. Qed.

Lemma equal_loop_true same (f : Z -> Z) : (forall a b, same a b = true <-> f a = f b) ->
  forall s1 s2, length s1 = length s2 ->
  equal_loop same s1 s2 true = true <-> map f s1 = map f s2.
Proof.
  intros Hf. induction s1 as [|c1 s1 IH]; intros [|c2 s2] Hl; try done.
  cbn [equal_loop map]. destruct (same c1 c2) eqn:E.
  - rewrite IH by (cbn in Hl; lia). apply Hf in E. rewrite E. split; [by intros ->|by intros [= ->]].
  - rewrite equal_loop_false. split; [done|]. intros [= H _]. apply Hf in H. congruence.
Qed.

Lemma string_equal_true s1 s2 : string_equal s1 s2 = true <-> s1 = s2.
Proof.
  unfold string_equal. destruct (decide (length s1 = length s2)) as [Hl|Hl].
  - rewrite bool_decide_eq_false_2 by (by intros ?).
    rewrite (equal_loop_true Z.eqb id Z.eqb_eq s1 s2 Hl), !map_id. done.
  - rewrite bool_decide_eq_true_2 by done. split; [done|]. by intros ->.
Qed.

Lemma case_insensitive_equal_true s1 s2 :
  case_insensitive_equal s1 s2 = true <-> same_folded s1 s2.
Proof.
  unfold case_insensitive_equal, same_folded. destruct (decide (length s1 = length s2)) as [Hl|Hl].
  - rewrite bool_decide_eq_false_2 by (by intros ?).
    apply (equal_loop_true same_letter fold_letter same_letter_true s1 s2 Hl).
  - rewrite bool_decide_eq_true_2 by done. split; [done|]. intros H.
    apply (f_equal length) in H. by rewrite !map_length in H.
Qed.

Lemma ci_equal_loop_ok s1 s2 s n : forall i, s <= i -> 0 <= s ->
  i - s + Z.of_nat n = Z.of_nat (length s1) -> i + Z.of_nat n <= Z.of_nat (length s2) ->
  exists b, ci_equal_loop s1 s2 s n i = Val b /\
    (b = true <-> map fold_letter (drop (Z.to_nat (i - s)) s1) =
                  map fold_letter (take n (drop (Z.to_nat i) s2))).
Proof.
  induction n as [|n IH]; intros i Hi Hs H1 H2.
  - exists true. split; [done|]. rewrite drop_ge by lia. done.
  - cbn [ci_equal_loop].
    destruct (lookup_lt_is_Some_2 s1 (Z.to_nat (i - s))) as [c1 Hc1]; [lia|].
    destruct (lookup_lt_is_Some_2 s2 (Z.to_nat i)) as [c2 Hc2]; [lia|].
    rewrite (zread_val _ _ c1) by (done || lia). cbn [obind].
    rewrite (zread_val _ _ c2) by (done || lia). cbn [obind].
    rewrite (drop_S _ _ _ Hc1), (drop_S _ _ _ Hc2). cbn [take map].
    destruct (same_letter c1 c2) eqn:E.
    + destruct (IH (i + 1)) as (b & -> & Hb); try lia. exists b. split; [done|].
      rewrite Hb. replace (Z.to_nat (i + 1 - s)) with (S (Z.to_nat (i - s))) by lia.
      replace (Z.to_nat (i + 1)) with (S (Z.to_nat i)) by lia.
      apply same_letter_true in E. rewrite E. split; [by intros ->|by intros [= ->]].
    + exists false. split; [done|]. split; [done|]. intros [= H _].
      apply same_letter_true in H. congruence.
Qed.

Lemma ci_equal_2_ok s1 s2 s e : 0 <= s <= e -> e <= Z.of_nat (length s2) ->
  exists b, ci_equal_2 s1 s2 s e = Val b /\ (b = true <-> same_folded s1 (slice s2 s e)).
Proof.
  intros H1 H2. unfold ci_equal_2, same_folded. destruct (decide (Z.of_nat (length s1) = e - s)) as [Hl|Hl].
  - rewrite bool_decide_eq_true_2 by done.
    destruct (ci_equal_loop_ok s1 s2 s (Z.to_nat (e - s)) s) as (b & -> & Hb); try lia.
    exists b. split; [done|]. rewrite Hb. rewrite Z.sub_diag. done.
  - rewrite bool_decide_eq_false_2 by done. exists false. split; [done|]. split; [done|].
    intros H. apply (f_equal length) in H. unfold slice in H.
    rewrite !map_length, take_length, drop_length in H. lia.
Qed.

Lemma slice_all str : slice str 0 (Z.of_nat (length str)) = str.
Proof. unfold slice. cbn [Z.to_nat drop]. by rewrite Z.sub_0_r, Nat2Z.id, firstn_all. Qed.

Lemma ci_string_equal_ok s1 s2 :
  exists b, ci_string_equal s1 s2 = Val b /\ (b = true <-> same_folded s1 s2).
Proof.
  unfold ci_string_equal. destruct (ci_equal_2_ok s1 s2 0 (Z.of_nat (length s2))) as (b & H & Hb); try lia.
  rewrite slice_all in Hb. eauto.
Qed.

(** ** Protocols *)
Lemma value_contract {K} (same : K -> K -> bool) (hash : K -> Z) :
  (forall k, same k k = true) -> (forall k k', same k k' = true -> same k' k = true) ->
  (forall k1 k2 k3, same k1 k2 = true -> same k2 k3 = true -> same k1 k3 = true) ->
  (forall k k', same k k' = true -> hash k = hash k') ->
  contract (value_protocol same hash) (fun _ => None).
Proof. intros H1 H2 H3 H4. split; cbn; try done; eauto. Qed.

Lemma symbol_contract : contract symbol_protocol (fun _ => None).
Proof.
  assert (Ht : forall a b, val_or false (ci_string_equal a b) = true <-> same_folded a b).
  { intros a b. destruct (ci_string_equal_ok a b) as (x & -> & Hx). exact Hx. }
  apply value_contract; intros *; rewrite ?Ht; unfold same_folded; try done; try congruence.
  intros H. by rewrite !ci_string_hash_steps, (masked_fold k), H, <- masked_fold.
Qed.
