(** Proofs about ranges. *)
From Coq Require Import ZifyBool ZifyNat ZifyN Lia Znumtheory.
From Verif Require Import Base RangeModel RangeSpec.
Local Open Scope Z_scope.
Local Open Scope outcome_scope.

(** *** Membership *)
Lemma in_progression_inf f b x : in_seq (progression f b None) x <-> exists k, 0 <= k /\ x = f + k * b.
Proof.
  unfold in_seq, progression. split.
  - intros [k Hk]. injection Hk as Hk. exists (Z.of_nat k). lia.
  - intros (k & Hk & ->). exists (Z.to_nat k). f_equal. by rewrite Z2Nat.id.
Qed.
Lemma in_progression_fin f b n x :
  in_seq (progression f b (Some (Z.to_nat n))) x <-> exists k, 0 <= k < n /\ x = f + k * b.
Proof.
  unfold in_seq, progression. split.
  - intros [k Hk]. case_bool_decide; [|done]. injection Hk as Hk. exists (Z.of_nat k). lia.
  - intros (k & Hk & ->). exists (Z.to_nat k). rewrite bool_decide_true by lia. f_equal. rewrite Z2Nat.id; lia.
Qed.

Lemma quot_rem_zero v b : b <> 0 -> Z.rem v b = 0 -> v = Z.quot v b * b.
Proof. intros Hb H. pose proof (Z.quot_rem v b Hb). lia. Qed.
Lemma quot_of_mul k b : b <> 0 -> Z.quot (k * b) b = k /\ Z.rem (k * b) b = 0.
Proof. intros. split; [by apply Z.quot_mul|by apply Z.rem_mul]. Qed.

Lemma find_key_spec x r : wf_range r ->
  match find_key x r with
  | Some k => 0 <= k /\ denote r (Z.to_nat k) = Some x /\ forall j, denote r j = Some x -> (Z.to_nat k <= j)%nat
  | None => ~ in_seq (denote r) x
  end.
Proof.
  destruct r as [|f [n|]|f b n|f b]; cbn [find_key denote wf_range]; intros Hwf.
  - intros [k Hk]. unfold progression in Hk. case_bool_decide; [lia|done].
  - case_bool_decide as H.
    + subst. split; [lia|]. unfold progression. rewrite bool_decide_true by lia.
      split; [f_equal; lia|]. intros; lia.
    + rewrite in_progression_fin. intros (k & Hk & ->). apply H. lia.
  - case_bool_decide as H.
    + subst. split; [lia|]. unfold progression. split; [f_equal; lia|]. intros; lia.
    + rewrite in_progression_inf. intros (k & Hk & ->). apply H. lia.
  - destruct Hwf as [Hb Hn]. unfold truncate_div, trunc_rem.
    repeat case_bool_decide; cbn [andb].
    + pose proof (quot_rem_zero (x - f) b Hb ltac:(done)) as E.
      split; [done|]. unfold progression. rewrite bool_decide_true by lia. split; [f_equal; rewrite Z2Nat.id by done; lia|].
      intros j Hj. case_bool_decide; [|done]. injection Hj as Hj. 
      replace (x - f) with (Z.of_nat j * b) by lia. rewrite Z.quot_mul by done. lia.
    + rewrite in_progression_fin. intros (k & Hk & ->). replace (f + k * b - f) with (k * b) in * by lia.
      pose proof (quot_of_mul k b Hb) as [E1 E2]. rewrite E1 in *. lia.
    + rewrite in_progression_fin. intros (k & Hk & ->). replace (f + k * b - f) with (k * b) in * by lia.
      pose proof (quot_of_mul k b Hb) as [E1 E2]. rewrite E1 in *. lia.
    + rewrite in_progression_fin. intros (k & Hk & ->). replace (f + k * b - f) with (k * b) in * by lia.
      pose proof (quot_of_mul k b Hb) as [E1 E2]. rewrite E1 in *. lia.
    + rewrite in_progression_fin. intros (k & Hk & ->). replace (f + k * b - f) with (k * b) in * by lia.
      pose proof (quot_of_mul k b Hb) as [E1 E2]. done.
    + rewrite in_progression_fin. intros (k & Hk & ->). replace (f + k * b - f) with (k * b) in * by lia.
      pose proof (quot_of_mul k b Hb) as [E1 E2]. done.
    + rewrite in_progression_fin. intros (k & Hk & ->). replace (f + k * b - f) with (k * b) in * by lia.
      pose proof (quot_of_mul k b Hb) as [E1 E2]. done.
    + rewrite in_progression_fin. intros (k & Hk & ->). replace (f + k * b - f) with (k * b) in * by lia.
      pose proof (quot_of_mul k b Hb) as [E1 E2]. done.
  - unfold truncate_div, trunc_rem. repeat case_bool_decide; cbn [andb].
    + pose proof (quot_rem_zero (x - f) b Hwf ltac:(done)) as E.
      split; [done|]. unfold progression. split; [f_equal; rewrite Z2Nat.id by done; lia|].
      intros j Hj. injection Hj as Hj. 
      replace (x - f) with (Z.of_nat j * b) by lia. rewrite Z.quot_mul by done. lia.
    + rewrite in_progression_inf. intros (k & Hk & ->). replace (f + k * b - f) with (k * b) in * by lia.
      pose proof (quot_of_mul k b Hwf) as [E1 E2]. rewrite E1 in *. lia.
    + rewrite in_progression_inf. intros (k & Hk & ->). replace (f + k * b - f) with (k * b) in * by lia.
      pose proof (quot_of_mul k b Hwf) as [E1 E2]. done.
    + rewrite in_progression_inf. intros (k & Hk & ->). replace (f + k * b - f) with (k * b) in * by lia.
      pose proof (quot_of_mul k b Hwf) as [E1 E2]. done.
Qed.

Lemma member_spec x r : wf_range r -> (member x r = true <-> in_seq (denote r) x).
Proof.
  intros Hwf. pose proof (find_key_spec x r Hwf) as H. unfold member.
  destruct (find_key x r) as [k|]; split; try done.
  intros _. exists (Z.to_nat k). tauto.
Qed.

(** *** Observers *)
Lemma element_spec r k : wf_range r -> element r (Z.of_nat k) = denote r k.
Proof.
  destruct r as [|f [n|]|f b n|f b]; cbn [element denote wf_range]; intros Hwf; unfold progression.
  - by rewrite bool_decide_false by lia.
  - rewrite (bool_decide_ext (Z.of_nat k < n) (k < Z.to_nat n)%nat) by lia.
    case_bool_decide; [f_equal; lia|done].
  - f_equal; lia.
  - rewrite (bool_decide_true (Z.of_nat k >= 0)) by lia. cbn [andb].
    by rewrite (bool_decide_ext (Z.of_nat k < n) (k < Z.to_nat n)%nat) by lia.
  - done.
Qed.

(** *** Forward iteration *)
(** The state reached after [k] steps. *)
Definition fstate (r : range) (k : nat) : Z :=
  match r with RConst _ _ => Z.of_nat k | _ => range_from r + Z.of_nat k * range_by r end.

Lemma forward_next_fstate r k : forward_next r (fstate r k) = fstate r (S k).
Proof. destruct r; cbn [forward_next fstate range_from range_by]; lia. Qed.

Lemma forward_finished_spec r k : wf_range r -> (forall n, denote r n = None -> n < k -> False)%nat ->
  forward_finished r (fstate r k) = match denote r k with Some _ => false | None => true end.
Proof.
  intros Hwf Hk.
  destruct r as [|f [n|]|f b n|f b]; cbn [forward_finished denote wf_range fstate range_from range_by] in *;
    unfold progression in *.
  - by rewrite bool_decide_false by lia.
  - assert (k <= Z.to_nat n)%nat.
    { destruct (decide (k <= Z.to_nat n)%nat); [done|]. exfalso. apply (Hk (Z.to_nat n)); [|lia].
      by rewrite bool_decide_false by lia. }
    rewrite (bool_decide_ext (k < Z.to_nat n)%nat (~ Z.of_nat k = n)) by lia.
    repeat case_bool_decide; done.
  - done.
  - destruct Hwf as [Hb Hn].
    assert (Hin : (k < Z.to_nat n)%nat <-> Z.of_nat k <= n - 1) by lia.
    repeat case_bool_decide; try done; exfalso; nia.
  - done.
Qed.

Lemma current_spec r k x : denote r k = Some x -> wf_range r ->
  current_key r (fstate r k) = Z.of_nat k /\ current_element r (fstate r k) = x.
Proof.
  intros Hx Hwf. destruct r as [|f [n|]|f b n|f b];
    cbn [current_key current_element denote wf_range fstate range_from range_by] in *;
    unfold progression, floor_div in *; try case_bool_decide; try done; try lia.
  - injection Hx as <-. split; [done|lia].
  - injection Hx as <-. split; [done|lia].
  - injection Hx as <-. split; [|done]. replace (f + Z.of_nat k * b - f) with (Z.of_nat k * b) by lia.
    apply Z.div_mul. lia.
  - injection Hx as <-. split; [|done]. replace (f + Z.of_nat k * b - f) with (Z.of_nat k * b) by lia.
    apply Z.div_mul. lia.
Qed.

Lemma forward_take_from r n k : wf_range r -> (forall j, denote r j = None -> j < k -> False)%nat ->
  forward_take n r (fstate r k) = prefix_from (denote r) k n.
Proof.
  intros Hwf. revert k. induction n as [|n IH]; intros k Hk; cbn [forward_take prefix_from]; [done|].
  rewrite forward_finished_spec by done. destruct (denote r k) as [x|] eqn:E; [|done].
  destruct (current_spec r k x E Hwf) as [-> ->]. f_equal.
  rewrite forward_next_fstate. apply IH. intros j Hj Hlt.
  destruct (decide (j = k)) as [->|]; [congruence|]. apply (Hk j Hj). lia.
Qed.

Lemma forward_take_spec r n : wf_range r ->
  forward_take n r (forward_init r) = prefix_with_keys (denote r) n.
Proof.
  intros Hwf. unfold prefix_with_keys. rewrite <- (forward_take_from r n 0) by (done || lia).
  f_equal. destruct r; cbn [forward_init fstate range_from]; lia.
Qed.

(** *** Backward iteration over a range with [n] elements *)
Definition count_of (r : range) (n : nat) : Prop := size_of r = Some (Z.of_nat n).

Lemma count_denote r n : wf_range r -> count_of r n ->
  forall k, (is_Some (denote r k) <-> (k < n)%nat).
Proof.
  intros Hwf Hn k. unfold count_of in Hn.
  destruct r as [|f [m|]|f b m|f b]; cbn [size_of denote wf_range] in *; try done;
    injection Hn as Hn; unfold progression.
  - rewrite bool_decide_false by lia. split; [intros [? ?]; done|lia].
  - case_bool_decide; split; intros; try (by eauto); try lia. by destruct H0.
  - case_bool_decide; split; intros; try (by eauto); try lia. by destruct H0.
Qed.

Lemma prefix_from_app s k n m :
  (forall j, k <= j < k + n -> is_Some (s j))%nat ->
  prefix_from s k (n + m) = prefix_from s k n ++ prefix_from s (k + n) m.
Proof.
  revert k. induction n as [|n IH]; intros k H; cbn [prefix_from Nat.add].
  - by rewrite Nat.add_0_r.
  - destruct (H k) as [x Hx]; [lia|]. rewrite Hx. cbn [app]. f_equal.
    rewrite IH by (intros; apply H; lia). do 2 f_equal. lia.
Qed.

Lemma backward_next_fstate r k : backward_next r (fstate r (S k)) = fstate r k.
Proof. destruct r; cbn [backward_next fstate range_from range_by]; lia. Qed.

Lemma backward_finished_in r n k : wf_range r -> count_of r n -> (k < n)%nat ->
  backward_finished r (fstate r k) = false.
Proof.
  intros Hwf Hn Hk. unfold count_of in Hn.
  destruct r as [|f [m|]|f b m|f b];
    cbn [backward_finished size_of wf_range fstate range_from range_by] in *; try done;
    injection Hn as Hn.
  - lia.
  - by rewrite bool_decide_false by lia.
  - destruct Hwf as [Hb Hm]. repeat case_bool_decide; try done; exfalso; nia.
Qed.

Lemma backward_take_spec r n k : wf_range r -> count_of r n -> (k < n)%nat ->
  backward_take (S k) r (fstate r k) = rev (prefix_with_keys (denote r) (S k)).
Proof.
  intros Hwf Hn. unfold prefix_with_keys.
  induction k as [|k IH]; intros Hk.
  - cbn [backward_take]. rewrite (backward_finished_in r n) by done.
    destruct (denote r 0%nat) as [x|] eqn:E.
    2:{ apply (count_denote r n Hwf Hn) in Hk. rewrite E in Hk. by destruct Hk. }
    cbn [prefix_from]. rewrite E. destruct (current_spec r 0%nat x E Hwf) as [-> ->]. done.
  - change (backward_take (S (S k)) r (fstate r (S k))) with
      (if backward_finished r (fstate r (S k)) then []
       else (current_key r (fstate r (S k)), current_element r (fstate r (S k)))
              :: backward_take (S k) r (backward_next r (fstate r (S k)))).
    rewrite (backward_finished_in r n) by done.
    rewrite backward_next_fstate, IH by lia.
    replace (S (S k)) with (S k + 1)%nat by lia. rewrite prefix_from_app.
    2:{ intros j Hj. apply (count_denote r n Hwf Hn). lia. }
    rewrite rev_app_distr. 
    destruct (denote r (S k)) as [x|] eqn:E.
    2:{ apply (count_denote r n Hwf Hn) in Hk. rewrite E in Hk. by destruct Hk. }
    destruct (current_spec r (S k) x E Hwf) as [-> ->].
    cbn [Nat.add prefix_from]. by rewrite E.
Qed.

Lemma backward_all r n : wf_range r -> count_of r n ->
  exists s, backward_init r = Val s /\
    backward_take n r s = rev (prefix_with_keys (denote r) n).
Proof.
  intros Hwf Hn. destruct n as [|n].
  - exists (match backward_init r with Val s => s | _ => 0 end).
    unfold count_of in Hn. destruct r as [|f [m|]|f b m|f b]; cbn [size_of wf_range] in *; try done; injection Hn as Hn; lia.
  - exists (fstate r n). split; [|by apply (backward_take_spec r (S n)); [| |lia]].
    unfold count_of in Hn. destruct r as [|f [m|]|f b m|f b];
    cbn [size_of backward_init fstate range_from range_by] in *; try done; injection Hn as Hn; f_equal; lia.
Qed.

Lemma range_fuel_count r n : count_of r n -> range_fuel r = n.
Proof. unfold count_of, range_fuel. intros ->. lia. Qed.

Lemma prefix_from_snd s k n : (forall j, k <= j < k + n -> is_Some (s j))%nat ->
  forall i, map snd (prefix_from s k n) !! i = if decide (i < n)%nat then s (k + i)%nat else None.
Proof.
  revert k. induction n as [|n IH]; intros k H i; cbn [prefix_from].
  - cbn [map]. rewrite lookup_nil. by destruct (decide (i < 0)%nat); [lia|].
  - destruct (H k) as [x Hx]; [lia|]. rewrite Hx. cbn [map snd]. destruct i as [|i]; cbn [lookup list_lookup].
    + rewrite decide_True by lia. by rewrite Nat.add_0_r, Hx.
    + change (map snd (prefix_from s (S k) n) !! i = if decide (S i < S n)%nat then s (k + S i)%nat else None).
      rewrite IH by (intros; apply H; lia).
      destruct (decide (i < n)%nat); [rewrite decide_True by lia; f_equal; lia|by rewrite decide_False by lia].
Qed.

(** The list of elements of a finite range. *)
Lemma prefix_list r n : wf_range r -> count_of r n ->
  forall i, map snd (prefix_with_keys (denote r) n) !! i = denote r i.
Proof.
  intros Hwf Hn i. unfold prefix_with_keys. rewrite prefix_from_snd.
  - cbn [Nat.add]. destruct (decide (i < n)%nat); [done|].
    destruct (denote r i) eqn:E; [|done]. exfalso. assert (is_Some (denote r i)) as H by eauto.
    apply (count_denote r n Hwf Hn) in H. lia.
  - intros j Hj. apply (count_denote r n Hwf Hn). lia.
Qed.

Lemma shallow_copy_spec r n : wf_range r -> count_of r n ->
  exists l, shallow_copy r = Val l /\ (forall i, l !! i = denote r i).
Proof.
  intros Hwf Hn. destruct (backward_all r n Hwf Hn) as (s & E & H).
  unfold shallow_copy. rewrite E. cbn [obind]. rewrite (range_fuel_count r n Hn), H.
  eexists. split; [done|]. intros i. rewrite map_rev, rev_involutive. by apply prefix_list.
Qed.

(** *** Reverse, copy-sequence *)
Lemma denote_finite f b n k : denote (RFinite f b n) k =
  if bool_decide (k < Z.to_nat n)%nat then Some (f + Z.of_nat k * b) else None.
Proof. done. Qed.

Lemma reverse_bang_spec r n : wf_range r -> count_of r n ->
  exists r', reverse_bang r = Val r' /\ wf_range r' /\ count_of r' n /\
    forall k, (k < n)%nat -> denote r' k = denote r (n - 1 - k)%nat.
Proof.
  intros Hwf Hn. unfold count_of in *.
  destruct r as [|f [m|]|f b m|f b]; cbn [size_of reverse_bang] in *; try done; injection Hn as Hn;
    (eexists; split; [reflexivity|]; split; [cbn [wf_range] in *; first [done|lia]|]; split; [cbn; congruence|]; intros k Hk).
  - lia.
  - cbn [denote]. unfold progression. rewrite !bool_decide_true by lia. f_equal; lia.
  - rewrite !denote_finite. rewrite !bool_decide_true by lia. f_equal.
    replace (Z.of_nat (n - 1 - k)) with (m - 1 - Z.of_nat k) by lia. lia.
Qed.

Lemma copy_sequence_finite f b n start e :
  wf_range (RFinite f b n) -> 0 <= start < n -> start <= e ->
  exists r', copy_sequence (RFinite f b n) start (Some e) = Val r' /\ wf_range r' /\
    forall k, denote r' k = if bool_decide (start + Z.of_nat k < e) then denote (RFinite f b n) (Z.to_nat start + k)%nat else None.
Proof.
  intros [Hb Hn] Hs He. cbn [copy_sequence element size_of range_by].
  rewrite !bool_decide_true by lia. cbn [andb].
  unfold make_range. rewrite (bool_decide_false (b = 0)) by done.
  assert (Hto : (if bool_decide (b > 0) then None else @None Z) = None) by by case_bool_decide.
  rewrite Hto; clear Hto. cbn [obind].
  set (e' := if bool_decide (e > n) then n else e).
  assert (He' : e' = Z.min e n) by (unfold e'; case_bool_decide; lia).
  case_bool_decide as H0.
  - exists REmpty. split; [done|]. split; [done|]. intros k. cbn [denote]. unfold progression.
    rewrite bool_decide_false by lia. case_bool_decide; [|done].
    by rewrite bool_decide_false by lia.
  - eexists. split; [reflexivity|]. split; [cbn; lia|]. intros k. rewrite !denote_finite.
    rewrite (bool_decide_ext (k < Z.to_nat (e' - start))%nat (start + Z.of_nat k < e /\ start + Z.of_nat k < n)) by lia.
    repeat case_bool_decide; try done; try lia. f_equal. rewrite ?Nat2Z.inj_add, ?Z2Nat.id by lia. lia.
Qed.

Lemma copy_sequence_const f n start e :
  wf_range (RConst f (Some n)) -> 0 <= start < n -> start < e ->
  exists r', copy_sequence (RConst f (Some n)) start (Some e) = Val r' /\ wf_range r' /\
    forall k, denote r' k = if bool_decide (start + Z.of_nat k < e) then denote (RConst f (Some n)) (Z.to_nat start + k)%nat else None.
Proof.
  intros Hn Hs He. cbn [copy_sequence element size_of range_by wf_range] in *.
  rewrite !bool_decide_true by lia. unfold make_range. rewrite bool_decide_true by done. cbn [andb].
  set (e' := if bool_decide (e > n) then n else e).
  assert (He' : e' = Z.min e n) by (unfold e'; case_bool_decide; lia).
  eexists. split; [reflexivity|]. split; [cbn; lia|]. intros k. cbn [denote]. unfold progression.
  rewrite (bool_decide_ext (k < Z.to_nat (e' - start))%nat (start + Z.of_nat k < e /\ start + Z.of_nat k < n)) by lia.
  repeat case_bool_decide; try done; try lia. f_equal. rewrite ?Nat2Z.inj_add, ?Z2Nat.id by lia. lia.
Qed.

Lemma copy_sequence_infinite r start : wf_range r -> size_of r = None -> 0 <= start ->
  exists r', copy_sequence r start None = Val r' /\ wf_range r' /\
    forall k, denote r' k = denote r (Z.to_nat start + k)%nat.
Proof.
  intros Hwf Hs H0. destruct r as [|f [m|]|f b m|f b]; cbn [size_of copy_sequence element] in *; try done.
  - eexists. split; [reflexivity|]. split; [done|]. intros k. cbn [denote]. unfold progression. f_equal. rewrite ?Nat2Z.inj_add, ?Z2Nat.id by lia. lia.
  - cbn [wf_range] in Hwf. unfold make_range. cbn [range_by].
    rewrite (bool_decide_false (b = 0)) by done.
    assert (Hto : (if bool_decide (b > 0) then None else @None Z) = None) by by case_bool_decide.
    rewrite Hto; clear Hto. eexists. split; [reflexivity|]. split; [done|]. intros k. cbn [denote]. unfold progression. f_equal. rewrite ?Nat2Z.inj_add, ?Z2Nat.id by lia. lia.
Qed.

Lemma copy_sequence_all r : wf_range r -> 
  exists r', copy_sequence r 0 (size_of r) = Val r' /\ wf_range r' /\ size_of r' = size_of r /\
    forall k, denote r' k = denote r k.
Proof.
  intros Hwf. destruct r as [|f [m|]|f b m|f b].
  - by exists REmpty.
  - cbn [wf_range] in Hwf. unfold copy_sequence. cbn [element size_of range_by]. rewrite bool_decide_true by lia.
    rewrite bool_decide_false by lia. rewrite Z.sub_0_r. exists (RConst f (Some m)). done.
  - exists (RConst f None). done.
  - destruct Hwf as [Hb Hn]. unfold copy_sequence. cbn [element size_of range_by].
    rewrite !bool_decide_true by lia. cbn [andb]. rewrite (bool_decide_false (m > m)) by lia. rewrite Z.sub_0_r, Z.mul_0_l, Z.add_0_r.
    unfold make_range. rewrite (bool_decide_false (b = 0)) by done.
    assert (Hto : (if bool_decide (b > 0) then None else @None Z) = None) by by case_bool_decide.
    rewrite Hto; clear Hto. cbn [obind]. rewrite bool_decide_false by lia. exists (RFinite f b m). done.
  - cbn [wf_range] in Hwf. unfold copy_sequence. cbn [element size_of range_by].
    unfold make_range. rewrite (bool_decide_false (b = 0)) by done.
    assert (Hto : (if bool_decide (b > 0) then None else @None Z) = None) by by case_bool_decide.
    rewrite Hto; clear Hto. rewrite Z.mul_0_l, Z.add_0_r. exists (RInfinite f b). done.
Qed.

Lemma reverse_spec r n : wf_range r -> count_of r n ->
  exists r', reverse r = Val r' /\ wf_range r' /\ count_of r' n /\
    forall k, (k < n)%nat -> denote r' k = denote r (n - 1 - k)%nat.
Proof.
  intros Hwf Hn. unfold reverse. destruct (copy_sequence_all r Hwf) as (c & -> & Hc & Hsz & Hd).
  cbn [obind]. destruct (reverse_bang_spec c n Hc) as (r' & -> & Hw & Hcnt & Hrev).
  { unfold count_of in *. congruence. }
  exists r'. split; [done|]. split; [done|]. split; [done|]. intros k Hk. rewrite Hrev by done. apply Hd.
Qed.
