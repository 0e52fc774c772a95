(** Sizes of table vectors and the probe sequence. *)
From Verif Require Import Base TableModel TableSpec.
From Coq Require Import ZifyBool ZifyNat Znumtheory.
Open Scope Z_scope.
Ltac Zify.zify_post_hook ::= Z.div_mod_to_equations.

(** ** Sizes *)

Definition good_count (n : Z) : Prop :=
  37 <= n /\ Forall (fun s => Z.gcd s n = 1) secondary_strides.

Lemma entry_counts_good :
  Forall (fun n => n < 31 \/ good_count n) entry_counts.
Proof.
  assert (H : Forall (fun n => (n <? 31) || ((37 <=? n) &&
            forallb (fun s => Z.gcd s n =? 1) secondary_strides) = true) entry_counts).
  { apply Forall_forall. intros x Hx.
    assert (Hb : forallb (fun n => (n <? 31) || ((37 <=? n) &&
            forallb (fun s => Z.gcd s n =? 1) secondary_strides)) entry_counts = true)
      by (vm_compute; reflexivity).
    rewrite forallb_forall in Hb. apply Hb. by apply elem_of_list_In. }
  eapply Forall_impl; [exact H|]. intros n Hn. cbv beta in Hn.
  apply orb_true_iff in Hn as [Hn|Hn]; [left; lia|right].
  apply andb_true_iff in Hn as [Hn Hs]. split; [lia|].
  apply Forall_forall. intros s Hin. rewrite forallb_forall in Hs.
  apply elem_of_list_In in Hin. specialize (Hs _ Hin). lia.
Qed.

Lemma count_search_ok needed fuel lo hi x :
  0 <= lo <= hi -> hi <= entry_last -> (hi - lo < Z.of_nat fuel) ->
  entry_counts !! Z.to_nat hi = Some x -> needed <= x ->
  exists y, count_search_loop fuel needed lo hi = Val y /\ y ∈ entry_counts /\ needed <= y.
Proof.
  revert lo hi x. induction fuel as [|f IH]; intros lo hi x H0 Hhi Hf Hx Hle; [lia|].
  cbn [count_search_loop].
  destruct (Z.eqb_spec lo hi) as [->|Hne].
  - exists x. split; [by apply zread_val; [lia|]|]. split; [|done].
    apply elem_of_list_lookup. by exists (Z.to_nat hi).
  - rewrite Z.shiftr_div_pow2 by lia. change (2 ^ 1) with 2.
    set (mid := (lo + hi) / 2).
    assert (Hm : lo <= mid < hi) by (unfold mid; lia).
    destruct (lookup_lt_is_Some_2 entry_counts (Z.to_nat mid)) as [e He].
    { unfold entry_last in Hhi. lia. }
    rewrite (zread_val _ _ e) by (lia || done). cbn [obind].
    destruct (Z.ltb_spec e needed).
    + apply (IH (mid + 1) hi x); try lia; done.
    + apply (IH lo mid e); try lia; done.
Qed.

Lemma compute_entry_count_ok desired :
  desired <= max_entries ->
  exists n, compute_entry_count desired = Val n /\ good_count n /\
            (desired <= ceil_mul_threshold n) /\ 0 < ceil_mul_threshold n < n.
Proof.
  intros Hd. unfold compute_entry_count.
  set (d := if desired <? 0 then 0 else desired).
  assert (Hd' : 0 <= d <= max_entries /\ desired <= d).
  { unfold d, max_entries in *. destruct (Z.ltb_spec desired 0); lia. }
  assert (Hl : zread entry_counts entry_last = Val 463830313) by (vm_compute; reflexivity).
  rewrite Hl. cbn [obind]. clear Hl. clearbody d.
  unfold max_entries, minimum_entries in *.
  assert (Hn : Z.max (ceil_div_threshold d) 31 <= 463830313) by (unfold ceil_div_threshold; lia).
  destruct (Z.leb_spec (Z.max (ceil_div_threshold d) 31) 463830313) as [_|]; [|lia].
  destruct (count_search_ok (Z.max (ceil_div_threshold d) 31) (S (length entry_counts))
              0 entry_last 463830313) as (y & Hy & Hin & Hle).
  - vm_compute. split; congruence.
  - lia.
  - vm_compute. congruence.
  - vm_compute. reflexivity.
  - done.
  - exists y. split; [exact Hy|].
    pose proof entry_counts_good as Hg. rewrite Forall_forall in Hg.
    destruct (Hg y Hin) as [Hlt|Hgood]; [lia|]. split; [done|].
    destruct Hgood as [H37 _]. clear -Hle H37 Hd'.
    unfold ceil_div_threshold, ceil_mul_threshold in *. lia.
Qed.

Lemma compute_entry_count_cases desired :
  (exists m, compute_entry_count desired = Signal m) \/
  (exists n, compute_entry_count desired = Val n /\ good_count n /\
            (desired <= ceil_mul_threshold n) /\ 0 < ceil_mul_threshold n < n).
Proof.
  destruct (decide (desired <= max_entries)) as [H|H].
  - right. by apply compute_entry_count_ok.
  - left. unfold compute_entry_count.
    assert (Hl : zread entry_counts entry_last = Val 463830313) by (vm_compute; reflexivity).
    rewrite Hl. cbn [obind]. clear Hl. unfold max_entries in H.
    destruct (Z.ltb_spec desired 0); [lia|].
    destruct (Z.leb_spec (Z.max (ceil_div_threshold desired) minimum_entries) 463830313).
    + unfold ceil_div_threshold, minimum_entries in *. lia.
    + by eexists.
Qed.

(** ** The probe sequence *)

(** The position of probe [i] for hash code [id] and stride [s] in a vector of
    length [n]. *)
Definition pos (n s id : Z) (i : nat) : Z := (id - Z.of_nat i * s) mod n.

Lemma pos_range n s id i : 0 < n -> 0 <= pos n s id i < n.
Proof. intros. unfold pos. apply Z.mod_pos_bound. lia. Qed.

Lemma pos_next n s id i :
  0 < s < n -> next_index n s (pos n s id i) = pos n s id (S i).
Proof.
  intros Hs. unfold next_index.
  pose proof (pos_range n s id i ltac:(lia)) as Hr.
  assert (E : pos n s id (S i) = (pos n s id i - s) mod n).
  { unfold pos. rewrite Zminus_mod_idemp_l. f_equal; lia. }
  rewrite E. set (p := pos n s id i) in *. clearbody p.
  destruct (Z.ltb_spec (p - s) 0).
  - apply (Z.mod_unique _ _ (-1)); lia.
  - symmetry. apply Z.mod_small. lia.
Qed.

(** With a stride prime to the length every position is probed. *)
Lemma pos_surjective n s id j :
  0 < n -> Z.gcd s n = 1 -> 0 <= j < n ->
  exists i : nat, (Z.of_nat i < n) /\ pos n s id i = j.
Proof.
  intros Hn Hg Hj.
  destruct (Z.gcd_bezout s n 1 Hg) as (a & b & Hab).
  (* a*s + b*n = 1; want i with i*s = id - j (mod n) *)
  set (i := ((id - j) * a) mod n).
  assert (Hi : 0 <= i < n) by (apply Z.mod_pos_bound; lia).
  exists (Z.to_nat i). rewrite Z2Nat.id by lia. split; [lia|].
  unfold pos. rewrite Z2Nat.id by lia.
  assert (E : exists q, i = (id - j) * a - n * q).
  { exists ((id - j) * a / n). unfold i. pose proof (Z.div_mod ((id - j) * a) n). lia. }
  destruct E as [q Hq].
  assert (id - i * s = j + ((id - j) * b + q * s) * n) as ->.
  { rewrite Hq.
    replace (((id - j) * a - n * q) * s) with ((id - j) * (a * s) - n * q * s) by ring.
    replace (a * s) with (1 - b * n) by lia. ring. }
  rewrite Z.mod_add by lia. apply Z.mod_small. lia.
Qed.

Lemma secondary_stride_ok id :
  exists s, secondary_stride id = Val s /\ s ∈ secondary_strides /\ 0 < s < 37.
Proof.
  unfold secondary_stride.
  assert (Hr : 0 <= Z.land id 7 < 8).
  { change 7 with (Z.ones 3). rewrite Z.land_ones by lia.
    change (2 ^ 3) with 8. apply Z.mod_pos_bound. lia. }
  set (i := Z.land id 7) in *. clearbody i.
  destruct (lookup_lt_is_Some_2 secondary_strides (Z.to_nat i)) as [s Hs].
  { cbn. lia. }
  exists s. split; [by apply zread_val; [lia|]|].
  assert (Hin : s ∈ secondary_strides) by (apply elem_of_list_lookup; eauto).
  split; [done|].
  unfold secondary_strides in Hin. repeat (apply elem_of_cons in Hin as [->|Hin]; [lia|]).
  by apply elem_of_nil in Hin.
Qed.

(** The stride as a total function. *)
Definition stride_of (id : Z) : Z :=
  match secondary_stride id with Val s => s | _ => 0 end.

Lemma stride_of_eq id : secondary_stride id = Val (stride_of id).
Proof. unfold stride_of. destruct (secondary_stride_ok id) as (s & -> & _). done. Qed.

Lemma stride_of_range id : 0 < stride_of id < 37.
Proof.
  destruct (secondary_stride_ok id) as (s & Hs & _ & ?). unfold stride_of. by rewrite Hs.
Qed.

Lemma stride_of_gcd id n : good_count n -> Z.gcd (stride_of id) n = 1.
Proof.
  intros [_ Hall]. destruct (secondary_stride_ok id) as (s & Hs & Hin & _).
  unfold stride_of. rewrite Hs. rewrite Forall_forall in Hall. by apply Hall.
Qed.

(** [path n id i] is the position of probe [i]. *)
Definition path (n : nat) (id : Z) (i : nat) : nat :=
  Z.to_nat (pos (Z.of_nat n) (stride_of id) id i).

Lemma path_lt n id i : (0 < n)%nat -> (path n id i < n)%nat.
Proof. intros H. unfold path. pose proof (pos_range (Z.of_nat n) (stride_of id) id i). lia. Qed.

Lemma path_surjective n id j :
  good_count (Z.of_nat n) -> (j < n)%nat -> exists i, (i < n)%nat /\ path n id i = j.
Proof.
  intros Hg Hj.
  destruct (pos_surjective (Z.of_nat n) (stride_of id) id (Z.of_nat j)) as (i & Hi & He).
  - lia.
  - by apply stride_of_gcd.
  - lia.
  - exists i. split; [lia|]. unfold path. lia.
Qed.

Section Probe.
Context {K : Type}.
Implicit Types (ks : list (slot K)).

Lemma probe_loop_ok ks stop id (target : nat) s :
  good_count (Z.of_nat (length ks)) ->
  ks !! path (length ks) id target = Some s ->
  stop (Z.of_nat (path (length ks) id target)) s = true ->
  forall fuel i0, (i0 <= target)%nat -> (target - i0 < fuel)%nat ->
  exists i s', (i0 <= i <= target)%nat /\
    probe_loop fuel ks stop (stride_of id) (Z.of_nat (path (length ks) id i0))
      = Val (Z.of_nat (path (length ks) id i), s') /\
    ks !! path (length ks) id i = Some s' /\
    stop (Z.of_nat (path (length ks) id i)) s' = true /\
    (forall i' s'', (i0 <= i' < i)%nat -> ks !! path (length ks) id i' = Some s'' ->
       stop (Z.of_nat (path (length ks) id i')) s'' = false).
Proof.
  intros Hg Hs Hstop fuel. induction fuel as [|f IH]; intros i0 Hi0 Hf; [lia|].
  assert (Hn : (0 < length ks)%nat) by (destruct Hg; lia).
  cbn [probe_loop].
  destruct (lookup_lt_is_Some_2 ks (path (length ks) id i0)) as [s0 Hs0].
  { by apply path_lt. }
  rewrite (zread_val _ _ s0) by (rewrite ?Nat2Z.id; lia || done). cbn [obind].
  destruct (stop (Z.of_nat (path (length ks) id i0)) s0) eqn:E.
  - exists i0, s0. repeat split; try done; try lia.
  - assert (i0 <> target) by (intros ->; congruence).
    assert (En : next_index (Z.of_nat (length ks)) (stride_of id)
                   (Z.of_nat (path (length ks) id i0))
                 = Z.of_nat (path (length ks) id (S i0))).
    { pose proof (stride_of_range id). destruct Hg as [Hg _].
      pose proof (pos_range (Z.of_nat (length ks)) (stride_of id) id i0).
      pose proof (pos_range (Z.of_nat (length ks)) (stride_of id) id (S i0)).
      unfold path. rewrite !Z2Nat.id by lia. apply pos_next. lia. }
    rewrite En.
    destruct (IH (S i0) ltac:(lia) ltac:(lia)) as (i & s' & Hi & Hr & Hk & Hst & Hb).
    exists i, s'. repeat split; try done; try lia.
    intros i' s'' Hi' Hk'. destruct (decide (i' = i0)) as [->|]; [congruence|].
    apply Hb; [lia|done].
Qed.

(** The probe ends at the first position on the path where it may stop, if
    there is any such position in the vector. *)
Lemma probe_ok ks stop id :
  good_count (Z.of_nat (length ks)) ->
  (exists j s, ks !! j = Some s /\ stop (Z.of_nat j) s = true) ->
  exists i s, (i < length ks)%nat /\
    probe ks stop id = Val (Z.of_nat (path (length ks) id i), s) /\
    ks !! path (length ks) id i = Some s /\
    stop (Z.of_nat (path (length ks) id i)) s = true /\
    (forall i' s', (i' < i)%nat -> ks !! path (length ks) id i' = Some s' ->
       stop (Z.of_nat (path (length ks) id i')) s' = false).
Proof.
  intros Hg (j & s & Hj & Hst).
  destruct (path_surjective (length ks) id j Hg) as (t & Ht & <-).
  { by apply lookup_lt_Some in Hj. }
  destruct (probe_loop_ok ks stop id t s Hg Hj Hst (S (length ks)) 0 ltac:(lia) ltac:(lia))
    as (i & s' & Hi & Hr & Hk & Hst' & Hb).
  exists i, s'. split; [lia|]. unfold probe. rewrite stride_of_eq. cbn [obind].
  assert (Hp : primary_index id (Z.of_nat (length ks)) = Z.of_nat (path (length ks) id 0)).
  { unfold path, primary_index, pos. destruct Hg as [Hg _].
    replace (id - Z.of_nat 0 * stride_of id) with id by lia.
    pose proof (Z.mod_pos_bound id (Z.of_nat (length ks)) ltac:(lia)).
    rewrite Z2Nat.id; lia. }
  rewrite Hp. repeat split; try done.
  intros i' s'' Hi'. apply Hb. lia.
Qed.

(** Without a position where it may stop, the search goes round forever. *)
Lemma probe_loop_forever ks stop stride fuel index :
  0 < stride < Z.of_nat (length ks) -> 0 <= index < Z.of_nat (length ks) ->
  (forall j s, ks !! j = Some s -> stop (Z.of_nat j) s = false) ->
  probe_loop fuel ks stop stride index = NoFuel.
Proof.
  intros Hs. revert index. induction fuel as [|f IH]; intros index Hi Hno; [done|].
  cbn [probe_loop].
  destruct (lookup_lt_is_Some_2 ks (Z.to_nat index)) as [s0 Hs0]; [lia|].
  rewrite (zread_val _ _ s0) by (lia || done). cbn [obind].
  specialize (Hno _ _ Hs0) as E. rewrite Z2Nat.id in E by lia. rewrite E.
  apply IH; [|done]. unfold next_index. destruct (Z.ltb_spec (index - stride) 0); lia.
Qed.
End Probe.
