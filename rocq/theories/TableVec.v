(** Facts about one table vector: counting entries, searching, rehashing. *)
From Verif Require Import Base TableModel TableSpec TableProbe.
From Coq Require Import ZifyBool ZifyNat.
Open Scope Z_scope.

(** ** Counting *)
Definition cnt {A} (f : A -> bool) (l : list A) : nat := length (List.filter f l).

Lemma cnt_cons {A} (f : A -> bool) a l : cnt f (a :: l) = (Nat.b2n (f a) + cnt f l)%nat.
Proof. unfold cnt. cbn. destruct (f a); done. Qed.

Lemma cnt_insert {A} (f : A -> bool) l j s s' :
  l !! j = Some s ->
  (cnt f (<[j:=s']> l) + Nat.b2n (f s) = cnt f l + Nat.b2n (f s'))%nat.
Proof.
  revert j. induction l as [|a l IH]; intros j Hj; [done|].
  destruct j as [|j]; cbn in Hj.
  - simplify_eq. change (<[0%nat:=s']> (s :: l)) with (s' :: l). rewrite !cnt_cons. lia.
  - change (<[S j:=s']> (a :: l)) with (a :: <[j:=s']> l). rewrite !cnt_cons.
    specialize (IH j Hj). lia.
Qed.

Lemma cnt_le {A} (f : A -> bool) l : (cnt f l <= length l)%nat.
Proof. induction l as [|a l IH]; [done|]. rewrite cnt_cons. cbn. destruct (f a); cbn; lia. Qed.

Lemma cnt_lt_exists {A} (f : A -> bool) l :
  (cnt f l < length l)%nat -> exists j s, l !! j = Some s /\ f s = false.
Proof.
  induction l as [|a l IH]; cbn [length]; [cbn; lia|].
  rewrite cnt_cons. intros H. destruct (f a) eqn:E.
  - cbn [Nat.b2n] in H. destruct IH as (j & s & Hj & Hs); [lia|]. by exists (S j), s.
  - by exists 0%nat, a.
Qed.

Lemma cnt_replicate {A} (f : A -> bool) n a :
  cnt f (replicate n a) = (if f a then n else 0)%nat.
Proof.
  induction n as [|n IH]; cbn [replicate]; [by destruct (f a)|].
  rewrite cnt_cons, IH. destruct (f a); cbn; lia.
Qed.

Lemma cnt_ext2 {A B} (f : A -> bool) (g : B -> bool) l l' :
  Forall2 (fun a b => f a = g b) l l' -> cnt f l = cnt g l'.
Proof. induction 1 as [|a b l l' Hab Hl IH]; [done|]. rewrite !cnt_cons. congruence. Qed.

Lemma cnt_mono {A} (f g : A -> bool) l :
  (forall a, f a = true -> g a = true) -> (cnt f l <= cnt g l)%nat.
Proof.
  intros H. induction l as [|a l IH]; [done|]. rewrite !cnt_cons.
  destruct (f a) eqn:E; [rewrite (H _ E)|]; cbn; [lia|destruct (g a); cbn; lia].
Qed.

(** ** The collector's clock *)
Definition clock_le (c c' : clock) : Prop :=
  (epoch c <= epoch c')%nat /\ (length (schedule c') <= length (schedule c))%nat /\
  ((epoch c < epoch c')%nat -> (length (schedule c') < length (schedule c))%nat).

Lemma clock_le_refl c : clock_le c c.
Proof. unfold clock_le. lia. Qed.

Lemma clock_le_trans c1 c2 c3 : clock_le c1 c2 -> clock_le c2 c3 -> clock_le c1 c3.
Proof. unfold clock_le. lia. Qed.

Lemma clock_le_gc c : clock_le c (gc c).
Proof. unfold clock_le, gc. destruct c as [e [|n s]]; cbn; lia. Qed.

Section Vec.
Context {K V HS : Type} (P : protocol K HS) (since : HS -> option nat).
Context (HC : contract P since).
Implicit Types (ks : list (slot K)) (vs : list (vslot V)) (m : list (K * V)).
Notation tvec := (tvec K V HS).

Definition is_key (s : slot K) : bool := match s with Key _ => true | _ => false end.
Definition is_deleted (s : slot K) : bool := match s with Deleted => true | _ => false end.
Definition is_used (s : slot K) : bool := match s with Empty => false | _ => true end.

(** ** The entries of a pair of vectors *)
Definition ent (s : slot K) (v : vslot V) : list (K * V) :=
  match s, v with Key k, VVal x => [(k, x)] | _, _ => [] end.

Fixpoint entries ks vs : list (K * V) :=
  match ks, vs with
  | s :: ks, v :: vs => ent s v ++ entries ks vs
  | _, _ => []
  end.

Lemma entries_insert ks vs j s v s' v' :
  ks !! j = Some s -> vs !! j = Some v ->
  ent s' v' ++ entries ks vs ≡ₚ ent s v ++ entries (<[j:=s']> ks) (<[j:=v']> vs).
Proof.
  revert vs j. induction ks as [|a ks IH]; intros vs j Hk Hv; [done|].
  destruct vs as [|b vs]; [done|]. destruct j as [|j]; cbn in Hk, Hv.
  - simplify_eq. cbn. rewrite !app_assoc. f_equiv. apply Permutation_app_comm.
  - change (<[S j:=s']> (a :: ks)) with (a :: <[j:=s']> ks).
    change (<[S j:=v']> (b :: vs)) with (b :: <[j:=v']> vs).
    cbn [entries]. specialize (IH vs j Hk Hv).
    rewrite (Permutation_app_swap_app (ent s' v')), (Permutation_app_swap_app (ent s v)).
    by apply Permutation_app_head.
Qed.

Lemma elem_of_entries ks vs k x :
  (k, x) ∈ entries ks vs <-> exists j, ks !! j = Some (Key k) /\ vs !! j = Some (VVal x).
Proof.
  revert vs. induction ks as [|s ks IH]; intros vs.
  - cbn. split; [by intros ?%elem_of_nil|by intros (j & H & _)].
  - destruct vs as [|v vs].
    + cbn. split; [by intros ?%elem_of_nil|]. by intros (j & _ & H).
    + cbn [entries]. rewrite elem_of_app, IH. split.
      * intros [H|(j & Hj & Hv)]; [|by exists (S j)].
        exists 0%nat. unfold ent in H. destruct s, v; try by apply elem_of_nil in H.
        apply elem_of_list_singleton in H. by simplify_eq.
      * intros ([|j] & Hj & Hv); cbn in Hj, Hv; [left|right; by exists j].
        simplify_eq. cbn. by apply elem_of_list_singleton.
Qed.

Definition valued ks vs : Prop :=
  length ks = length vs /\
  forall j k, ks !! j = Some (Key k) -> exists x, vs !! j = Some (VVal x).

Lemma valued_tail s ks v vs : valued (s :: ks) (v :: vs) -> valued ks vs.
Proof.
  intros [Hl Hv]. split; [cbn in Hl; lia|]. intros j k Hj. apply (Hv (S j) k Hj).
Qed.

Lemma length_entries ks vs : valued ks vs -> length (entries ks vs) = cnt is_key ks.
Proof.
  revert vs. induction ks as [|s ks IH]; intros vs Hv; [done|].
  destruct vs as [|v vs]; [by destruct Hv|].
  cbn [entries]. rewrite app_length, cnt_cons, (IH vs) by (by eapply valued_tail).
  f_equal. destruct s; cbn; try done.
  destruct Hv as [_ Hv]. destruct (Hv 0%nat k eq_refl) as [x Hx]. cbn in Hx. by simplify_eq.
Qed.

Lemma valued_insert ks vs j s v :
  valued ks vs -> (forall k, s = Key k -> exists x, v = VVal x) ->
  valued (<[j:=s]> ks) (<[j:=v]> vs).
Proof.
  intros [Hl Hv] Hs. split; [by rewrite !insert_length|].
  intros i k Hi. destruct (decide (i = j)) as [->|Hne].
  - assert (Hj : (j < length ks)%nat).
    { apply lookup_lt_Some in Hi. by rewrite insert_length in Hi. }
    rewrite list_lookup_insert in Hi by done. simplify_eq.
    destruct (Hs k eq_refl) as [x ->]. exists x. apply list_lookup_insert. lia.
  - rewrite list_lookup_insert_ne in Hi by done.
    destruct (Hv i k Hi) as [x Hx]. exists x. by rewrite list_lookup_insert_ne.
Qed.

Lemma entries_replicate n : entries (replicate n Empty) (replicate n VEmpty) = [].
Proof. induction n; [done|]. cbn. done. Qed.

Lemma valued_replicate n : valued (replicate n Empty) (replicate n VEmpty).
Proof.
  split; [by rewrite !replicate_length|]. intros j k Hj.
  apply lookup_replicate in Hj as [? _]. done.
Qed.

(** ** Keys that are pairwise different for the table's test *)
Fixpoint kd (l : list K) : Prop :=
  match l with
  | [] => True
  | k :: l => (forall k', k' ∈ l -> test P k k' = false) /\ kd l
  end.

Lemma test_false_sym k k' : test P k k' = false -> test P k' k = false.
Proof.
  intros H. destruct (test P k' k) eqn:E; [|done].
  apply (test_sym P since HC) in E. congruence.
Qed.

Lemma kd_perm l l' : l ≡ₚ l' -> kd l -> kd l'.
Proof.
  induction 1 as [|x l l' Hp IH|x y l|l1 l2 l3 _ IH1 _ IH2]; cbn; [done| | |by auto].
  - intros [Hx Hl]. split; [|by apply IH]. intros k' Hk'. apply Hx. by rewrite Hp.
  - intros (Hy & Hx & Hl). repeat split; [|intros; apply Hy; by right|done].
    intros k' [->|Hk']%elem_of_cons; [|by apply Hx].
    apply test_false_sym, Hy. by left.
Qed.

Lemma kd_app_inv l1 l2 k k' : kd (l1 ++ l2) -> k ∈ l1 -> k' ∈ l2 -> test P k k' = false.
Proof.
  induction l1 as [|a l1 IH]; cbn; [by intros _ ?%elem_of_nil|].
  intros [Ha Hl] [->|Hk]%elem_of_cons Hk'; [|by apply IH].
  apply Ha. apply elem_of_app. by right.
Qed.

Lemma kd_sub l1 l2 : kd (l1 ++ l2) -> kd l2.
Proof. induction l1; cbn; [done|]. intros [_ H]. by apply IHl1. Qed.

(** Two entries with the same key are at the same position. *)
Definition distinct ks : Prop :=
  forall i j k k', ks !! i = Some (Key k) -> ks !! j = Some (Key k') ->
                   test P k k' = true -> i = j.

Lemma distinct_of_kd ks vs :
  valued ks vs -> kd (map fst (entries ks vs)) -> distinct ks.
Proof.
  revert vs. induction ks as [|s ks IH]; intros vs Hv Hkd i j k k' Hi Hj Ht; [done|].
  destruct vs as [|v vs]; [by destruct Hv|].
  cbn [entries] in Hkd. rewrite map_app in Hkd.
  pose proof (valued_tail _ _ _ _ Hv) as Hv'.
  assert (Hin : forall x j, ks !! j = Some (Key x) -> x ∈ map fst (entries ks vs)).
  { intros x j' Hx. destruct (proj2 Hv' _ _ Hx) as [y Hy].
    apply elem_of_list_In, in_map_iff. exists (x, y). split; [done|].
    apply elem_of_list_In, elem_of_entries. eauto. }
  assert (Hhd : forall x y j', (s :: ks) !! 0%nat = Some (Key x) ->
            ks !! j' = Some (Key y) -> test P x y = true -> False).
  { intros x y j' Hx Hy Hxy. cbn in Hx. simplify_eq.
    destruct (proj2 Hv 0%nat x eq_refl) as [z Hz]. cbn in Hz. simplify_eq.
    cbn in Hkd. destruct Hkd as [H0 _]. rewrite H0 in Hxy; [done|]. eauto. }
  destruct i as [|i], j as [|j].
  - done.
  - exfalso. eapply Hhd; eauto.
  - exfalso. eapply Hhd; [exact Hj|exact Hi|]. by apply (test_sym P since HC).
  - f_equal. eapply (IH vs); eauto. by apply kd_sub in Hkd.
Qed.

(** ** Where a key may be found *)
Definition hid (e : nat) (k : K) : Z := fst (hashf P e k).

Definition covers (h : HS) (k : K) (e0 : nat) : Prop :=
  forall e e', (e0 <= e <= e')%nat -> hs_stale P h e' = false -> hid e k = hid e0 k.

Lemma covers_hash e0 k : covers (snd (hashf P e0 k)) k e0.
Proof. intros e e' He Hs. by apply (hash_covered P since HC) with e'. Qed.

Lemma covers_merge_l h h' k e0 : covers h k e0 -> covers (hs_merge P h h') k e0.
Proof.
  intros H e e' He Hs. apply (merge_covered P since HC) in Hs as [Hs _]. by apply H with e'.
Qed.

Lemma covers_merge_r h h' k e0 : covers h' k e0 -> covers (hs_merge P h h') k e0.
Proof.
  intros H e e' He Hs. apply (merge_covered P since HC) in Hs as [_ Hs]. by apply H with e'.
Qed.

Definition since_ge (h : HS) (e : nat) : Prop :=
  match since h with None => True | Some e0 => (e <= e0)%nat end.

Lemma since_ge_new e : since_ge (hs_new P) e.
Proof. unfold since_ge. by rewrite (since_new P since HC). Qed.

Lemma since_ge_merge h h' e : since_ge h e -> since_ge h' e -> since_ge (hs_merge P h h') e.
Proof.
  unfold since_ge. rewrite (since_merge P since HC).
  destruct (since h), (since h'); try done. lia.
Qed.

Lemma since_ge_hash e k e0 : (e0 <= e)%nat -> since_ge (snd (hashf P e k)) e0.
Proof.
  intros He. unfold since_ge.
  destruct (since_hash P since HC e k) as [->| ->]; [done|lia].
Qed.

Lemma since_ge_stale h e e' : since_ge h e -> hs_stale P h e' = true -> (e < e')%nat.
Proof.
  unfold since_ge. intros H Hs. apply (stale_since P since HC) in Hs as (e0 & He0 & ?).
  rewrite He0 in H. lia.
Qed.

Definition reach ks (id : Z) (j : nat) : Prop :=
  exists i, path (length ks) id i = j /\
            forall i', (i' < i)%nat -> ks !! path (length ks) id i' <> Some Empty.

Definition placed ks (h : HS) (e : nat) : Prop :=
  forall j k, ks !! j = Some (Key k) ->
    exists e0, (e0 <= e)%nat /\ covers h k e0 /\ reach ks (hid e0 k) j.

Lemma reach_insert ks id j x s :
  s <> Empty -> reach ks id j -> reach (<[x:=s]> ks) id j.
Proof.
  intros Hs (i & Hi & Hb). exists i. rewrite insert_length. split; [done|].
  intros i' Hi' Hlk. destruct (decide (path (length ks) id i' = x)) as [<-|Hne].
  - assert (path (length ks) id i' < length ks)%nat.
    { apply lookup_lt_Some in Hlk. by rewrite insert_length in Hlk. }
    rewrite list_lookup_insert in Hlk by done. by simplify_eq.
  - rewrite list_lookup_insert_ne in Hlk by done. by eapply Hb.
Qed.

Lemma placed_mono ks h e e' : (e <= e')%nat -> placed ks h e -> placed ks h e'.
Proof.
  intros He H j k Hj. destruct (H j k Hj) as (e0 & ? & Hc & Hr).
  exists e0. split; [lia|done].
Qed.

Lemma placed_merge_l ks h h' e : placed ks h e -> placed ks (hs_merge P h h') e.
Proof.
  intros H j k Hj. destruct (H j k Hj) as (e0 & ? & Hc & Hr).
  exists e0. split; [done|]. split; [by apply covers_merge_l|done].
Qed.

Lemma placed_insert_key ks h e x k e0 :
  placed ks h e -> (e0 <= e)%nat -> covers h k e0 -> reach ks (hid e0 k) x ->
  placed (<[x:=Key k]> ks) h e.
Proof.
  intros H He Hc Hr j k' Hj. destruct (decide (j = x)) as [->|Hne].
  - assert (Hx : (x < length ks)%nat).
    { apply lookup_lt_Some in Hj. by rewrite insert_length in Hj. }
    rewrite list_lookup_insert in Hj by done. simplify_eq.
    exists e0. repeat split; try done. by apply reach_insert.
  - rewrite list_lookup_insert_ne in Hj by done.
    destruct (H j k' Hj) as (e1 & ? & Hc1 & Hr1). exists e1. repeat split; try done.
    by apply reach_insert.
Qed.

Lemma placed_insert_deleted ks h e x :
  placed ks h e -> placed (<[x:=Deleted]> ks) h e.
Proof.
  intros H j k Hj. destruct (decide (j = x)) as [->|Hne].
  - assert (Hx : (x < length ks)%nat).
    { apply lookup_lt_Some in Hj. by rewrite insert_length in Hj. }
    rewrite list_lookup_insert in Hj by done. by simplify_eq.
  - rewrite list_lookup_insert_ne in Hj by done.
    destruct (H j k Hj) as (e1 & ? & Hc1 & Hr1). exists e1. repeat split; try done.
    by apply reach_insert.
Qed.

(** ** Searching *)
Lemma search_ok ks key id :
  good_count (Z.of_nat (length ks)) -> (cnt is_used ks < length ks)%nat ->
  exists j s, search P ks key id = Val (Z.of_nat j, s) /\ ks !! j = Some s /\
    ((s = Empty /\ reach ks id j /\
      forall j' k', ks !! j' = Some (Key k') -> test P key k' = true -> ~ reach ks id j') \/
     (exists k', s = Key k' /\ test P key k' = true)).
Proof.
  intros Hg Hc.
  destruct (cnt_lt_exists is_used ks Hc) as (x & sx & Hx & Hsx).
  destruct (probe_ok ks (search_stop P key) id Hg) as (i & s & Hi & Hp & Hs & Hst & Hb).
  { exists x, sx. split; [done|]. by destruct sx. }
  exists (path (length ks) id i), s. split; [exact Hp|]. split; [done|].
  destruct s as [| |k']; cbn in Hst; [left|done|right; eauto].
  split; [done|]. split.
  - exists i. split; [done|]. intros i' Hi' He.
    by specialize (Hb i' Empty Hi' He).
  - intros j' k' Hj' Ht (i'' & Hpath & Hne).
    destruct (lt_eq_lt_dec i'' i) as [[Hlt| ->]|Hgt].
    + rewrite <- Hpath in Hj'. specialize (Hb i'' (Key k') Hlt Hj'). cbn in Hb. congruence.
    + congruence.
    + by apply (Hne i Hgt).
Qed.

(** If the search ends at an empty entry and the hash state is not stale
    afterwards, the key is not in the vector. *)
Lemma search_absent ks key h e0 e1 e2 :
  (e0 <= e1 <= e2)%nat ->
  placed ks h e0 -> hs_stale P h e2 = false ->
  (forall j' k', ks !! j' = Some (Key k') -> test P key k' = true ->
     ~ reach ks (hid e1 key) j') ->
  forall j' k', ks !! j' = Some (Key k') -> test P key k' = false.
Proof.
  intros He Hp Hs Hno j' k' Hj'. destruct (test P key k') eqn:E; [|done].
  exfalso. apply (Hno j' k' Hj' E).
  destruct (Hp j' k' Hj') as (e & ? & Hc & Hr).
  assert (hid e1 key = hid e k') as ->; [|done].
  unfold hid at 1. rewrite (hash_test P since HC _ _ _ E). apply Hc with e2; [lia|done].
Qed.

(** ** Rehashing into a copy *)
Lemma entries_drop_S ks vs n s v :
  ks !! n = Some s -> vs !! n = Some v ->
  entries (drop n ks) (drop n vs) = ent s v ++ entries (drop (S n) ks) (drop (S n) vs).
Proof.
  intros Hk Hv. rewrite (drop_S ks s n Hk), (drop_S vs v n Hv). done.
Qed.

Lemma kd_entries_drop ks vs n :
  kd (map fst (entries ks vs)) -> kd (map fst (entries (drop n ks) (drop n vs))).
Proof.
  revert ks vs. induction n as [|n IH]; intros ks vs H; [by rewrite !drop_0|].
  destruct ks as [|s ks]; [done|]. destruct vs as [|v vs].
  - cbn [drop]. destruct (drop n ks); done.
  - cbn [drop]. apply IH. cbn [entries] in H. rewrite map_app in H. by apply kd_sub in H.
Qed.

Lemma cnt_take_S {A} (f : A -> bool) l n a :
  l !! n = Some a -> cnt f (take (S n) l) = (cnt f (take n l) + Nat.b2n (f a))%nat.
Proof.
  intros H. rewrite (take_S_r l n a H). unfold cnt. rewrite List.filter_app, app_length. cbn.
  by destruct (f a).
Qed.

Record copy_inv (src dst : tvec) (n : nat) (h : HS) (count : Z) (c : clock) (e : nat) := {
  ci_good : good_count (Z.of_nat (length (keys dst)));
  ci_valued : valued (keys dst) (vals dst);
  ci_placed : placed (keys dst) h (epoch c);
  ci_used : Z.of_nat (cnt is_used (keys dst)) = count;
  ci_deleted : cnt is_deleted (keys dst) = 0%nat;
  ci_entries : entries (keys dst) (vals dst) ≡ₚ
               entries (drop n (keys src)) (drop n (vals src));
  ci_room : (cnt is_key (take n (keys src)) + cnt is_used (keys dst) < length (keys dst))%nat;
  ci_since : since_ge h e;
  ci_epoch : (e <= epoch c)%nat;
}.

Definition same_header (tv tv' : tvec) : Prop :=
  token tv' = token tv /\ rehashing tv' = rehashing tv /\ limit tv' = limit tv /\
  deletions tv' = deletions tv /\ refs tv' = refs tv /\
  length (keys tv') = length (keys tv).

Lemma copy_loop_ok src e n : forall dst h count c,
  (n <= length (keys src))%nat ->
  valued (keys src) (vals src) -> kd (map fst (entries (keys src) (vals src))) ->
  copy_inv src dst n h count c e ->
  exists dst' c',
    copy_loop P n src dst h count c = Val (dst', c') /\
    clock_le c c' /\ same_header dst dst' /\
    copy_inv src dst' 0 (hstate dst') (additions dst') c' e.
Proof.
  induction n as [|n IH]; intros dst h count c Hn Hv Hkd Hci.
  { eexists _, _. split; [reflexivity|]. split; [apply clock_le_refl|].
    split; [by repeat split|]. destruct Hci. by split. }
  destruct (lookup_lt_is_Some_2 (keys src) n) as [s Hs]; [lia|].
  destruct (lookup_lt_is_Some_2 (vals src) n) as [v0 Hv0]; [destruct Hv; lia|].
  cbn [copy_loop]. rewrite (vread_val _ _ _ Hs). cbn [obind].
  pose proof (ci_entries _ _ _ _ _ _ _ Hci) as Hent.
  destruct s as [| |k].
  - apply IH; [lia|done|done|]. destruct Hci. split; try done.
    + rewrite (entries_drop_S _ _ _ _ _ Hs Hv0). done.
    + rewrite (cnt_take_S _ _ _ _ Hs) in ci_room0. cbn in ci_room0. lia.
  - apply IH; [lia|done|done|]. destruct Hci. split; try done.
    + rewrite (entries_drop_S _ _ _ _ _ Hs Hv0). done.
    + rewrite (cnt_take_S _ _ _ _ Hs) in ci_room0. cbn in ci_room0. lia.
  - destruct (proj2 Hv n k Hs) as [x Hx]. simplify_eq.
    pose proof (ci_room _ _ _ _ _ _ _ Hci) as Hroom.
    rewrite (cnt_take_S _ _ _ _ Hs) in Hroom. cbn [is_key Nat.b2n] in Hroom.
    unfold hash. destruct (hashf P (epoch (gc c)) k) as [id hh] eqn:Eh.
    destruct (search_ok (keys dst) k id (ci_good _ _ _ _ _ _ _ Hci)) as (j & s & Hse & Hj & Hcase);
      [lia|].
    rewrite Hse. cbn [obind].
    assert (s = Empty /\ reach (keys dst) id j) as [-> Hreach].
    { destruct Hcase as [(-> & Hr & _)|(k' & -> & Ht)]; [done|]. exfalso.
      destruct (proj2 (ci_valued _ _ _ _ _ _ _ Hci) j k' Hj) as [y Hy].
      assert (Hin : (k', y) ∈ entries (keys dst) (vals dst)) by (apply elem_of_entries; eauto).
      rewrite Hent in Hin.
      pose proof (kd_entries_drop _ _ n Hkd) as Hkd'.
      rewrite (entries_drop_S _ _ _ _ _ Hs Hv0) in Hkd'. cbn in Hkd'.
      destruct Hkd' as [Hkd' _]. rewrite Hkd' in Ht; [done|].
      apply elem_of_list_In, in_map_iff. exists (k', y). split; [done|].
      by apply elem_of_list_In. }
    assert (Hjl : (j < length (keys dst))%nat) by (by apply lookup_lt_Some in Hj).
    pose proof (ci_valued _ _ _ _ _ _ _ Hci) as [Hvl _].
    rewrite zwrite_val by lia. cbn [obind]. rewrite (vread_val _ _ _ Hv0). cbn [obind].
    rewrite zwrite_val by lia. cbn [obind]. rewrite !Nat2Z.id.
    destruct (lookup_lt_is_Some_2 (vals dst) j) as [vj Hvj]; [lia|].
    pose proof (cnt_insert is_used _ _ _ (Key k) Hj) as Hcu. cbn [is_used Nat.b2n] in Hcu.
    destruct (IH (with_entries dst (<[j:=Key k]> (keys dst)) (<[j:=VVal x]> (vals dst)))
                (hs_merge P h hh) (count + 1) (gc c)) as (dst' & c' & Hrun & Hle & Hhd & Hci').
    + lia.
    + done.
    + done.
    + pose proof (clock_le_gc c) as (Hgc & _ & _).
      destruct Hci. split; cbn [keys vals with_entries]; try done.
      * by rewrite insert_length.
      * apply valued_insert; [done|]. intros k' Hk'. eauto.
      * apply placed_insert_key with (epoch (gc c)); [|done| |].
        -- apply placed_merge_l. by eapply placed_mono.
        -- apply covers_merge_r. replace hh with (snd (hashf P (epoch (gc c)) k)) by (by rewrite Eh).
           apply covers_hash.
        -- unfold hid. by rewrite Eh.
      * lia.
      * pose proof (cnt_insert is_deleted _ _ _ (Key k) Hj) as Hcd. cbn [is_deleted Nat.b2n] in Hcd. lia.
      * rewrite (entries_drop_S _ _ _ _ _ Hs Hv0). cbn [ent app].
        rewrite <- ci_entries0.
        pose proof (entries_insert _ _ _ _ _ (Key k) (VVal x) Hj Hvj) as HI.
        cbn [ent app] in HI. by rewrite <- HI.
      * rewrite insert_length. lia.
      * apply since_ge_merge; [done|].
        replace hh with (snd (hashf P (epoch (gc c)) k)) by (by rewrite Eh).
        apply since_ge_hash. lia.
      * lia.
    + exists dst', c'. split; [exact Hrun|]. split.
      { eapply clock_le_trans; [apply clock_le_gc|done]. }
      split; [|done].
      destruct Hhd as (?&?&?&?&?&Hlen). repeat split; try done.
      cbn in Hlen. by rewrite insert_length in Hlen.
Qed.

(** ** Rehashing in place *)
Notation rstate := (rstate (K := K) (V := V) (HS := HS)).

Definition reachb (bits : list bool) (id : Z) (j : nat) : Prop :=
  exists i, path (length bits) id i = j /\
            forall i', (i' < i)%nat -> bits !! path (length bits) id i' = Some true.

Record place_inv (m : list (K * V)) (N n : nat) (pending : list (K * V)) (r : rstate) (e : nat) := {
  pi_good : good_count (Z.of_nat N);
  pi_lk : length (r_keys r) = N;
  pi_lb : length (r_bits r) = N;
  pi_valued : valued (r_keys r) (r_vals r);
  pi_entries : pending ++ entries (r_keys r) (r_vals r) ≡ₚ m;
  pi_room : (length m < N)%nat;
  pi_bits : forall j, r_bits r !! j = Some true ->
    exists k, r_keys r !! j = Some (Key k) /\
    exists e0, (e0 <= epoch (r_clk r))%nat /\ covers (r_state r) k e0 /\
               reachb (r_bits r) (hid e0 k) j;
  pi_clean : forall j, (n <= j)%nat -> r_bits r !! j = Some false -> r_keys r !! j = Some Empty;
  pi_count : r_count r = Z.of_nat (cnt id (r_bits r));
  pi_since : since_ge (r_state r) e;
  pi_epoch : (e <= epoch (r_clk r))%nat;
}.

Lemma reachb_insert bits id j x :
  reachb bits id j -> reachb (<[x:=true]> bits) id j.
Proof.
  intros (i & Hi & Hb). exists i. rewrite insert_length. split; [done|].
  intros i' Hi'. specialize (Hb i' Hi').
  destruct (decide (path (length bits) id i' = x)) as [<-|Hne].
  - apply list_lookup_insert. by apply lookup_lt_Some in Hb.
  - by rewrite list_lookup_insert_ne.
Qed.

Lemma store_next_ok m N n e fuel : forall (k : slot K) (v : vslot V) (r : rstate),
  (forall key, k = Key key -> exists x, v = VVal x) ->
  place_inv m N n (ent k v) r e ->
  (N - cnt id (r_bits r) < fuel)%nat ->
  exists r', store_next P fuel k v r = Val r' /\ clock_le (r_clk r) (r_clk r') /\
             place_inv m N n [] r' e.
Proof.
  induction fuel as [|f IH]; intros k v r Hkv Hpi Hf; [lia|].
  cbn [store_next]. destruct k as [| |key].
  1, 2: exists r; split; [done|]; split; [apply clock_le_refl|done].
  destruct (Hkv key eq_refl) as [x ->].
  unfold hash. destruct (hashf P (epoch (gc (r_clk r))) key) as [id h] eqn:Eh.
  pose proof (pi_lk _ _ _ _ _ _ Hpi) as Hlk. pose proof (pi_lb _ _ _ _ _ _ Hpi) as Hlb.
  pose proof (pi_good _ _ _ _ _ _ Hpi) as Hgood.
  pose proof (pi_valued _ _ _ _ _ _ Hpi) as Hval.
  pose proof (pi_entries _ _ _ _ _ _ Hpi) as Hent.
  pose proof (pi_room _ _ _ _ _ _ Hpi) as Hroom.
  unfold find_rehash_insertion_point.
  destruct (probe_ok (r_keys r) (insertion_stop (r_bits r)) id) as (i & s & Hi & Hp & Hs & Hst & Hb).
  { by rewrite Hlk. }
  { destruct (cnt_lt_exists is_key (r_keys r)) as (j & s & Hj & Hs).
    - rewrite <- (length_entries _ _ Hval). apply Permutation_length in Hent.
      cbn in Hent. lia.
    - exists j, s. split; [done|]. by destruct s. }
  rewrite Hp. cbn [obind]. set (j := path (length (r_keys r)) id i) in *.
  assert (Hjl : (j < N)%nat) by (apply lookup_lt_Some in Hs; lia).
  destruct (lookup_lt_is_Some_2 (r_bits r) j) as [b Hbj]; [lia|].
  assert (b = false) as ->.
  { destruct b; [|done]. destruct (pi_bits _ _ _ _ _ _ Hpi j Hbj) as (k' & Hk' & _).
    simplify_eq. cbn in Hst. rewrite Nat2Z.id, Hbj in Hst. done. }
  destruct (lookup_lt_is_Some_2 (r_vals r) j) as [nv Hnv]; [destruct Hval; lia|].
  rewrite (zread_val _ _ nv) by (rewrite ?Nat2Z.id; lia || done). cbn [obind].
  rewrite !zwrite_val by (destruct Hval; lia). cbn [obind]. rewrite !Nat2Z.id.
  pose proof (cnt_insert Datatypes.id _ _ _ true Hbj) as Hcb. cbn [Datatypes.id Nat.b2n] in Hcb.
  pose proof (clock_le_gc (r_clk r)) as Hgc.
  match goal with |- context [store_next P f s nv ?r1] =>
    destruct (IH s nv r1) as (r' & Hr' & Hle & Hpi') end.
  - intros k' ->. destruct (proj2 Hval j k' Hs) as [y Hy]. simplify_eq. eauto.
  - destruct Hpi as [_ _ _ _ _ _ Hbits Hclean Hcount Hsince Hepoch].
    split; cbn [r_keys r_vals r_bits r_count r_state r_clk]; try done.
    + by rewrite insert_length.
    + by rewrite insert_length.
    + apply valued_insert; [done|]. intros k' Hk'. eauto.
    + rewrite <- Hent. rewrite <- (entries_insert _ _ _ _ _ (Key key) (VVal x) Hs Hnv). done.
    + intros j' Hj'. destruct (decide (j' = j)) as [->|Hne].
      * exists key. split; [apply list_lookup_insert; lia|].
        exists (epoch (gc (r_clk r))). split; [lia|]. split.
        -- apply covers_merge_r.
           replace h with (snd (hashf P (epoch (gc (r_clk r))) key)) by (by rewrite Eh).
           apply covers_hash.
        -- apply reachb_insert. unfold hid. rewrite Eh. cbn [fst].
           exists i. rewrite Hlb, <- Hlk. split; [done|].
           intros i' Hi'.
           destruct (lookup_lt_is_Some_2 (r_keys r) (path (length (r_keys r)) id i')) as [s' Hs'].
           { apply path_lt. destruct Hgood. lia. }
           specialize (Hb i' s' Hi' Hs').
           destruct s' as [| |k']; cbn in Hb; try done. rewrite Nat2Z.id in Hb.
           destruct (r_bits r !! path (length (r_keys r)) id i') as [[]|]; done.
      * rewrite list_lookup_insert_ne in Hj' by done.
        destruct (Hbits j' Hj') as (k' & Hk' & e0 & He0 & Hcov & Hre).
        exists k'. split; [by rewrite list_lookup_insert_ne|].
        exists e0. destruct Hgc as (? & _ & _). split; [lia|].
        split; [by apply covers_merge_l|by apply reachb_insert].
    + intros j' Hn Hj'. destruct (decide (j' = j)) as [->|Hne].
      * rewrite list_lookup_insert in Hj' by lia. done.
      * rewrite list_lookup_insert_ne in Hj' by done.
        rewrite list_lookup_insert_ne by done. by apply Hclean.
    + lia.
    + apply since_ge_merge; [done|].
      replace h with (snd (hashf P (epoch (gc (r_clk r))) key)) by (by rewrite Eh).
      destruct Hgc as (? & _ & _). apply since_ge_hash. lia.
    + destruct Hgc as (? & _ & _). lia.
  - cbn [r_bits]. pose proof (cnt_le Datatypes.id (<[j:=true]> (r_bits r))) as Hle.
    rewrite insert_length in Hle. lia.
  - exists r'. split; [exact Hr'|]. split; [|done].
    eapply clock_le_trans; [exact Hgc|exact Hle].
Qed.

Lemma in_place_loop_ok m N e n : forall (r : rstate),
  (n <= N)%nat -> place_inv m N n [] r e ->
  exists r', in_place_loop P n r = Val r' /\ clock_le (r_clk r) (r_clk r') /\
             place_inv m N 0 [] r' e.
Proof.
  induction n as [|n IH]; intros r Hn Hpi.
  { exists r. split; [done|]. split; [apply clock_le_refl|done]. }
  pose proof (pi_lk _ _ _ _ _ _ Hpi) as Hlk. pose proof (pi_lb _ _ _ _ _ _ Hpi) as Hlb.
  pose proof (pi_valued _ _ _ _ _ _ Hpi) as Hval.
  cbn [in_place_loop].
  destruct (lookup_lt_is_Some_2 (r_bits r) n) as [b Hb]; [lia|].
  rewrite (vread_val _ _ _ Hb). cbn [obind]. destruct b.
  { apply IH; [lia|]. destruct Hpi. split; try done.
    intros j Hj Hjb. destruct (decide (j = n)) as [->|]; [congruence|].
    apply pi_clean0; [lia|done]. }
  destruct (lookup_lt_is_Some_2 (r_keys r) n) as [k Hk]; [lia|].
  destruct (lookup_lt_is_Some_2 (r_vals r) n) as [v Hv]; [destruct Hval; lia|].
  rewrite (vread_val _ _ _ Hk), (vread_val _ _ _ Hv). cbn [obind].
  rewrite !vwrite_val by (destruct Hval; lia). cbn [obind].
  match goal with |- context [store_next P ?f k v ?r1] =>
    destruct (store_next_ok m N n e f k v r1) as (r2 & Hr2 & Hle & Hpi2) end.
  - intros key ->. destruct (proj2 Hval n key Hk) as [y Hy]. simplify_eq. eauto.
  - destruct Hpi as [Hgood _ _ _ Hent Hroom Hbits Hclean Hcount Hsince Hepoch].
    split; cbn [r_keys r_vals r_bits r_count r_state r_clk]; try done.
    + by rewrite insert_length.
    + apply valued_insert; [done|]. intros k' Hk'. done.
    + rewrite <- Hent. rewrite <- (entries_insert _ _ _ _ _ Empty VEmpty Hk Hv). done.
    + intros j Hj. destruct (Hbits j Hj) as (k' & Hk' & Hrest).
      exists k'. split; [|done]. destruct (decide (j = n)) as [->|Hne]; [congruence|].
      by rewrite list_lookup_insert_ne.
    + intros j Hj Hjb. destruct (decide (j = n)) as [->|Hne].
      * apply list_lookup_insert. lia.
      * rewrite list_lookup_insert_ne by done. apply Hclean; [lia|done].
  - cbn [r_bits]. lia.
  - rewrite Hr2. cbn [obind].
    destruct (IH r2 ltac:(lia) Hpi2) as (r' & Hr' & Hle' & Hpi').
    exists r'. split; [done|]. split; [|done]. eapply clock_le_trans; [exact Hle|exact Hle'].
Qed.

Lemma reachb_reach ks bits id j :
  length bits = length ks ->
  (forall j, bits !! j = Some true -> exists k, ks !! j = Some (Key k)) ->
  reachb bits id j -> reach ks id j.
Proof.
  intros Hl Hb (i & Hi & Ht). exists i. rewrite <- Hl. split; [done|].
  intros i' Hi' He. destruct (Hb _ (Ht i' Hi')) as [k Hk]. congruence.
Qed.

(** ** The invariant of a table vector *)
Record vec_ok (tv : tvec) : Prop := {
  v_good : good_count (Z.of_nat (length (keys tv)));
  v_limit : 0 < limit tv < Z.of_nat (length (keys tv));
  v_valued : valued (keys tv) (vals tv);
  v_kd : kd (map fst (entries (keys tv) (vals tv)));
  v_add : additions tv = Z.of_nat (cnt is_used (keys tv));
  v_del : deletions tv = Z.of_nat (cnt is_deleted (keys tv));
  v_room : additions tv <= limit tv;
}.

Lemma cnt_used_key_deleted ks : cnt is_used ks = (cnt is_key ks + cnt is_deleted ks)%nat.
Proof. induction ks as [|s ks IH]; [done|]. rewrite !cnt_cons. destruct s; cbn; lia. Qed.

Lemma vec_ok_present tv :
  vec_ok tv ->
  present_entry_count tv = Z.of_nat (length (entries (keys tv) (vals tv))).
Proof.
  intros H. unfold present_entry_count.
  rewrite (v_add _ H), (v_del _ H), (length_entries _ _ (v_valued _ H)), cnt_used_key_deleted. lia.
Qed.

Lemma vec_ok_free tv : vec_ok tv -> (cnt is_used (keys tv) < length (keys tv))%nat.
Proof. intros H. pose proof (v_add _ H). pose proof (v_room _ H). pose proof (v_limit _ H). lia. Qed.

Lemma vec_ok_distinct tv : vec_ok tv -> distinct (keys tv).
Proof. intros H. eapply distinct_of_kd; [apply v_valued|apply v_kd]; done. Qed.

Lemma make_table_vector_ok desired :
  desired <= max_entries ->
  exists tv, make_table_vector P (V := V) desired = Val tv /\
    vec_ok tv /\ entries (keys tv) (vals tv) = [] /\ desired <= limit tv /\
    rehashing tv = false /\ hstate tv = hs_new P /\ refs tv = 0 /\ additions tv = 0 /\
    deletions tv = 0 /\ placed (keys tv) (hstate tv) 0.
Proof.
  intros Hd. destruct (compute_entry_count_ok desired Hd) as (n & Hn & Hg & Hle & Hlt).
  unfold make_table_vector. rewrite Hn. cbn [obind].
  eexists. split; [reflexivity|].
  cbn [keys vals additions deletions limit rehashing hstate refs token].
  assert (Hnn : Z.of_nat (Z.to_nat n) = n) by (destruct Hg; lia).
  split; [|repeat split; try done].
  - split; cbn [keys vals additions deletions limit rehashing hstate refs token];
      rewrite ?replicate_length, ?Hnn; try done.
    + apply valued_replicate.
    + by rewrite entries_replicate.
    + by rewrite cnt_replicate.
    + by rewrite cnt_replicate.
    + lia.
  - by rewrite entries_replicate.
  - intros j k Hj. apply lookup_replicate in Hj as [? _]. done.
Qed.

Lemma rehash_into_copy_ok src dst c :
  vec_ok src -> vec_ok dst -> entries (keys dst) (vals dst) = [] ->
  hstate dst = hs_new P -> additions dst = 0 -> deletions dst = 0 ->
  present_entry_count src <= limit dst ->
  exists dst' c', rehash_into_copy P src dst c = Val (dst', c') /\
    clock_le c c' /\ same_header dst dst' /\ vec_ok dst' /\
    entries (keys dst') (vals dst') ≡ₚ entries (keys src) (vals src) /\
    placed (keys dst') (hstate dst') (epoch c') /\
    since_ge (hstate dst') (epoch c) /\
    additions dst' = present_entry_count src.
Proof.
  intros Hs Hd He Hh Ha Hdel Hp. unfold rehash_into_copy.
  assert (Hu : cnt is_used (keys dst) = 0%nat) by (pose proof (v_add _ Hd); lia).
  destruct (copy_loop_ok src (epoch c) (length (keys src)) dst (hstate dst) 0 c)
    as (dst' & c' & Hrun & Hle & Hhd & Hci).
  - done.
  - apply Hs.
  - apply Hs.
  - split; try apply Hd.
    + intros j k Hj. exfalso.
      assert (cnt is_used (keys dst) <> 0)%nat; [|done].
      pose proof (cnt_insert is_used _ _ _ Empty Hj) as Hc. cbn in Hc. lia.
    + lia.
    + pose proof (v_del _ Hd). lia.
    + rewrite He. rewrite drop_ge by done. done.
    + rewrite Hu. rewrite take_ge by done.
      rewrite <- (length_entries _ _ (v_valued _ Hs)).
      rewrite (vec_ok_present _ Hs) in Hp. pose proof (v_limit _ Hd). lia.
    + rewrite Hh. apply since_ge_new.
    + done.
  - exists dst', c'. split; [done|]. split; [done|]. split; [done|].
    destruct Hci. rewrite !drop_0 in *.
    destruct Hhd as (Htok & Hre & Hlim & Hdl & Href & Hlen).
    assert (Hadd : additions dst' = present_entry_count src).
    { rewrite (vec_ok_present _ Hs). rewrite <- ci_used0.
      rewrite cnt_used_key_deleted, ci_deleted0, <- (length_entries _ _ ci_valued0).
      rewrite ci_entries0. lia. }
    split; [|repeat split; try done].
    split; try done.
    + rewrite Hlim, Hlen. apply Hd.
    + eapply kd_perm; [|apply (v_kd _ Hs)]. symmetry. by apply Permutation_map.
    + rewrite Hdl, Hdel, ci_deleted0. done.
    + rewrite Hlim. lia.
Qed.

Lemma rehash_in_place_ok tv c :
  vec_ok tv ->
  exists tv' c', rehash_in_place P tv c = Val (tv', c') /\
    clock_le c c' /\ vec_ok tv' /\
    entries (keys tv') (vals tv') ≡ₚ entries (keys tv) (vals tv) /\
    placed (keys tv') (hstate tv') (epoch c') /\
    since_ge (hstate tv') (epoch c) /\
    token tv' = S (token tv) /\ rehashing tv' = false /\ limit tv' = limit tv /\
    refs tv' = refs tv /\ length (keys tv') = length (keys tv) /\
    additions tv' = present_entry_count tv /\ deletions tv' = 0.
Proof.
  intros Hok. unfold rehash_in_place.
  destruct (in_place_loop_ok (entries (keys tv) (vals tv)) (length (keys tv)) (epoch c)
              (length (keys tv))
              (RState (keys tv) (vals tv) (replicate (length (keys tv)) false) 0 (hs_new P) c))
    as (r & Hr & Hle & Hpi).
  - done.
  - split; cbn [r_keys r_vals r_bits r_count r_state r_clk app]; try done; try apply Hok.
    + apply replicate_length.
    + rewrite (length_entries _ _ (v_valued _ Hok)).
      pose proof (vec_ok_free _ Hok). rewrite cnt_used_key_deleted in *. lia.
    + intros j Hj. apply lookup_replicate in Hj as [? _]. done.
    + intros j Hj Hb. apply lookup_lt_Some in Hb. rewrite replicate_length in Hb. lia.
    + by rewrite cnt_replicate.
    + apply since_ge_new.
  - rewrite Hr. cbn [obind]. cbn [r_clk] in Hle.
    destruct Hpi as [Hgood Hlk Hlb Hval Hent Hroom Hbits Hclean Hcount Hsince Hepoch].
    eexists _, _. split; [reflexivity|]. split; [exact Hle|].
    cbn [with_new_token keys vals additions deletions limit rehashing hstate refs token].
    cbn [app] in Hent.
    assert (Hall : Forall2 (fun s b => is_used s = Datatypes.id b) (r_keys r) (r_bits r)).
    { apply Forall2_same_length_lookup_2; [lia|]. intros j s b Hs Hb. destruct b.
      - destruct (Hbits j Hb) as (k & Hk & _). by simplify_eq.
      - rewrite (Hclean j) in Hs by (lia || done). by simplify_eq. }
    assert (Hall' : Forall2 (fun s b => is_deleted s = (fun _ => false) b) (r_keys r) (r_bits r)).
    { apply Forall2_same_length_lookup_2; [lia|]. intros j s b Hs Hb. destruct b.
      - destruct (Hbits j Hb) as (k & Hk & _). by simplify_eq.
      - rewrite (Hclean j) in Hs by (lia || done). by simplify_eq. }
    pose proof (cnt_ext2 _ _ _ _ Hall) as Hu. pose proof (cnt_ext2 _ _ _ _ Hall') as Hd.
    assert (Hd0 : cnt is_deleted (r_keys r) = 0%nat).
    { rewrite Hd. clear. unfold cnt. induction (r_bits r); done. }
    assert (Hadd : r_count r = present_entry_count tv).
    { rewrite (vec_ok_present _ Hok), Hcount, <- Hu, cnt_used_key_deleted, Hd0.
      rewrite <- (length_entries _ _ Hval), Hent. lia. }
    split; [|repeat split; try done].
    + split; cbn [with_new_token keys vals additions deletions limit rehashing hstate refs token];
        rewrite ?Hlk; try apply Hok; try done.
      * eapply kd_perm; [|apply (v_kd _ Hok)]. symmetry. by apply Permutation_map.
      * rewrite Hcount. by rewrite <- Hu.
      * rewrite Hd0. done.
      * rewrite Hadd. unfold present_entry_count.
        pose proof (v_room _ Hok). pose proof (v_del _ Hok). lia.
    + intros j k Hj. destruct (lookup_lt_is_Some_2 (r_bits r) j) as [b Hb].
      { apply lookup_lt_Some in Hj. lia. }
      destruct b; [|rewrite (Hclean j) in Hj by (lia || done); done].
      destruct (Hbits j Hb) as (k' & Hk' & e0 & ? & Hcov & Hre). simplify_eq.
      exists e0. repeat split; try done. eapply reachb_reach; [|  |exact Hre]; [lia|].
      intros j' Hj'. destruct (Hbits j' Hj') as (k'' & ? & _). eauto.
Qed.

End Vec.
