(** The operations of a table on its current vector. *)
From Verif Require Import Base TableModel TableSpec TableProbe TableVec.
From Coq Require Import ZifyBool ZifyNat.
Open Scope Z_scope.

(** ** The finite map *)
Section Map.
Context {K V HS : Type} (P : protocol K HS) (since : HS -> option nat).
Context (HC : contract P since).
Implicit Types (m : list (K * V)).
Notation mget := (mget (V := V) (test P)).
Notation mset := (mset (V := V) (test P)).
Notation mdel := (mdel (V := V) (test P)).
Notation kd := (kd P).

Lemma elem_of_map_fst m k v : (k, v) ∈ m -> k ∈ map fst m.
Proof.
  intros H. apply elem_of_list_In, in_map_iff. exists (k, v).
  split; [done|]. by apply elem_of_list_In.
Qed.

Lemma elem_of_map_fst_inv m k : k ∈ map fst m -> exists v, (k, v) ∈ m.
Proof.
  intros H. apply elem_of_list_In, in_map_iff in H as ([k' v] & <- & H).
  exists v. by apply elem_of_list_In.
Qed.

Lemma mget_none m k :
  (forall k' v, (k', v) ∈ m -> test P k k' = false) -> mget m k = None.
Proof.
  unfold mget. induction m as [|[a x] m IH]; intros H; [done|]. cbn.
  rewrite (H a x) by left. apply IH. intros k' v Hin. apply (H k' v). by right.
Qed.

Lemma mget_some m k k' v :
  kd (map fst m) -> (k', v) ∈ m -> test P k k' = true -> mget m k = Some v.
Proof.
  unfold mget. induction m as [|[a x] m IH]; intros Hkd Hin Ht; [by apply elem_of_nil in Hin|].
  cbn in Hkd. destruct Hkd as [Ha Hkd]. cbn.
  apply elem_of_cons in Hin as [Heq|Hin].
  - simplify_eq. by rewrite Ht.
  - destruct (test P k a) eqn:E; [|by apply IH].
    exfalso. assert (test P a k' = true) as Hak.
    { eapply (test_trans P since HC); [|exact Ht]. by apply (test_sym P since HC). }
    rewrite (Ha k') in Hak; [done|]. by eapply elem_of_map_fst.
Qed.

Lemma mget_Some_inv m k v : mget m k = Some v -> exists k', (k', v) ∈ m /\ test P k k' = true.
Proof.
  unfold mget. intros H. apply fmap_Some in H as ([k' x] & Hf & ->).
  apply find_some in Hf as [Hin Ht]. exists k'. split; [by apply elem_of_list_In|done].
Qed.

Lemma mget_None_inv m k k' v : mget m k = None -> (k', v) ∈ m -> test P k k' = false.
Proof.
  unfold mget. intros H Hin. apply fmap_None in H.
  eapply (find_none _ _ H (k', v)). by apply elem_of_list_In.
Qed.

Lemma mset_new m k v : mget m k = None -> mset m k v = (k, v) :: m.
Proof.
  intros H. unfold mset.
  destruct (existsb (fun p => test P k p.1) m) eqn:E; [|done].
  apply existsb_exists in E as ([k' x] & Hin & Ht). cbn in Ht.
  rewrite (mget_None_inv _ _ k' x H) in Ht; [done|]. by apply elem_of_list_In.
Qed.

Lemma map_replace_absent m k v :
  (forall k' x, (k', x) ∈ m -> test P k k' = false) ->
  map (fun p : K * V => if test P k p.1 then (p.1, v) else p) m = m.
Proof.
  induction m as [|[a x] m IH]; intros H; [done|]. cbn.
  rewrite (H a x) by left. f_equal. apply IH. intros k' y Hin. apply (H k' y). by right.
Qed.

Lemma mset_old m k k' x v rest :
  kd (map fst m) -> m ≡ₚ (k', x) :: rest -> test P k k' = true ->
  mset m k v ≡ₚ (k', v) :: rest.
Proof.
  intros Hkd Hp Ht. unfold mset.
  assert (existsb (fun p => test P k p.1) m = true) as ->.
  { apply existsb_exists. exists (k', x). split; [|done].
    apply elem_of_list_In. rewrite Hp. left. }
  rewrite (Permutation_map _ Hp). cbn. rewrite Ht.
  rewrite map_replace_absent; [done|]. intros k2 y Hin.
  assert (Hkd' : kd (map fst ((k', x) :: rest))).
  { eapply (kd_perm P since HC); [|exact Hkd]. by apply Permutation_map. }
  cbn in Hkd'. destruct Hkd' as [Hk' _].
  destruct (test P k k2) eqn:E; [|done].
  rewrite <- (Hk' k2) by (by eapply elem_of_map_fst). symmetry.
  eapply (test_trans P since HC); [|exact E]. by apply (test_sym P since HC).
Qed.

Lemma mset_keys_old m k v :
  (exists k' x, (k', x) ∈ m /\ test P k k' = true) -> map fst (mset m k v) = map fst m.
Proof.
  intros (k' & x & Hin & Ht). unfold mset.
  assert (existsb (fun p => test P k p.1) m = true) as ->.
  { apply existsb_exists. exists (k', x). split; [by apply elem_of_list_In|done]. }
  rewrite map_map. apply map_ext. intros [a y]. cbn. by destruct (test P k a).
Qed.

Lemma length_mset_le m k v : (length (mset m k v) <= S (length m))%nat.
Proof. unfold mset. destruct existsb; cbn; rewrite ?map_length; lia. Qed.

Lemma mdel_absent m k :
  (forall k' x, (k', x) ∈ m -> test P k k' = false) -> mdel m k = m.
Proof.
  unfold mdel. induction m as [|[a x] m IH]; intros H; [done|]. cbn.
  rewrite (H a x) by left. cbn. f_equal. apply IH. intros k' y Hin. apply (H k' y). by right.
Qed.

Lemma filter_perm {A} (f : A -> bool) l l' : l ≡ₚ l' -> List.filter f l ≡ₚ List.filter f l'.
Proof.
  induction 1 as [|x l l' _ IH|x y l|l1 l2 l3 _ IH1 _ IH2]; cbn; [done| | |by etrans].
  - destruct (f x); [by constructor|done].
  - destruct (f x), (f y); try done. constructor.
Qed.

Lemma mdel_present m k k' x rest :
  kd (map fst m) -> m ≡ₚ (k', x) :: rest -> test P k k' = true -> mdel m k ≡ₚ rest.
Proof.
  intros Hkd Hp Ht. unfold mdel. rewrite (filter_perm _ _ _ Hp). cbn. rewrite Ht. cbn.
  assert (Hkd' : kd (map fst ((k', x) :: rest))).
  { eapply (kd_perm P since HC); [|exact Hkd]. by apply Permutation_map. }
  cbn in Hkd'. destruct Hkd' as [Hk' _].
  change (mdel rest k ≡ₚ rest). rewrite mdel_absent; [done|]. intros k2 y Hin.
  destruct (test P k k2) eqn:E; [|done].
  rewrite <- (Hk' k2) by (by eapply elem_of_map_fst). symmetry.
  eapply (test_trans P since HC); [|exact E]. by apply (test_sym P since HC).
Qed.

End Map.

Section Ops.
Context {K V HS : Type} (P : protocol K HS) (since : HS -> option nat).
Context (HC : contract P since).
Implicit Types (m : list (K * V)).
Notation tvec := (tvec K V HS).
Notation table := (table K V HS).
Notation istate := (istate K).
Notation mget := (mget (V := V) (test P)).
Notation mset := (mset (V := V) (test P)).
Notation mdel := (mdel (V := V) (test P)).
Notation kd := (kd P).
Notation vec_ok := (vec_ok P (V := V) (HS := HS)).
Notation since_ge := (since_ge since).
Notation placed := (placed P).

(** ** The invariant of a table that represents the map [m] *)
Record core (t : table) (tv : tvec) (m : list (K * V)) : Prop := {
  c_cur : vectors t !! current t = Some tv;
  c_valid : rehashing tv = false;
  c_vec : vec_ok tv;
  c_map : entries (keys tv) (vals tv) ≡ₚ m;
  c_placed : placed (keys tv) (hstate tv) (epoch (clk t));
  c_weak : weak t = false;
  c_initial : initial t <= max_entries;
}.

(** What holds of every vector that was ever used. *)
Definition shape (tv : tvec) : Prop := valued (keys tv) (vals tv) /\ distinct P (keys tv).

Record tab_ok (t : table) (m : list (K * V)) : Prop := {
  t_core : exists tv, core t tv m;
  t_shape : forall i tv, vectors t !! i = Some tv -> shape tv;
  t_marked : forall i tv, vectors t !! i = Some tv -> i <> current t -> rehashing tv = true;
}.

(** What a state that refers to a vector of [t] finds in [t']. *)
Definition keeps (t t' : table) : Prop :=
  (forall i tv, vectors t !! i = Some tv ->
     exists tv', vectors t' !! i = Some tv' /\ refs tv' = refs tv /\
       (refs tv <> 0 -> keys tv' = keys tv /\ vals tv' = vals tv /\ token tv' = token tv)) /\
  (forall i tv', vectors t' !! i = Some tv' -> vectors t !! i = None -> refs tv' = 0) /\
  (current t' = current t \/ (length (vectors t) <= current t')%nat).

Lemma keeps_refl t : keeps t t.
Proof.
  split; [|split; [|by left]].
  - intros i tv Hi. exists tv. done.
  - intros i tv' H H'. congruence.
Qed.

Lemma keeps_length t t' : keeps t t' -> (length (vectors t) <= length (vectors t'))%nat.
Proof.
  intros (H & _ & _). destruct (decide (length (vectors t) = 0%nat)) as [->|Hne]; [lia|].
  destruct (lookup_lt_is_Some_2 (vectors t) (length (vectors t) - 1)) as [tv Htv]; [lia|].
  destruct (H _ _ Htv) as (tv' & Htv' & _). apply lookup_lt_Some in Htv'. lia.
Qed.

Lemma keeps_trans t1 t2 t3 : keeps t1 t2 -> keeps t2 t3 -> keeps t1 t3.
Proof.
  intros H12 H23. pose proof (keeps_length _ _ H12) as Hl.
  destruct H12 as (Ha & Hb & Hc), H23 as (Ha' & Hb' & Hc'). split; [|split].
  - intros i tv Hi. destruct (Ha i tv Hi) as (tv2 & Hi2 & Hr & Heq).
    destruct (Ha' i tv2 Hi2) as (tv3 & Hi3 & Hr3 & Heq3).
    exists tv3. split; [done|]. split; [congruence|]. intros Hne.
    destruct (Heq Hne) as (Hk & Hv & Ht).
    destruct Heq3 as (Hk3 & Hv3 & Ht3); [congruence|]. split_and!; congruence.
  - intros i tv' Hi Hn. destruct (vectors t2 !! i) as [tv2|] eqn:E.
    + destruct (Ha' i tv2 E) as (tv3 & Hi3 & Hr3 & _). simplify_eq.
      rewrite Hr3. by apply (Hb i).
    + by apply (Hb' i).
  - destruct Hc' as [->|Hc']; [done|]. right. lia.
Qed.

Lemma keeps_with_clk t c : keeps t (with_clk t c).
Proof.
  split; [|split; [|by left]].
  - intros i tv Hi. exists tv. done.
  - cbn. intros i tv' H H'. congruence.
Qed.

Lemma tab_ok_with_clk t m c :
  clock_le (clk t) c -> tab_ok t m -> tab_ok (with_clk t c) m.
Proof.
  intros (He & _ & _) [[tv [? ? ? ? ? ? ?]] Hs Hm]. split; [|done|done].
  exists tv. split; try done. by eapply placed_mono.
Qed.

(** Replacing the current vector by one with the same entries. *)
Lemma tab_ok_set_vec t m tv tv' m' :
  core t tv m -> tab_ok t m ->
  rehashing tv' = false -> vec_ok tv' -> entries (keys tv') (vals tv') ≡ₚ m' ->
  placed (keys tv') (hstate tv') (epoch (clk t)) ->
  tab_ok (set_vec t (current t) tv') m'.
Proof.
  intros [Hcur _ _ _ _ Hw Hi] [_ Hs Hm] Hr Hv He Hp.
  assert (Hlt : (current t < length (vectors t))%nat) by (by apply lookup_lt_Some in Hcur).
  split.
  - exists tv'. split; cbn; try done. by apply list_lookup_insert.
  - intros i tvi Hi'. cbn in Hi'. destruct (decide (i = current t)) as [->|Hne].
    + rewrite list_lookup_insert in Hi' by done. simplify_eq.
      split; [apply Hv|by eapply (vec_ok_distinct P since HC)].
    + rewrite list_lookup_insert_ne in Hi' by done. by eapply Hs.
  - intros i tvi Hi' Hne. cbn in Hi', Hne. rewrite list_lookup_insert_ne in Hi' by done.
    by eapply Hm.
Qed.

(** ** Rehashing the table *)

(** Whether the vector is full; 1 when it holds as many entries as it may,
    2 when dropping the deleted ones makes room. *)
Definition fullness (tv : tvec) : nat :=
  if full tv then (if present_entry_count tv <? limit tv then 2 else 1) else 0.

Lemma min_growth_14 : minimum_growth_amount = 14.
Proof. reflexivity. Qed.

Lemma mark_rehashing_ok tv : vec_ok tv -> vec_ok (mark_rehashing tv).
Proof. by intros [? ? ? ? ? ? ?]. Qed.

Context (grow : Z -> outcome Z) (N : nat).
Context (HN : grow_ok grow (Z.of_nat N)).

Lemma rehash_table_ok t tv m (g : bool) :
  core t tv m -> tab_ok t m -> (length m <= N)%nat -> (g = true -> full tv = true) ->
  exists t' tv', rehash_table P grow t g = Val t' /\ core t' tv' m /\ tab_ok t' m /\
    keeps t t' /\ clock_le (clk t) (clk t') /\
    since_ge (hstate tv') (epoch (clk t)) /\
    (fullness tv' <= 1)%nat /\ (g = true -> (fullness tv' < fullness tv)%nat).
Proof.
  intros Hcore Hok Hlen Hgf. pose proof Hcore as [Hcur Hval Hv Hmap Hpl Hw Hini].
  assert (Hlt : (current t < length (vectors t))%nat) by (by apply lookup_lt_Some in Hcur).
  unfold rehash_table, cur_vec, get_vec. rewrite (vread_val _ _ _ Hcur). cbn [obind].
  pose proof (mark_rehashing_ok _ Hv) as Hvm.
  assert (Hpres : present_entry_count tv = Z.of_nat (length m)).
  { rewrite (vec_ok_present P _ Hv). by rewrite Hmap. }
  destruct HN as [Hmax Hgrow].
  destruct (negb g && (refs (mark_rehashing tv) =? 0)) eqn:E.
  - (* in place *)
    apply andb_true_iff in E as [Eg Er]. apply negb_true_iff in Eg. subst g.
    cbn in Er. apply Z.eqb_eq in Er.
    cbn [clk set_vec].
    destruct (rehash_in_place_ok P since HC (mark_rehashing tv) (clk t) Hvm)
      as (tv' & c' & Hrun & Hle & Hv' & Hent & Hpl' & Hsince & Htok & Hre & Hlim & Href & Hlk & Hadd & Hdel).
    rewrite Hrun. cbn [obind].
    assert (Hset : set_vec (with_clk (set_vec t (current t) (mark_rehashing tv)) c')
                     (current (set_vec t (current t) (mark_rehashing tv))) tv'
                   = set_vec (with_clk t c') (current (with_clk t c')) tv').
    { unfold set_vec, with_clk. cbn. f_equal. apply list_insert_insert. }
    rewrite Hset. eexists _, tv'. split; [reflexivity|].
    assert (Hcore' : core (set_vec (with_clk t c') (current (with_clk t c')) tv') tv' m).
    { split; cbn; try done; [by apply list_lookup_insert|]. by rewrite Hent. }
    split; [done|]. split.
    { eapply tab_ok_set_vec; try done.
      - split; cbn; try done. eapply placed_mono; [|exact Hpl]. apply Hle.
      - by apply tab_ok_with_clk.
      - by rewrite Hent. }
    split.
    { split; [|split; [|by left]].
      - intros i tvi Hi. cbn. destruct (decide (i = current t)) as [->|Hne].
        + rewrite list_lookup_insert by done. exists tv'. split; [done|]. simplify_eq.
          split; [done|]. intros Hr. done.
        + rewrite list_lookup_insert_ne by done. by exists tvi.
      - cbn. intros i tvi Hi Hn. apply lookup_lt_Some in Hi. rewrite insert_length in Hi.
        apply lookup_ge_None in Hn. lia. }
    split; [done|]. split; [done|]. split; [|done].
    unfold fullness, full. unfold present_entry_count at 1. rewrite Hdel, Hadd, Hlim. cbn.
    destruct (Z.leb_spec (limit tv) (present_entry_count (mark_rehashing tv)));
      destruct (Z.ltb_spec (present_entry_count (mark_rehashing tv) - 0) (limit tv)); lia.
  - (* into a copy *)
    unfold rehash_entry_count. cbn [weak set_vec]. rewrite Hw.
    change (present_entry_count (mark_rehashing tv)) with (present_entry_count tv).
    change (limit (mark_rehashing tv)) with (limit tv).
    change (initial (set_vec t (current t) (mark_rehashing tv))) with (initial t).
    change (clk (set_vec t (current t) (mark_rehashing tv))) with (clk t).
    assert (Hdes : exists d,
      (if negb g || (present_entry_count tv <? limit tv)
       then Val (Z.max (initial t) (present_entry_count tv))
       else obind (grow (present_entry_count tv)) (fun new =>
            Val (Z.max (present_entry_count tv + minimum_growth_amount) new))) = Val d /\
      d <= max_entries /\ present_entry_count tv <= d /\
      (negb g || (present_entry_count tv <? limit tv) = false ->
       present_entry_count tv + 14 <= d)).
    { destruct (negb g || (present_entry_count tv <? limit tv)) eqn:E2.
      - eexists. split; [reflexivity|]. rewrite Hpres in *. unfold max_entries in *.
        split; [lia|]. split; [lia|done].
      - destruct (Hgrow (present_entry_count tv)) as (gg & -> & Hgg); [lia|].
        cbn [obind]. eexists. split; [reflexivity|]. rewrite min_growth_14.
        unfold max_entries in *. split; [lia|]. split; lia. }
    destruct Hdes as (d & Hd & Hdm & Hdp & Hdg). rewrite Hd. cbn [obind].
    destruct (make_table_vector_ok P (V := V) d Hdm) as
      (dst & Hdst & Hvd & Hed & Hld & Hred & Hhd & Hrd & Hadd & Hdd & _).
    rewrite Hdst. cbn [obind].
    destruct (rehash_into_copy_ok P since HC (mark_rehashing tv) dst (clk t))
      as (dst' & c' & Hrun & Hle & (Htok & Hre & Hlim & Hdl & Href & Hlen') & Hv' & Hent & Hpl' & Hsince & Hadd');
      try done.
    { change (present_entry_count (mark_rehashing tv)) with (present_entry_count tv). lia. }
    rewrite Hrun. cbn [obind]. eexists _, dst'. split; [reflexivity|].
    change (present_entry_count (mark_rehashing tv)) with (present_entry_count tv) in Hadd'.
    cbn [keys vals mark_rehashing] in Hent.
    assert (Hcore' : core (install (with_clk (set_vec t (current t) (mark_rehashing tv)) c') dst') dst' m).
    { split; cbn; try done; [|congruence|by rewrite Hent].
      rewrite lookup_app_r by done. by rewrite Nat.sub_diag. }
    split; [done|].
    assert (Hmk : forall i tvi, (<[current t:=mark_rehashing tv]> (vectors t) ++ [dst']) !! i = Some tvi ->
       (i = length (<[current t:=mark_rehashing tv]> (vectors t)) /\ tvi = dst') \/
       (i = current t /\ tvi = mark_rehashing tv) \/
       (i <> current t /\ vectors t !! i = Some tvi)).
    { intros i tvi Hi. apply lookup_app_Some in Hi as [Hi|[Hge Hi]].
      - right. destruct (decide (i = current t)) as [->|Hne].
        + left. rewrite list_lookup_insert in Hi by done. by simplify_eq.
        + right. by rewrite list_lookup_insert_ne in Hi by done.
      - left. apply list_lookup_singleton_Some in Hi as [Hi ->]. split; [lia|done]. }
    split.
    { split; [by eauto| |].
      - intros i tvi Hi. cbn in Hi. destruct (Hmk i tvi Hi) as [[_ ->]|[[_ ->]|[_ Hi']]].
        + split; [apply Hv'|by eapply (vec_ok_distinct P since HC)].
        + split; [apply Hvm|by apply (vec_ok_distinct P since HC _ Hvm)].
        + by eapply t_shape.
      - intros i tvi Hi Hne. cbn in Hi, Hne. destruct (Hmk i tvi Hi) as [[? _]|[[_ ->]|[Hnc Hi']]].
        + done.
        + done.
        + by eapply (t_marked _ _ Hok). }
    split.
    { split; [|split].
      - intros i tvi Hi. cbn.
        destruct (decide (i = current t)) as [->|Hne].
        + simplify_eq. exists (mark_rehashing tv).
          rewrite lookup_app_l by (rewrite insert_length; done).
          rewrite list_lookup_insert by done. done.
        + exists tvi. rewrite lookup_app_l by (rewrite insert_length; by apply lookup_lt_Some in Hi).
          rewrite list_lookup_insert_ne by done. done.
      - cbn. intros i tvi Hi Hn. destruct (Hmk i tvi Hi) as [[_ ->]|[[-> _]|[Hnc Hi']]].
        + congruence.
        + congruence.
        + congruence.
      - right. cbn. rewrite insert_length. done. }
    split; [done|]. split; [done|].
    assert (Hpres' : present_entry_count dst' = present_entry_count tv).
    { unfold present_entry_count at 1. rewrite Hdl, Hdd, Hadd'. lia. }
    split.
    { unfold fullness, full. rewrite Hpres', Hadd', Hlim.
      destruct (Z.leb_spec (limit dst) (present_entry_count tv));
        destruct (Z.ltb_spec (present_entry_count tv) (limit dst)); lia. }
    intros ->. specialize (Hgf eq_refl). cbn [negb orb] in *.
    unfold fullness at 2. rewrite Hgf.
    destruct (present_entry_count tv <? limit tv) eqn:E2.
    + unfold fullness, full. rewrite Hpres', Hadd', Hlim.
      destruct (Z.leb_spec (limit dst) (present_entry_count tv));
        destruct (Z.ltb_spec (present_entry_count tv) (limit dst)); lia.
    + specialize (Hdg eq_refl). unfold fullness, full. rewrite Hadd', Hlim.
      destruct (Z.leb_spec (limit dst) (present_entry_count tv)); lia.
Qed.

(** ** How often an operation retries *)
Definition freshb (h : HS) (e : nat) : bool :=
  match since h with None => true | Some e0 => (e <=? e0)%nat end.

Lemma freshb_since_ge h e : freshb h e = true <-> since_ge h e.
Proof.
  unfold freshb, TableVec.since_ge. destruct (since h); [|done]. by rewrite Nat.leb_le.
Qed.

Definition debt (h : HS) (c : clock) : nat :=
  (length (schedule c) + (if freshb h (epoch c) then 0 else 1))%nat.

Lemma debt_le h c h3 c2 c3 :
  clock_le c c2 -> clock_le c2 c3 -> since_ge h3 (epoch c2) ->
  (debt h3 c3 <= length (schedule c2))%nat /\ (debt h3 c3 <= debt h c)%nat.
Proof.
  intros (E1 & L1 & S1) (E2 & L2 & S2) Hs. unfold debt.
  destruct (freshb h3 (epoch c3)) eqn:F3.
  - destruct (freshb h (epoch c)); lia.
  - assert (epoch c2 < epoch c3)%nat.
    { destruct (decide (epoch c3 = epoch c2)) as [Heq|]; [|lia].
      apply freshb_since_ge in Hs. congruence. }
    specialize (S2 ltac:(lia)). destruct (freshb h (epoch c)); lia.
Qed.

Lemma debt_lt h h' c h3 c2 c3 :
  clock_le c c2 -> clock_le c2 c3 -> since_ge h3 (epoch c2) ->
  hs_stale P h' (epoch c2) = true ->
  (since_ge h (epoch c) -> since_ge h' (epoch c)) ->
  (debt h3 c3 < debt h c)%nat.
Proof.
  intros H1 H2 Hs Hst Hh. destruct (debt_le h c h3 c2 c3 H1 H2 Hs) as [Hd _].
  destruct H1 as (E1 & L1 & S1). unfold debt at 2.
  destruct (freshb h (epoch c)) eqn:F; [|lia].
  apply freshb_since_ge in F. apply Hh in F.
  pose proof (since_ge_stale P since HC _ _ _ F Hst). specialize (S1 ltac:(lia)). lia.
Qed.

(** ** [element] *)
Lemma vec_search tv key id :
  vec_ok tv ->
  exists j s, search P (keys tv) key id = Val (Z.of_nat j, s) /\ keys tv !! j = Some s /\
    ((s = Empty /\ reach (keys tv) id j /\
      forall j' k', keys tv !! j' = Some (Key k') -> test P key k' = true ->
        ~ reach (keys tv) id j') \/
     (exists k', s = Key k' /\ test P key k' = true)).
Proof. intros Hv. apply search_ok; [apply Hv|by apply (vec_ok_free P)]. Qed.

Lemma valid_token (tv : tvec) : rehashing tv = false -> token_valid tv (token tv) = true.
Proof. intros H. unfold token_valid. rewrite H, Nat.eqb_refl. done. Qed.

Lemma core_get_some t tv m j k' x :
  core t tv m -> keys tv !! j = Some (Key k') -> vals tv !! j = Some (VVal x) ->
  (k', x) ∈ m.
Proof. intros Hc Hk Hx. rewrite <- (c_map _ _ _ Hc). apply elem_of_entries. eauto. Qed.

Lemma core_kd t tv m : core t tv m -> kd (map fst m).
Proof.
  intros Hc. eapply (kd_perm P since HC); [|apply (v_kd _ _ (c_vec _ _ _ Hc))].
  apply Permutation_map, Hc.
Qed.

Lemma core_entry t tv m k x : core t tv m -> (k, x) ∈ m ->
  exists j, keys tv !! j = Some (Key k) /\ vals tv !! j = Some (VVal x).
Proof. intros Hc Hin. rewrite <- (c_map _ _ _ Hc) in Hin. by apply elem_of_entries. Qed.

Lemma gethash_ok fuel : forall t tv m key,
  core t tv m -> tab_ok t m -> (length m <= N)%nat -> (debt (hstate tv) (clk t) < fuel)%nat ->
  exists t', gethash P grow fuel t key = Val (mget m key, t') /\ tab_ok t' m /\
    keeps t t' /\ clock_le (clk t) (clk t').
Proof.
  induction fuel as [|f IH]; intros t tv m key Hcore Hok Hlen Hf; [lia|].
  pose proof Hcore as [Hcur Hval Hv Hmap Hpl Hw Hini].
  cbn [gethash]. unfold cur_vec, get_vec. rewrite (vread_val _ _ _ Hcur). cbn [obind].
  unfold hash. destruct (hashf P (epoch (gc (clk t))) key) as [id hh] eqn:Eh.
  pose proof (clock_le_gc (clk t)) as Hgc.
  destruct (vec_search tv key id Hv) as (j & s & Hse & Hj & Hcase).
  rewrite Hse. cbn [obind].
  destruct Hcase as [(-> & Hreach & Hno)|(k' & -> & Ht)].
  - unfold needs_rehash, is_stale. cbn [clk with_clk]. set (c1 := gc (clk t)) in *.
    pose proof (clock_le_gc c1) as Hgc1. set (c2 := gc c1) in *.
    rewrite (valid_token tv Hval). cbn [negb orb].
    assert (Hle2 : clock_le (clk t) c2) by (eapply clock_le_trans; done).
    destruct (hs_stale P (hstate tv) (epoch c2)) eqn:Est.
    + assert (Hok2 : tab_ok (with_clk (with_clk t c1) c2) m) by (by apply (tab_ok_with_clk t)).
      assert (Hcore2 : core (with_clk (with_clk t c1) c2) tv m).
      { split; cbn; try done. eapply placed_mono; [apply Hle2|done]. }
      destruct (rehash_table_ok _ _ _ false Hcore2 Hok2 Hlen) as
        (t3 & tv3 & Hr & Hcore3 & Hok3 & Hk3 & Hle3 & Hs3 & _ & _); [done|].
      rewrite Hr. cbn [obind]. cbn [clk with_clk] in *.
      destruct (IH t3 tv3 m key Hcore3 Hok3 Hlen) as (t' & Hg & Hok' & Hk' & Hle').
      { pose proof (debt_lt (hstate tv) (hstate tv) (clk t) (hstate tv3) c2 (clk t3)
                      Hle2 Hle3 Hs3 Est ltac:(done)). lia. }
      exists t'. split; [done|]. split; [done|]. split.
      * eapply keeps_trans; [|exact Hk']. eapply keeps_trans; [|exact Hk3].
        apply (keeps_with_clk t c2).
      * eapply clock_le_trans; [exact Hle2|]. eapply clock_le_trans; done.
    + assert (mget m key = None) as ->.
      { apply mget_none. intros k' x Hin.
        destruct (core_entry _ _ _ _ _ Hcore Hin) as (j' & Hj' & _).
        eapply (search_absent P since HC (keys tv) key (hstate tv) (epoch (clk t)) (epoch c1) (epoch c2));
          [|done|done| |exact Hj'].
        - destruct Hgc, Hgc1; lia.
        - unfold hid. rewrite Eh. exact Hno. }
      eexists. split; [reflexivity|]. split; [by apply (tab_ok_with_clk t)|].
      split; [apply (keeps_with_clk t)|done].
  - destruct (proj2 (v_valued _ _ Hv) j k' Hj) as [x Hx].
    rewrite (zread_val _ _ (VVal x)) by (rewrite ?Nat2Z.id; lia || done). cbn [obind].
    rewrite (valid_token tv Hval).
    assert (mget m key = Some x) as ->.
    { eapply (mget_some P since HC); [by eapply core_kd|by eapply core_get_some|done]. }
    eexists. split; [reflexivity|]. split; [by apply tab_ok_with_clk|].
    split; [apply keeps_with_clk|done].
Qed.

(** ** [element-setter] *)

(** The one entry a store changes. *)
Inductive put_change (m : list (K * V)) (tv tv' : tvec) (k : K) (v : V) : Prop :=
| put_old j k' :
    keys tv !! j = Some (Key k') -> test P k k' = true ->
    keys tv' = keys tv -> vals tv' = <[j := VVal v]> (vals tv) ->
    put_change m tv tv' k v
| put_new j :
    keys tv !! j = Some Empty -> mget m k = None ->
    keys tv' = <[j := Key k]> (keys tv) -> vals tv' = <[j := VVal v]> (vals tv) ->
    put_change m tv tv' k v.

(** The state after a store: some state [t1] of the same map, with one entry
    of its current vector changed. *)
Definition changed (t1 t' : table) (tv tv' : tvec) : Prop :=
  vectors t1 !! current t1 = Some tv /\
  t' = set_vec (with_clk t1 (clk t')) (current t1) tv' /\
  token tv' = token tv /\ refs tv' = refs tv /\ rehashing tv' = rehashing tv.

Lemma puthash_ok fuel : forall t tv m key v,
  core t tv m -> tab_ok t m -> (length m <= N)%nat ->
  (2 * debt (hstate tv) (clk t) + fullness tv < fuel)%nat ->
  exists t1 t' tv1 tv', puthash P grow fuel t key v = Val t' /\
    tab_ok t1 m /\ keeps t t1 /\
    changed t1 t' tv1 tv' /\ put_change m tv1 tv' key v /\
    tab_ok t' (mset m key v) /\ clock_le (clk t) (clk t').
Proof.
  induction fuel as [|f IH]; intros t tv m key v Hcore Hok Hlen Hf; [lia|].
  pose proof Hcore as [Hcur Hval Hv Hmap Hpl Hw Hini].
  cbn [puthash]. unfold cur_vec, get_vec. rewrite (vread_val _ _ _ Hcur). cbn [obind].
  unfold hash. destruct (hashf P (epoch (gc (clk t))) key) as [id hh] eqn:Eh.
  pose proof (clock_le_gc (clk t)) as Hgc. set (c1 := gc (clk t)) in *.
  assert (Hcore1 : core (with_clk t c1) tv m).
  { split; cbn; try done. eapply placed_mono; [apply Hgc|done]. }
  pose proof (tab_ok_with_clk t m c1 Hgc Hok) as Hok1.
  destruct (vec_search tv key id Hv) as (j & s & Hse & Hj & Hcase).
  rewrite Hse. cbn [obind].
  assert (Hjl : (j < length (keys tv))%nat) by (by apply lookup_lt_Some in Hj).
  pose proof (v_valued _ _ Hv) as [Hvl Hvv].
  destruct (lookup_lt_is_Some_2 (vals tv) j) as [vj Hvj]; [lia|].
  destruct Hcase as [(-> & Hreach & Hno)|(k' & -> & Ht)].
  - (* a new entry *)
    unfold try_to_puthash_new, is_stale. cbn [clk with_clk keys with_hstate hstate].
    rewrite (zread_val _ _ Empty) by (rewrite ?Nat2Z.id; lia || done). cbn [obind].
    pose proof (clock_le_gc c1) as Hgc1. set (c2 := gc c1) in *.
    assert (Hle2 : clock_le (clk t) c2) by (eapply clock_le_trans; done).
    set (h' := hs_merge P (hstate tv) hh).
    assert (Hfull : full (with_hstate tv h') = full tv) by done.
    assert (Htok : token_valid (with_hstate tv h') (token tv) = true) by exact (valid_token (with_hstate tv h') Hval).
    rewrite Hfull, Htok, andb_true_r. cbn [andb].
    assert (Hhs : since_ge (hstate tv) (epoch (clk t)) -> since_ge h' (epoch (clk t))).
    { intros H. apply (since_ge_merge P since HC); [done|].
      replace hh with (snd (hashf P (epoch c1) key)) by (by rewrite Eh).
      apply (since_ge_hash P since HC). apply Hgc. }
    assert (Hv1 : vec_ok (with_hstate tv h')) by (by destruct Hv).
    assert (Hpl1 : placed (keys tv) h' (epoch c1)).
    { apply (placed_merge_l P since HC). eapply placed_mono; [apply Hgc|done]. }
    destruct (full tv) eqn:Ef; cbn [negb andb]; [|destruct (hs_stale P h' (epoch c2)) eqn:Est].
    + (* full *)
      cbn [obind]. unfold puthash_failed, needs_rehash, is_stale.
      cbn [clk with_clk set_vec hstate with_hstate].
      pose proof (clock_le_gc c2) as Hgc2. set (c3 := gc c2) in *.
      assert (Hle3 : clock_le (clk t) c3) by (eapply clock_le_trans; done).
      rewrite Htok. cbn [negb orb]. rewrite Hfull, ?Ef.
      set (t2 := with_clk (set_vec (with_clk (with_clk t c1) c2) (current (with_clk t c1))
                    (with_hstate tv h')) c3).
      assert (Ht2 : t2 = set_vec (with_clk t c3) (current (with_clk t c3)) (with_hstate tv h')) by done.
      assert (Hok2 : tab_ok t2 m).
      { rewrite Ht2. eapply tab_ok_set_vec; try done.
        - split; cbn; try done. eapply placed_mono; [apply Hle3|done].
        - by apply tab_ok_with_clk.
        - cbn. apply (placed_merge_l P since HC). eapply placed_mono; [apply Hle3|done]. }
      assert (Hcore2 : core t2 (with_hstate tv h') m).
      { rewrite Ht2. split; cbn; try done.
        - apply list_lookup_insert. by apply lookup_lt_Some in Hcur.
        - apply (placed_merge_l P since HC). eapply placed_mono; [apply Hle3|done]. }
      assert (Hk2 : keeps t t2).
      { rewrite Ht2. split; [|split; [|by left]].
        - intros i tvi Hi. cbn. destruct (decide (i = current t)) as [->|Hne].
          + rewrite list_lookup_insert by (by apply lookup_lt_Some in Hi). simplify_eq.
            eexists. split; [reflexivity|]. done.
          + rewrite list_lookup_insert_ne by done. by exists tvi.
        - cbn. intros i tvi Hi Hn. apply lookup_lt_Some in Hi. rewrite insert_length in Hi.
          apply lookup_ge_None in Hn. lia. }
      destruct (rehash_table_ok t2 (with_hstate tv h') m true Hcore2 Hok2 Hlen) as
        (t4 & tv4 & Hr & Hcore4 & Hok4 & Hk4 & Hle4 & Hs4 & Hfl & Hfl'); [done|].
      assert (Hif : (if hs_stale P h' (epoch c3) then rehash_table P grow t2 true
                     else rehash_table P grow t2 true) = Val t4).
      { by destruct (hs_stale P h' (epoch c3)). }
      rewrite Hif. cbn [obind]. rewrite Ht2 in Hle4, Hs4. cbn [clk set_vec with_clk] in Hle4, Hs4.
      destruct (IH t4 tv4 m key v Hcore4 Hok4 Hlen) as
        (t5 & t' & tv5 & tv' & Hp & Hok5 & Hk5 & Hch & Hpc & Hok' & Hle').
      { pose proof (debt_le (hstate tv) (clk t) (hstate tv4) c3 (clk t4) Hle3 Hle4 Hs4).
        specialize (Hfl' eq_refl).
        assert (fullness (with_hstate tv h') = fullness tv) as Hff by done. lia. }
      exists t5, t', tv5, tv'. split; [done|]. split; [done|]. split.
      { eapply keeps_trans; [exact Hk2|]. eapply keeps_trans; done. }
      split; [done|]. split; [done|]. split; [done|].
      eapply clock_le_trans; [exact Hle3|]. eapply clock_le_trans; done.
    + (* stale *) cbn [negb andb].
      cbn [obind]. unfold puthash_failed, needs_rehash, is_stale.
      cbn [clk with_clk set_vec hstate with_hstate].
      pose proof (clock_le_gc c2) as Hgc2. set (c3 := gc c2) in *.
      assert (Hle3 : clock_le (clk t) c3) by (eapply clock_le_trans; done).
      rewrite Htok. cbn [negb orb]. rewrite Hfull, ?Ef.
      set (t2 := with_clk (set_vec (with_clk (with_clk t c1) c2) (current (with_clk t c1))
                    (with_hstate tv h')) c3).
      assert (Ht2 : t2 = set_vec (with_clk t c3) (current (with_clk t c3)) (with_hstate tv h')) by done.
      assert (Hok2 : tab_ok t2 m).
      { rewrite Ht2. eapply tab_ok_set_vec; try done.
        - split; cbn; try done. eapply placed_mono; [apply Hle3|done].
        - by apply tab_ok_with_clk.
        - cbn. apply (placed_merge_l P since HC). eapply placed_mono; [apply Hle3|done]. }
      assert (Hcore2 : core t2 (with_hstate tv h') m).
      { rewrite Ht2. split; cbn; try done.
        - apply list_lookup_insert. by apply lookup_lt_Some in Hcur.
        - apply (placed_merge_l P since HC). eapply placed_mono; [apply Hle3|done]. }
      assert (Hk2 : keeps t t2).
      { rewrite Ht2. split; [|split; [|by left]].
        - intros i tvi Hi. cbn. destruct (decide (i = current t)) as [->|Hne].
          + rewrite list_lookup_insert by (by apply lookup_lt_Some in Hi). simplify_eq.
            eexists. split; [reflexivity|]. done.
          + rewrite list_lookup_insert_ne by done. by exists tvi.
        - cbn. intros i tvi Hi Hn. apply lookup_lt_Some in Hi. rewrite insert_length in Hi.
          apply lookup_ge_None in Hn. lia. }
      assert (Est3 : hs_stale P h' (epoch c3) = true).
      { eapply (stale_mono P since HC); [|exact Est]. apply Hgc2. }
      rewrite Est3.
      destruct (rehash_table_ok t2 (with_hstate tv h') m false Hcore2 Hok2 Hlen) as
        (t4 & tv4 & Hr & Hcore4 & Hok4 & Hk4 & Hle4 & Hs4 & Hfl & _); [done|].
      rewrite Hr. cbn [obind]. rewrite Ht2 in Hle4, Hs4. cbn [clk set_vec with_clk] in Hle4, Hs4.
      destruct (IH t4 tv4 m key v Hcore4 Hok4 Hlen) as
        (t5 & t' & tv5 & tv' & Hp & Hok5 & Hk5 & Hch & Hpc & Hok' & Hle').
      { pose proof (debt_lt (hstate tv) h' (clk t) (hstate tv4) c3 (clk t4)
                      Hle3 Hle4 Hs4 Est3 Hhs). lia. }
      exists t5, t', tv5, tv'. split; [done|]. split; [done|]. split.
      { eapply keeps_trans; [exact Hk2|]. eapply keeps_trans; done. }
      split; [done|]. split; [done|]. split; [done|].
      eapply clock_le_trans; [exact Hle3|]. eapply clock_le_trans; done.
    + (* stored *) cbn [negb andb].
      assert (Habs : forall k' x, (k', x) ∈ m -> test P key k' = false).
      { intros k' x Hin.
        destruct (core_entry _ _ _ _ _ Hcore Hin) as (j' & Hj' & _).
        eapply (search_absent P since HC (keys tv) key h' (epoch c1) (epoch c1) (epoch c2));
          [|done|done| |exact Hj'].
        - destruct Hgc1; lia.
        - unfold hid. rewrite Eh. exact Hno. }
      cbn [additions with_additions with_hstate vals keys].
      rewrite zwrite_val by lia. cbn [obind]. rewrite zwrite_val by lia. cbn [obind].
      rewrite !Nat2Z.id.
      pose proof (cnt_insert is_used _ _ _ (Key key) Hj) as Hcu. cbn [is_used Nat.b2n] in Hcu.
      pose proof (cnt_insert is_deleted _ _ _ (Key key) Hj) as Hcd. cbn [is_deleted Nat.b2n] in Hcd.
      pose proof (entries_insert _ _ _ _ _ (Key key) (VVal v) Hj Hvj) as HI.
      cbn [ent app] in HI.
      assert (Hg : mget m key = None) by (by apply mget_none).
      set (tv' := with_entries (with_additions (with_hstate tv h') (additions tv + 1))
                    (<[j:=Key key]> (keys tv)) (<[j:=VVal v]> (vals tv))).
      exists (with_clk t c2), (set_vec (with_clk (with_clk t c1) c2) (current (with_clk t c1)) tv'), tv, tv'.
      split; [done|]. split; [by apply tab_ok_with_clk|]. split; [apply keeps_with_clk|].
      split; [by repeat split|]. split; [by apply put_new with j|].
      split; [|done].
      rewrite (mset_new P _ _ _ Hg).
      eapply (tab_ok_set_vec (with_clk t c2)).
      * split; cbn; try done. eapply placed_mono; [apply Hle2|done].
      * by apply tab_ok_with_clk.
      * done.
      * unfold tv'. split; cbn [with_entries with_additions with_hstate keys vals additions deletions limit];
          rewrite ?insert_length.
        -- apply Hv.
        -- apply Hv.
        -- apply valued_insert; [by split|]. intros k2 Hk2. eauto.
        -- eapply (kd_perm P since HC); [apply (Permutation_map fst HI)|]. cbn. split.
           ++ intros k2 Hk2. apply elem_of_map_fst_inv in Hk2 as [x Hx].
              rewrite Hmap in Hx. by eapply Habs.
           ++ apply Hv.
        -- pose proof (v_add _ _ Hv). lia.
        -- pose proof (v_del _ _ Hv). lia.
        -- unfold full in Ef. lia.
      * unfold tv'. cbn [with_entries keys vals]. rewrite <- HI. by constructor.
      * unfold tv'. cbn [with_entries with_additions with_hstate keys hstate clk with_clk].
        apply placed_insert_key with (epoch c1).
        -- eapply placed_mono; [apply Hgc1|done].
        -- apply Hgc1.
        -- apply (covers_merge_r P since HC).
           replace hh with (snd (hashf P (epoch c1) key)) by (by rewrite Eh).
           apply (covers_hash P since HC).
        -- unfold hid. by rewrite Eh.
  - (* an existing entry *)
    destruct (Hvv j k' Hj) as [x Hx]. clear vj Hvj.
    unfold try_to_puthash_old. rewrite (valid_token tv Hval).
    rewrite zwrite_val by lia. cbn [obind]. rewrite Nat2Z.id.
    set (tv' := with_entries tv (keys tv) (<[j:=VVal v]> (vals tv))).
    exists (with_clk t c1), (set_vec (with_clk t c1) (current (with_clk t c1)) tv'), tv, tv'.
    split; [done|]. split; [done|]. split; [apply keeps_with_clk|].
    split; [by repeat split|]. split; [by apply put_old with j k'|].
    split; [|done].
    pose proof (entries_insert _ _ _ _ _ (Key k') (VVal v) Hj Hx) as HI.
    rewrite (list_insert_id _ _ _ Hj) in HI. cbn [ent app] in HI.
    pose proof (entries_insert _ _ _ _ _ Empty VEmpty Hj Hx) as HE. cbn [ent app] in HE.
    set (rest := entries (<[j:=Empty]> (keys tv)) (<[j:=VEmpty]> (vals tv))) in *.
    assert (HR : entries (keys tv) (<[j:=VVal v]> (vals tv)) ≡ₚ (k', v) :: rest).
    { rewrite HE in HI.
      apply (Permutation_cons_inv (a := (k', x))). rewrite <- HI. apply perm_swap. }
    eapply tab_ok_set_vec; try done.
    + unfold tv'. destruct Hv. split; cbn [with_entries keys vals additions deletions limit]; try done.
      * pose proof (valued_insert _ _ j (Key k') (VVal v) (conj Hvl Hvv) ltac:(eauto)) as Hvi.
        by rewrite (list_insert_id _ _ _ Hj) in Hvi.
      * eapply (kd_perm P since HC); [symmetry; apply (Permutation_map fst HR)|].
        eapply (kd_perm P since HC) in v_kd; [|apply (Permutation_map fst HE)]. exact v_kd.
    + unfold tv'. cbn [with_entries keys vals]. rewrite HR. symmetry.
      eapply (mset_old P since HC); [by eapply core_kd| |done]. by rewrite <- Hmap.
    + apply Hcore1.
Qed.

(** ** [remove-key!] *)
Lemma remove_key_ok fuel : forall t tv m key,
  core t tv m -> tab_ok t m -> (length m <= N)%nat -> (debt (hstate tv) (clk t) < fuel)%nat ->
  exists r t', remove_key P grow fuel t key = Val (r, t') /\
    tab_ok t' (mdel m key) /\ clock_le (clk t) (clk t') /\
    ((r = false /\ mget m key = None /\ keeps t t') \/
     (r = true /\ is_Some (mget m key) /\
      exists t1 tv1 tv' j k', keeps t t1 /\ tab_ok t1 m /\ changed t1 t' tv1 tv' /\
        keys tv1 !! j = Some (Key k') /\ test P key k' = true /\
        keys tv' = <[j := Deleted]> (keys tv1) /\ vals tv' = <[j := VDeleted]> (vals tv1))).
Proof.
  induction fuel as [|f IH]; intros t tv m key Hcore Hok Hlen Hf; [lia|].
  pose proof Hcore as [Hcur Hval Hv Hmap Hpl Hw Hini].
  cbn [remove_key]. unfold cur_vec, get_vec. rewrite (vread_val _ _ _ Hcur). cbn [obind].
  unfold hash. destruct (hashf P (epoch (gc (clk t))) key) as [id hh] eqn:Eh.
  pose proof (clock_le_gc (clk t)) as Hgc. set (c1 := gc (clk t)) in *.
  assert (Hcore1 : core (with_clk t c1) tv m).
  { split; cbn; try done. eapply placed_mono; [apply Hgc|done]. }
  pose proof (tab_ok_with_clk t m c1 Hgc Hok) as Hok1.
  destruct (vec_search tv key id Hv) as (j & s & Hse & Hj & Hcase).
  rewrite Hse. cbn [obind].
  assert (Hjl : (j < length (keys tv))%nat) by (by apply lookup_lt_Some in Hj).
  pose proof (v_valued _ _ Hv) as [Hvl Hvv].
  destruct Hcase as [(-> & Hreach & Hno)|(k' & -> & Ht)].
  - cbn [obind]. unfold needs_rehash, is_stale. cbn [clk with_clk].
    pose proof (clock_le_gc c1) as Hgc1. set (c2 := gc c1) in *.
    rewrite (valid_token tv Hval). cbn [negb orb].
    assert (Hle2 : clock_le (clk t) c2) by (eapply clock_le_trans; done).
    destruct (hs_stale P (hstate tv) (epoch c2)) eqn:Est.
    + assert (Hok2 : tab_ok (with_clk (with_clk t c1) c2) m) by (by apply (tab_ok_with_clk t)).
      assert (Hcore2 : core (with_clk (with_clk t c1) c2) tv m).
      { split; cbn; try done. eapply placed_mono; [apply Hle2|done]. }
      destruct (rehash_table_ok _ _ _ false Hcore2 Hok2 Hlen) as
        (t3 & tv3 & Hr & Hcore3 & Hok3 & Hk3 & Hle3 & Hs3 & _ & _); [done|].
      rewrite Hr. cbn [obind]. cbn [clk with_clk] in *.
      assert (Hkt : keeps t t3) by (eapply keeps_trans; [apply (keeps_with_clk t c2)|exact Hk3]).
      destruct (IH t3 tv3 m key Hcore3 Hok3 Hlen) as (r & t' & Hg & Hok' & Hle' & Hcase).
      { pose proof (debt_lt (hstate tv) (hstate tv) (clk t) (hstate tv3) c2 (clk t3)
                      Hle2 Hle3 Hs3 Est ltac:(done)). lia. }
      exists r, t'. split; [done|]. split; [done|]. split.
      { eapply clock_le_trans; [exact Hle2|]. eapply clock_le_trans; done. }
      destruct Hcase as [(-> & Hn & Hk')|(-> & Hs & t1 & tv1 & tv' & j1 & k1 & Hk' & Hrest)].
      * left. split; [done|]. split; [done|]. eapply keeps_trans; done.
      * right. split; [done|]. split; [done|]. exists t1, tv1, tv', j1, k1.
        split; [|done]. eapply keeps_trans; done.
    + assert (Habs : forall k' x, (k', x) ∈ m -> test P key k' = false).
      { intros k' x Hin.
        destruct (core_entry _ _ _ _ _ Hcore Hin) as (j' & Hj' & _).
        eapply (search_absent P since HC (keys tv) key (hstate tv) (epoch (clk t)) (epoch c1) (epoch c2));
          [|done|done| |exact Hj'].
        - destruct Hgc, Hgc1; lia.
        - unfold hid. rewrite Eh. exact Hno. }
      eexists _, _. split; [reflexivity|]. split.
      { rewrite mdel_absent by done. by apply (tab_ok_with_clk t). }
      split; [done|]. left. split; [done|]. split; [by apply mget_none|].
      apply (keeps_with_clk t).
  - destruct (Hvv j k' Hj) as [x Hx].
    unfold try_to_remhash. rewrite (zread_val _ _ (Key k')) by (rewrite ?Nat2Z.id; lia || done).
    cbn [obind]. rewrite (valid_token tv Hval). cbn [andb].
    rewrite zwrite_val by lia. cbn [obind]. rewrite zwrite_val by lia. cbn [obind].
    rewrite !Nat2Z.id.
    pose proof (entries_insert _ _ _ _ _ Deleted VDeleted Hj Hx) as HI. cbn [ent app] in HI.
    pose proof (cnt_insert is_used _ _ _ Deleted Hj) as Hcu. cbn [is_used Nat.b2n] in Hcu.
    pose proof (cnt_insert is_deleted _ _ _ Deleted Hj) as Hcd. cbn [is_deleted Nat.b2n] in Hcd.
    set (tv' := with_deletions (with_entries tv (<[j:=Deleted]> (keys tv)) (<[j:=VDeleted]> (vals tv)))
                  (deletions tv + 1)).
    assert (Hin : (k', x) ∈ m) by (by eapply core_get_some).
    eexists _, _. split; [reflexivity|]. split; [|split; [exact Hgc|]].
    + eapply (tab_ok_set_vec (with_clk t c1)); try done.
      * unfold tv'. destruct Hv.
        split; cbn [with_entries with_deletions keys vals additions deletions limit];
          rewrite ?insert_length; try done.
        -- apply valued_insert; [by split|]. done.
        -- eapply (kd_perm P since HC) in v_kd; [|apply (Permutation_map fst HI)].
           cbn in v_kd. apply v_kd.
        -- lia.
        -- lia.
      * unfold tv'. cbn [with_entries with_deletions keys vals]. symmetry.
        eapply (mdel_present P since HC); [by eapply core_kd| |done].
        by rewrite <- Hmap.
      * unfold tv'. cbn [with_entries with_deletions keys vals hstate clk with_clk].
        apply placed_insert_deleted. apply Hcore1.
    + right. split; [done|]. split.
      { rewrite (mget_some P since HC m key k' x); [done|by eapply core_kd|done|done]. }
      exists (with_clk t c1), tv, tv', j, k'. split; [apply keeps_with_clk|].
      split; [done|]. split; [by repeat split|]. done.
Qed.

(** ** [remove-all-keys!] *)
Lemma remove_all_keys_ok t tv m :
  core t tv m -> tab_ok t m ->
  exists t', remove_all_keys P t = Val t' /\ tab_ok t' [] /\ keeps t t' /\ clk t' = clk t /\
    (current t' = current t -> m = [] \/ refs tv = 0).
Proof.
  intros Hcore Hok. pose proof Hcore as [Hcur Hval Hv Hmap Hpl Hw Hini].
  assert (Hlt : (current t < length (vectors t))%nat) by (by apply lookup_lt_Some in Hcur).
  unfold remove_all_keys, cur_vec, get_vec. rewrite (vread_val _ _ _ Hcur). cbn [obind].
  destruct (Z.eqb_spec (additions tv) 0) as [Ha|Ha].
  - assert (m = []) as ->.
    { destruct m as [|[k x] m]; [done|]. exfalso.
      pose proof (v_add _ _ Hv) as Hadd. pose proof (length_entries _ _ (v_valued _ _ Hv)) as Hl.
      rewrite Hmap in Hl. cbn in Hl. rewrite cnt_used_key_deleted in Hadd. lia. }
    exists t. split; [done|]. split; [done|]. split; [apply keeps_refl|]. split; [done|]. by left.
  - destruct (Z.eqb_spec (refs tv) 0) as [Hr|Hr].
    + eexists. split; [reflexivity|]. split; [|split; [|split; [done|by right]]].
      * eapply tab_ok_set_vec; try done.
        -- destruct Hv. split; cbn [clear_table_vector with_new_token keys vals additions deletions limit];
             rewrite ?replicate_length; try done.
           ++ rewrite (proj1 v_valued). apply valued_replicate.
           ++ rewrite (proj1 v_valued). by rewrite entries_replicate.
           ++ by rewrite cnt_replicate.
           ++ by rewrite cnt_replicate.
           ++ lia.
        -- cbn [clear_table_vector with_new_token keys vals]. rewrite (proj1 (v_valued _ _ Hv)).
           by rewrite entries_replicate.
        -- cbn [clear_table_vector with_new_token keys vals hstate].
           intros j k Hj. apply lookup_replicate in Hj as [? _]. done.
      * split; [|split; [|by left]].
        -- intros i tvi Hi. cbn. destruct (decide (i = current t)) as [->|Hne].
           ++ rewrite list_lookup_insert by done. simplify_eq. eexists. split; [reflexivity|].
              done.
           ++ rewrite list_lookup_insert_ne by done. by exists tvi.
        -- cbn. intros i tvi Hi Hn. apply lookup_lt_Some in Hi. rewrite insert_length in Hi.
           apply lookup_ge_None in Hn. lia.
    + destruct (make_table_vector_ok P (V := V) (initial t) Hini) as
        (dst & Hdst & Hvd & Hed & Hld & Hred & Hhd & Hrd & Hadd & Hdd & Hpld).
      rewrite Hdst. cbn [obind]. eexists. split; [reflexivity|].
      pose proof (mark_rehashing_ok _ Hv) as Hvm.
      assert (Hmk : forall i tvi, (<[current t:=mark_rehashing tv]> (vectors t) ++ [dst]) !! i = Some tvi ->
         (i = length (<[current t:=mark_rehashing tv]> (vectors t)) /\ tvi = dst) \/
         (i = current t /\ tvi = mark_rehashing tv) \/
         (i <> current t /\ vectors t !! i = Some tvi)).
      { intros i tvi Hi. apply lookup_app_Some in Hi as [Hi|[Hge Hi]].
        - right. destruct (decide (i = current t)) as [->|Hne].
          + left. rewrite list_lookup_insert in Hi by done. by simplify_eq.
          + right. by rewrite list_lookup_insert_ne in Hi by done.
        - left. apply list_lookup_singleton_Some in Hi as [Hi ->]. split; [lia|done]. }
      split; [|split; [|split; [done|]]].
      * split.
        -- exists dst. split; cbn; try done.
           ++ rewrite lookup_app_r by done. by rewrite Nat.sub_diag.
           ++ by rewrite Hed.
           ++ eapply placed_mono; [|exact Hpld]. lia.
        -- intros i tvi Hi. cbn in Hi. destruct (Hmk i tvi Hi) as [[_ ->]|[[_ ->]|[_ Hi']]].
           ++ split; [apply Hvd|by eapply (vec_ok_distinct P since HC)].
           ++ split; [apply Hvm|by apply (vec_ok_distinct P since HC _ Hvm)].
           ++ by eapply t_shape.
        -- intros i tvi Hi Hne. cbn in Hi, Hne. destruct (Hmk i tvi Hi) as [[? _]|[[_ ->]|[Hnc Hi']]].
           ++ done.
           ++ done.
           ++ by eapply (t_marked _ _ Hok).
      * split; [|split].
        -- intros i tvi Hi. cbn. destruct (decide (i = current t)) as [->|Hne].
           ++ simplify_eq. exists (mark_rehashing tv).
              rewrite lookup_app_l by (rewrite insert_length; done).
              rewrite list_lookup_insert by done. done.
           ++ exists tvi. rewrite lookup_app_l by (rewrite insert_length; by apply lookup_lt_Some in Hi).
              rewrite list_lookup_insert_ne by done. done.
        -- cbn. intros i tvi Hi Hn. destruct (Hmk i tvi Hi) as [[_ ->]|[[-> _]|[Hnc Hi']]]; congruence.
        -- right. cbn. rewrite insert_length. done.
      * cbn. rewrite insert_length. intros Heq. lia.
Qed.

(** ** Starting an iteration *)
Lemma make_initial_state_ok fuel : forall t tv m,
  core t tv m -> tab_ok t m -> (length m <= N)%nat -> (debt (hstate tv) (clk t) < fuel)%nat ->
  exists t1 tv1, core t1 tv1 m /\ tab_ok t1 m /\ keeps t t1 /\ clock_le (clk t) (clk t1) /\
    make_initial_state P grow fuel t =
    next_state (set_vec t1 (current t1) (with_refs tv1 (refs tv1 + 1)))
      (IState (current t1) (token tv1) None (Z.of_nat (length (keys tv1))) 0
         (additions tv1) (deletions tv1)).
Proof.
  induction fuel as [|f IH]; intros t tv m Hcore Hok Hlen Hf; [lia|].
  pose proof Hcore as [Hcur Hval Hv Hmap Hpl Hw Hini].
  cbn [make_initial_state]. unfold cur_vec, get_vec. rewrite (vread_val _ _ _ Hcur). cbn [obind].
  unfold needs_rehash, is_stale.
  pose proof (clock_le_gc (clk t)) as Hgc. set (c1 := gc (clk t)) in *.
  assert (Hcore1 : core (with_clk t c1) tv m).
  { split; cbn; try done. eapply placed_mono; [apply Hgc|done]. }
  pose proof (tab_ok_with_clk t m c1 Hgc Hok) as Hok1.
  rewrite (valid_token tv Hval). cbn [negb orb].
  destruct (hs_stale P (hstate tv) (epoch c1)) eqn:Est.
  - destruct (rehash_table_ok _ _ _ false Hcore1 Hok1 Hlen) as
      (t3 & tv3 & Hr & Hcore3 & Hok3 & Hk3 & Hle3 & Hs3 & _ & _); [done|].
    rewrite Hr. cbn [obind]. cbn [clk with_clk] in *.
    destruct (IH t3 tv3 m Hcore3 Hok3 Hlen) as (t1 & tv1 & Hc1 & Hok' & Hk1 & Hle1 & Hrun).
    { pose proof (debt_lt (hstate tv) (hstate tv) (clk t) (hstate tv3) c1 (clk t3)
                    Hgc Hle3 Hs3 Est ltac:(done)). lia. }
    exists t1, tv1. split; [done|]. split; [done|]. split.
    { eapply keeps_trans; [apply (keeps_with_clk t c1)|]. eapply keeps_trans; done. }
    split; [|done]. eapply clock_le_trans; [exact Hgc|]. eapply clock_le_trans; done.
  - exists (with_clk t c1), tv. split; [done|]. split; [done|].
    split; [apply keeps_with_clk|]. split; [done|]. done.
Qed.

End Ops.
