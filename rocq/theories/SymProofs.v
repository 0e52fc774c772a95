(** Proofs about the interning of symbols. *)
From Verif Require Import Base TableModel TableSpec TableProbe TableVec TableOps TableProofs TableProps HashModel HashSpec HashProofs.
From Coq Require Import ZifyBool ZifyNat.
Open Scope Z_scope.

Notation SP := symbol_protocol.
Notation HC := symbol_contract.

Lemma test_symbol a b : test SP a b = true <-> same_folded a b.
Proof. cbn. destruct (ci_string_equal_ok a b) as (x & -> & Hx). exact Hx. Qed.

Section Sym.
Context (N : nat) (HN : grow_ok default_grow_size (Z.of_nat N)).
Implicit Types (t : stable) (m : list (list Z * nat)).

Lemma never_stale (h : unit) e : hs_stale SP h e = false.
Proof. done. Qed.

(** When the name is there, [gethash-or-set] returns what [element] does. *)
Lemma gos_present f t tv m key new x :
  core SP t tv m -> tab_ok SP t m -> mget (test SP) m key = Some x ->
  exists t', gethash_or_set (S f) t key new = Val (x, t') /\ tab_ok SP t' m /\
    (length (schedule (clk t')) <= length (schedule (clk t)))%nat.
Proof.
  intros Hcore Hok Hm. pose proof Hcore as [Hcur Hval Hv Hmap Hpl Hw Hini].
  cbn [gethash_or_set]. unfold cur_vec, get_vec. rewrite (vread_val _ _ _ Hcur). cbn [obind].
  unfold hash. destruct (hashf SP (epoch (gc (clk t))) key) as [id hh] eqn:Eh.
  pose proof (clock_le_gc (clk t)) as Hgc.
  destruct (vec_search SP tv key id Hv) as (j & s & Hse & Hj & Hcase).
  rewrite Hse. cbn [obind].
  destruct Hcase as [(-> & Hreach & Hno)|(k' & -> & Ht)].
  - exfalso. apply mget_Some_inv in Hm as (k' & Hin & Ht).
    destruct (core_entry SP _ _ _ _ _ Hcore Hin) as (j' & Hj' & _).
    enough (test SP key k' = false) by congruence.
    eapply (search_absent SP _ HC (keys tv) key (hstate tv) (epoch (clk t)) (epoch (gc (clk t))) (epoch (gc (clk t))));
      [destruct Hgc; lia|done|done| |exact Hj'].
    unfold hid. rewrite Eh. exact Hno.
  - destruct (proj2 (v_valued _ _ Hv) j k' Hj) as [y Hy].
    rewrite (zread_val _ _ (VVal y)) by (rewrite ?Nat2Z.id; lia || done). cbn [obind].
    rewrite (valid_token tv Hval). cbn [obind].
    assert (mget (test SP) m key = Some y) as Hy'.
    { eapply (mget_some SP _ HC); [by eapply (core_kd SP _ HC)|by eapply core_get_some|done]. }
    assert (y = x) as -> by congruence.
    eexists. split; [reflexivity|]. split; [by apply tab_ok_with_clk|]. cbn. apply Hgc.
Qed.

(** When it is not, it does what [element-setter] does. *)
Lemma gos_absent f : forall t tv m key new t',
  core SP t tv m -> tab_ok SP t m -> (length m <= N)%nat -> mget (test SP) m key = None ->
  puthash SP default_grow_size f t key new = Val t' ->
  gethash_or_set f t key new = Val (new, t').
Proof.
  induction f as [|f IH]; intros t tv m key new t' Hcore Hok Hlen Hm Hp; [done|].
  pose proof Hcore as [Hcur Hval Hv Hmap Hpl Hw Hini].
  cbn [gethash_or_set puthash] in *. unfold cur_vec, get_vec in *.
  rewrite (vread_val _ _ _ Hcur) in *. cbn [obind] in *.
  unfold hash in *. destruct (hashf SP (epoch (gc (clk t))) key) as [id hh] eqn:Eh.
  pose proof (clock_le_gc (clk t)) as Hgc.
  destruct (vec_search SP tv key id Hv) as (j & s & Hse & Hj & Hcase).
  rewrite Hse in *. cbn [obind] in *.
  destruct Hcase as [(-> & Hreach & Hno)|(k' & -> & Ht)].
  - destruct hh, (hstate tv) as [] eqn:Ehs.
    unfold try_to_puthash_new, is_stale in *. cbn [clk with_clk keys with_hstate hstate] in *.
    rewrite (zread_val _ _ Empty) in * by (rewrite ?Nat2Z.id; lia || done). cbn [obind] in *.
    set (c1 := gc (clk t)) in *. pose proof (clock_le_gc c1) as Hgc1. set (c2 := gc c1) in *.
    assert (Htv : with_hstate tv (hs_merge SP () ()) = tv).
    { destruct tv. cbn in Ehs |- *. unfold with_hstate. cbn. by subst. }
    rewrite Ehs, Htv in *. rewrite (valid_token tv Hval) in *.
    rewrite never_stale in *. cbn [andb negb] in *. rewrite !andb_true_r in *.
    destruct (full tv) eqn:Ef; cbn [negb] in *.
    + cbn [obind] in *. unfold puthash_failed, needs_rehash, is_stale in *.
      rewrite (valid_token tv Hval) in *. rewrite never_stale in *. cbn [negb orb] in *.
      rewrite Ef in *. cbn [clk with_clk set_vec] in *.
      set (c3 := gc c2) in *. pose proof (clock_le_gc c2) as Hgc2.
      set (t2 := with_clk (set_vec (with_clk (with_clk t c1) c2) (current (with_clk t c1)) tv) c3) in *.
      assert (Hle3 : clock_le (clk t) c3) by (eapply clock_le_trans; [exact Hgc|]; eapply clock_le_trans; done).
      assert (Ht2 : t2 = with_clk t c3).
      { unfold t2, set_vec, with_clk. cbn. by rewrite (list_insert_id _ _ _ Hcur). }
      assert (Hok2 : tab_ok SP t2 m) by (rewrite Ht2; by apply tab_ok_with_clk).
      assert (Hcore2 : core SP t2 tv m).
      { rewrite Ht2. split; cbn; try done. eapply placed_mono; [apply Hle3|done]. }
      destruct (rehash_table_ok SP _ HC default_grow_size N HN t2 tv m true Hcore2 Hok2 Hlen) as
        (t4 & tv4 & Hr & Hcore4 & Hok4 & _); [done|].
      rewrite Hr in *. cbn [obind] in *. by eapply IH.
    + cbn [with_additions with_entries vals keys] in *.
      assert (Hjl : (j < length (keys tv))%nat) by (by apply lookup_lt_Some in Hj).
      pose proof (v_valued _ _ Hv) as [Hvl _].
      rewrite zwrite_val in * by lia. cbn [obind] in *. rewrite zwrite_val in * by lia. cbn [obind] in *.
      injection Hp as <-. done.
  - exfalso. destruct (proj2 (v_valued _ _ Hv) j k' Hj) as [y Hy].
    assert (mget (test SP) m key = Some y); [|congruence].
    eapply (mget_some SP _ HC); [by eapply (core_kd SP _ HC)|by eapply core_get_some|done].
Qed.

Definition enough_fuel (t : stable) (f : nat) : Prop := (2 * length (schedule (clk t)) + 3 <= f)%nat.

(** Storing under a key that is absent. *)
Lemma put_absent f t tv m key new :
  core SP t tv m -> tab_ok SP t m -> (length m <= N)%nat -> enough_fuel t f ->
  mget (test SP) m key = None ->
  exists t', puthash SP default_grow_size f t key new = Val t' /\ tab_ok SP t' ((key, new) :: m) /\
    (length (schedule (clk t')) <= length (schedule (clk t)))%nat.
Proof.
  intros Hcore Hok Hlen Hf Hm.
  destruct (puthash_ok SP _ HC default_grow_size N HN f t tv m key new Hcore Hok Hlen)
    as (t1 & t' & tv1 & tv' & Hp & _ & _ & _ & _ & Hok' & Hle).
  { unfold enough_fuel in Hf. unfold debt. cbn [freshb].
    pose proof (fullness_bound tv). lia. }
  rewrite (mset_new SP _ _ _ Hm) in Hok'. exists t'. split; [done|]. split; [done|]. apply Hle.
Qed.

Lemma gos_ok f t tv m key new :
  core SP t tv m -> tab_ok SP t m -> (length m <= N)%nat -> enough_fuel t f ->
  exists x t', gethash_or_set f t key new = Val (x, t') /\
    (length (schedule (clk t')) <= length (schedule (clk t)))%nat /\
    ((mget (test SP) m key = Some x /\ tab_ok SP t' m) \/
     (mget (test SP) m key = None /\ x = new /\ tab_ok SP t' ((key, new) :: m))).
Proof.
  intros Hcore Hok Hlen Hf. destruct (mget (test SP) m key) as [x|] eqn:Em.
  - destruct f as [|f]; [unfold enough_fuel in Hf; lia|].
    destruct (gos_present f t tv m key new x Hcore Hok Em) as (t' & Hg & Hok' & Hs).
    exists x, t'. split; [done|]. split; [done|]. by left.
  - destruct (put_absent f t tv m key new Hcore Hok Hlen Hf Em) as (t' & Hp & Hok' & Hs).
    exists new, t'. split; [by eapply gos_absent|]. split; [done|]. by right.
Qed.

Lemma make_symbol_ok f t tv m key new :
  core SP t tv m -> tab_ok SP t m -> (length m <= N)%nat -> enough_fuel t f ->
  exists x t', make_symbol (S f) t key new = Val (x, t') /\
    (length (schedule (clk t')) <= length (schedule (clk t)))%nat /\
    ((mget (test SP) m key = Some x /\ tab_ok SP t' m) \/
     (mget (test SP) m key = None /\ x = new /\ tab_ok SP t' ((key, new) :: m))).
Proof.
  intros Hcore Hok Hlen Hf.
  pose proof Hcore as [Hcur Hval Hv Hmap Hpl Hw Hini].
  cbn [make_symbol]. unfold cur_vec, get_vec. rewrite (vread_val _ _ _ Hcur). cbn [obind].
  unfold hash. destruct (hashf SP (epoch (gc (clk t))) key) as [id hh] eqn:Eh.
  pose proof (clock_le_gc (clk t)) as Hgc.
  destruct (vec_search SP tv key id Hv) as (j & s & Hse & Hj & Hcase).
  rewrite Hse. cbn [obind].
  destruct Hcase as [(-> & Hreach & Hno)|(k' & -> & Ht)].
  - set (c1 := gc (clk t)) in *. pose proof (clock_le_gc c1) as Hgc1. set (c2 := gc c1) in *.
    pose proof (clock_le_gc c2) as Hgc2.
    assert (Hm : mget (test SP) m key = None).
    { apply mget_none. intros k' x Hin.
      destruct (core_entry SP _ _ _ _ _ Hcore Hin) as (j' & Hj' & _).
      eapply (search_absent SP _ HC (keys tv) key (hstate tv) (epoch (clk t)) (epoch c1) (epoch c1));
        [destruct Hgc; lia|done|done| |exact Hj'].
      unfold hid. rewrite Eh. exact Hno. }
    unfold needs_rehash, is_stale. cbn [clk with_clk].
    rewrite (valid_token tv Hval), never_stale. cbn [negb orb].
    unfold try_to_puthash_new, is_stale. cbn [clk with_clk keys with_hstate hstate].
    rewrite (zread_val _ _ Empty) by (rewrite ?Nat2Z.id; lia || done). cbn [obind].
    assert (Htv : with_hstate tv (hs_merge SP (hstate tv) (hstate tv)) = tv).
    { destruct tv as [? ? ? ? ? ? ? [] ?]. done. }
    fold c1 c2. rewrite Htv, (valid_token tv Hval), never_stale. cbn [andb negb]. rewrite !andb_true_r.
    set (c3 := gc c2) in *.
    assert (Hle1 : clock_le (clk t) c1) by done.
    assert (Hle3 : clock_le (clk t) c3).
    { eapply clock_le_trans; [exact Hgc|]; eapply clock_le_trans; done. }
    destruct (full tv) eqn:Ef; cbn [negb].
    + assert (Ht2 : set_vec (with_clk (with_clk (with_clk t c1) c2) c3) (current (with_clk (with_clk t c1) c2)) tv = with_clk t c3).
      { unfold set_vec, with_clk. cbn. by rewrite (list_insert_id _ _ _ Hcur). }
      cbn [obind]. rewrite Ht2.
      assert (Hok2 : tab_ok SP (with_clk t c3) m) by (by apply tab_ok_with_clk).
      assert (Hcore2 : core SP (with_clk t c3) tv m).
      { split; cbn; try done. eapply placed_mono; [apply Hle3|done]. }
      destruct (gos_ok f (with_clk t c3) tv m key new Hcore2 Hok2 Hlen) as (x & t' & Hg & Hs & Hor).
      { unfold enough_fuel in *. cbn. destruct Hle3 as (_ & ? & _). lia. }
      exists x, t'. split; [done|]. split; [|done]. cbn in Hs. destruct Hle3 as (_ & ? & _). lia.
    + (* as [puthash] started one collection point later *)
      assert (Hok1 : tab_ok SP (with_clk t c1) m) by (by apply tab_ok_with_clk).
      assert (Hcore1 : core SP (with_clk t c1) tv m).
      { split; cbn; try done. eapply placed_mono; [apply Hle1|done]. }
      destruct (put_absent (S f) (with_clk t c1) tv m key new Hcore1 Hok1 Hlen) as (t' & Hp & Hok' & Hs).
      { unfold enough_fuel in *. cbn. destruct Hle1 as (_ & ? & _). lia. }
      { done. }
      assert (Hjl : (j < length (keys tv))%nat) by (by apply lookup_lt_Some in Hj).
      pose proof (v_valued _ _ Hv) as [Hvl _].
      cbn [with_additions with_entries vals keys].
      rewrite zwrite_val by lia. cbn [obind]. rewrite zwrite_val by lia. cbn [obind].
      cbn [puthash] in Hp. unfold cur_vec, get_vec in Hp. cbn [with_clk vectors current] in Hp.
      rewrite (vread_val _ _ _ Hcur) in Hp. cbn [obind] in Hp.
      unfold hash in Hp. cbn [with_clk clk] in Hp.
      change (hashf SP (epoch (gc c1)) key) with (hashf SP (epoch c1) key) in Hp.
      rewrite Eh, Hse in Hp. cbn [obind] in Hp.
      unfold try_to_puthash_new, is_stale in Hp. cbn [clk with_clk keys with_hstate hstate] in Hp.
      rewrite (zread_val _ _ Empty) in Hp by (rewrite ?Nat2Z.id; lia || done). cbn [obind] in Hp.
      assert (Htv' : with_hstate tv (hs_merge SP (hstate tv) hh) = tv).
      { destruct hh, tv as [? ? ? ? ? ? ? [] ?]. done. }
      fold c2 c3 in Hp. rewrite Htv', (valid_token tv Hval), never_stale, Ef in Hp.
      cbn [andb negb] in Hp. cbn [with_additions with_entries vals keys] in Hp.
      rewrite zwrite_val in Hp by lia. cbn [obind] in Hp. rewrite zwrite_val in Hp by lia.
      cbn [obind] in Hp. injection Hp as <-.
      eexists _, _. split; [reflexivity|]. split; [|right; split; [done|]; split; [done|exact Hok']].
      cbn. destruct Hle3 as (_ & ? & _). done.
  - destruct (proj2 (v_valued _ _ Hv) j k' Hj) as [y Hy].
    rewrite (zread_val _ _ (VVal y)) by (rewrite ?Nat2Z.id; lia || done). cbn [obind].
    rewrite (valid_token tv Hval).
    eexists y, _. split; [reflexivity|]. cbn. split; [apply Hgc|]. left. split.
    + eapply (mget_some SP _ HC); [by eapply (core_kd SP _ HC)|by eapply core_get_some|done].
    + by apply tab_ok_with_clk.
Qed.

(** ** Histories *)

(** What is known about the names and symbols: [m] are the interned symbols
    with their names, [log] the requests so far with their answers. *)
Record known (w : sworld) (m : list (list Z * nat)) (log : list (list Z * nat)) : Prop := {
  kn_kd : kd SP (map fst m);
  kn_names : forall k x, (k, x) ∈ m -> names w !! x = Some k;
  kn_log : forall s x, (s, x) ∈ log -> mget (test SP) m s = Some x;
  kn_len : (length m <= length log)%nat;
}.

Inductive sok (w : sworld) (m log : list (list Z * nat)) : Prop :=
| sok_before :
    booted w = false -> known w m log -> map snd m = oblist w ->
    (forall k x, (k, x) ∈ m -> no_null k) -> tab_ok SP (symbols w) [] -> sok w m log
| sok_after :
    booted w = true -> known w m log -> tab_ok SP (symbols w) m -> sok w m log.

Lemma mget_cons m (k s : list Z) (x : nat) :
  mget (test SP) ((k, x) :: m) s = if test SP s k then Some x else mget (test SP) m s.
Proof. unfold mget. cbn [find fst]. by destruct (test SP s k). Qed.

Lemma same_folded_sym a b : same_folded a b -> same_folded b a.
Proof. unfold same_folded. congruence. Qed.

Lemma known_old w m log s x :
  known w m log -> mget (test SP) m s = Some x -> known w m ((s, x) :: log).
Proof.
  intros [H1 H2 H3 H4] Hm. split; try done.
  - intros s' x' Hin. apply elem_of_cons in Hin as [[= -> ->]|Hin]; [done|by apply H3].
  - cbn. lia.
Qed.

Lemma known_names w w' m log :
  known w m log -> (forall x k, names w !! x = Some k -> names w' !! x = Some k) -> known w' m log.
Proof. intros [H1 H2 H3 H4] Hn. split; try done. intros k x Hin. by apply Hn, H2. Qed.

Lemma mget_new_keep m s s' x x' :
  mget (test SP) m s = None -> mget (test SP) m s' = Some x' ->
  mget (test SP) ((s, x) :: m) s' = Some x'.
Proof.
  intros Hn Hs. rewrite mget_cons. destruct (test SP s' s) eqn:E; [|done].
  rewrite (mget_same SP _ HC _ _ _ E) in Hs. congruence.
Qed.

Lemma kd_new m s : kd SP (map fst m) -> mget (test SP) m s = None -> kd SP (s :: map fst m).
Proof.
  intros Hk Hn. cbn. split; [|done]. intros k' Hin. apply elem_of_map_fst_inv in Hin as [x Hx].
  by eapply (mget_None_inv SP).
Qed.

Lemma known_new w w' m log s :
  known w m log -> mget (test SP) m s = None -> names w' = names w ++ [s] ->
  known w' ((s, length (names w)) :: m) ((s, length (names w)) :: log).
Proof.
  intros [H1 H2 H3 H4] Hn Hw. split.
  - by apply kd_new.
  - intros k x Hin. rewrite Hw. apply elem_of_cons in Hin as [[= -> ->]|Hin].
    + by apply list_lookup_middle.
    + apply lookup_app_l_Some. by apply H2.
  - intros s' x Hin. apply elem_of_cons in Hin as [[= -> ->]|Hin].
    + rewrite mget_cons. by rewrite (test_refl SP _ HC).
    + eapply mget_new_keep; [done|by apply H3].
  - cbn. lia.
Qed.

(** A permutation of a map is the same map. *)
Lemma mget_perm m m' s : kd SP (map fst m) -> m ≡ₚ m' -> mget (test SP) m s = mget (test SP) m' s.
Proof.
  intros Hk Hp.
  assert (Hk' : kd SP (map fst m')).
  { eapply (kd_perm SP _ HC); [|exact Hk]. by apply Permutation_map. }
  destruct (mget (test SP) m' s) as [x|] eqn:E.
  - apply mget_Some_inv in E as (k & Hin & Ht). eapply (mget_some SP _ HC); [done| |done].
    by rewrite Hp.
  - apply mget_none. intros k x Hin. eapply (mget_None_inv SP); [exact E|]. by rewrite <- Hp.
Qed.

(** *** Before the Dylan library is initialised *)
Lemma strncasecmp_ok s1 : forall s2, no_null s1 -> length s1 = length s2 ->
  strncasecmp_eq s1 s2 (length s2) = true <-> same_folded s1 s2.
Proof.
  induction s1 as [|c1 s1 IH]; intros [|c2 s2] H1 Hl; try done.
  cbn [length strncasecmp_eq]. unfold same_folded. cbn [map].
  rewrite (as_lowercase_fold c1), (as_lowercase_fold c2).
  assert (c1 <> 0) by (intros ->; apply H1; left).
  destruct (fold_letter c1 =? fold_letter c2) eqn:E.
  - rewrite (proj2 (Z.eqb_neq c1 0)) by done. apply Z.eqb_eq in E. rewrite E.
    rewrite IH.
    + unfold same_folded. split; [by intros ->|by intros [= ->]].
    + intros Hin. apply H1. by right.
    + cbn in Hl. lia.
  - apply Z.eqb_neq in E. split; [done|]. intros [= H' _]. done.
Qed.

Lemma oblist_find w m s :
  (forall k x, (k, x) ∈ m -> names w !! x = Some k) ->
  (forall k x, (k, x) ∈ m -> no_null k) ->
  find (oblist_matches (names w) s) (map snd m) = mget (test SP) m s.
Proof.
  induction m as [|[k x] m IH]; intros Hn Hz; [done|].
  rewrite mget_cons. cbn [map snd find]. unfold oblist_matches at 1.
  rewrite (Hn k x) by left.
  assert ((length k =? length s)%nat && strncasecmp_eq k s (length s) = test SP s k) as ->.
  { apply eq_bool_prop_intro. rewrite !Is_true_true, test_symbol, andb_true_iff, Nat.eqb_eq. split.
    - intros [Hl Hs]. apply strncasecmp_ok in Hs; [by apply same_folded_sym|apply (Hz k x); left|done].
    - intros Hs. assert (Hl : length k = length s).
      { apply (f_equal length) in Hs. by rewrite !map_length in Hs. }
      split; [done|]. apply strncasecmp_ok; [apply (Hz k x); left|done|by apply same_folded_sym]. }
  destruct (test SP s k); [done|]. apply IH; intros k' x' Hin.
  - apply Hn. by right.
  - apply (Hz k' x'). by right.
Qed.

Lemma before_ok w m log s :
  booted w = false -> sok w m log -> no_null s ->
  exists x w' m', string_as_symbol w s = (x, w') /\ sok w' m' ((s, x) :: log).
Proof.
  intros Hb Hs Hz. destruct Hs as [_ Hk Hob Hnn Ht|]; [|congruence].
  unfold string_as_symbol. rewrite <- Hob, (oblist_find w m s (kn_names _ _ _ Hk) Hnn).
  destruct (mget (test SP) m s) as [x|] eqn:Em.
  - exists x, w, m. split; [done|]. apply sok_before; try done. by apply known_old.
  - set (w' := SWorld (names w ++ [s]) (map snd m ++ [length (names w)]) (booted w) (symbols w)).
    exists (length (names w)), w', (m ++ [(s, length (names w))]). split; [done|].
    assert (Hp : (s, length (names w)) :: m ≡ₚ m ++ [(s, length (names w))]).
    { apply Permutation_cons_append. }
    pose proof (known_new w w' m log s Hk Em eq_refl) as [K1 K2 K3 K4].
    apply sok_before; try done.
    + split.
      * eapply (kd_perm SP _ HC); [|exact K1]. apply (Permutation_map fst Hp).
      * intros k x Hin. rewrite <- Hp in Hin. by apply K2.
      * intros s' x Hin. rewrite <- (mget_perm _ _ s' K1 Hp). by apply K3.
      * by rewrite <- Hp.
    + cbn. by rewrite map_app.
    + intros k x Hin. apply elem_of_app in Hin as [Hin|Hin]; [by eapply Hnn|].
      by apply elem_of_list_singleton in Hin as [= -> _].
Qed.

(** *** Initialisation *)
Lemma install_ok f ns m : forall t m0,
  tab_ok SP t m0 -> enough_fuel t f -> (length m0 + length m <= N)%nat ->
  (forall k x, (k, x) ∈ m -> ns !! x = Some k) ->
  kd SP (map fst (rev m ++ m0)) ->
  exists t', install_loop f ns (map snd m) t = Val t' /\ tab_ok SP t' (rev m ++ m0).
Proof.
  induction m as [|[k x] m IH]; intros t m0 Hok Hf Hlen Hn Hk; [by exists t|].
  cbn [map snd install_loop]. rewrite (vread_val _ _ k) by (apply Hn; left). cbn [obind].
  cbn [length] in Hlen. cbn [rev] in Hk. rewrite <- app_assoc in Hk. cbn [app] in Hk.
  assert (Hm : mget (test SP) m0 k = None).
  { apply mget_none. intros k' x' Hin. rewrite map_app in Hk. apply (kd_sub SP) in Hk. cbn in Hk.
    apply Hk. by eapply elem_of_map_fst. }
  destruct (t_core _ _ _ Hok) as [tv Hcore].
  destruct (put_absent f t tv m0 k x Hcore Hok ltac:(lia) Hf Hm) as (t1 & -> & Hok1 & Hs1). cbn [obind].
  destruct (IH t1 ((k, x) :: m0) Hok1) as (t' & Hi & Hok').
  - unfold enough_fuel in *. lia.
  - cbn [length]. lia.
  - intros k' x' Hin. apply Hn. by right.
  - done.
  - exists t'. split; [done|]. cbn [rev]. by rewrite <- app_assoc.
Qed.

(** *** Steps *)
Definition sop_ok (w : sworld) (o : sop) : Prop :=
  match o with
  | SMake s | SResolve s => booted w = false -> no_null s
  | SBoot => True
  end.
Definition add_log (o : sop) (r : option nat) (log : list (list Z * nat)) : list (list Z * nat) :=
  match o, r with
  | SMake s, Some x | SResolve s, Some x => (s, x) :: log
  | _, _ => log
  end.

Lemma after_ok w m log s x t' :
  booted w = true -> known w m log ->
  (mget (test SP) m s = Some x /\ tab_ok SP t' m \/
   mget (test SP) m s = None /\ x = length (names w) /\ tab_ok SP t' ((s, length (names w)) :: m)) ->
  exists m', sok (SWorld (names w ++ [s]) (oblist w) true t') m' ((s, x) :: log).
Proof.
  intros Hb Hk [[Hm Hok']|(Hm & -> & Hok')].
  - exists m. apply sok_after; try done. apply known_old; [|done].
    eapply known_names; [exact Hk|]. intros y k Hy. cbn. by apply lookup_app_l_Some.
  - eexists. apply sok_after; [done| |exact Hok']. by apply (known_new w).
Qed.

Lemma sstep_ok w m log o :
  sok w m log -> (length log < N)%nat -> sop_ok w o ->
  exists r w' m', sstep w o = Val (r, w') /\ sok w' m' (add_log o r log) /\
    (o <> SBoot -> is_Some r) /\
    booted w' = (match o with SBoot => true | _ => booted w end).
Proof.
  intros Hs Hlen Ho. destruct o as [s|s|].
  - cbn [sstep]. destruct (booted w) eqn:Eb.
    + destruct Hs as [|_ Hk Ht]; [congruence|]. destruct (t_core _ _ _ Ht) as [tv Hcore].
      unfold symbol_fuel, retry_fuel.
      replace (2 * length (schedule (clk (symbols w))) + 6)%nat
        with (S (2 * length (schedule (clk (symbols w))) + 5)) by lia.
      destruct (make_symbol_ok (2 * length (schedule (clk (symbols w))) + 5) _ tv m s (length (names w)) Hcore Ht)
        as (x & t' & -> & _ & Hor).
      { pose proof (kn_len _ _ _ Hk). lia. }
      { unfold enough_fuel. lia. }
      cbn [obind]. destruct (after_ok w m log s x t' Eb Hk Hor) as [m' Hm'].
      eexists _, _, m'. split; [reflexivity|]. split; [exact Hm'|]. split; [by eexists|done].
    + destruct (before_ok w m log s Eb Hs (Ho Eb)) as (x & w' & m' & Hw' & Hs').
      rewrite Hw'. eexists _, _, m'. split; [reflexivity|]. split; [exact Hs'|]. split; [by eexists|].
      revert Hw'. unfold string_as_symbol. destruct find; intros [= _ <-]; done.
  - cbn [sstep]. destruct (booted w) eqn:Eb.
    + destruct Hs as [|_ Hk Ht]; [congruence|]. destruct (t_core _ _ _ Ht) as [tv Hcore].
      destruct (gos_ok (symbol_fuel (symbols w)) _ tv m s (length (names w)) Hcore Ht)
        as (x & t' & -> & _ & Hor).
      { pose proof (kn_len _ _ _ Hk). lia. }
      { unfold enough_fuel, symbol_fuel, retry_fuel. lia. }
      cbn [obind]. destruct (after_ok w m log s x t' Eb Hk Hor) as [m' Hm'].
      eexists _, _, m'. split; [reflexivity|]. split; [exact Hm'|]. split; [by eexists|done].
    + destruct (before_ok w m log s Eb Hs (Ho Eb)) as (x & w' & m' & Hw' & Hs').
      rewrite Hw'. eexists _, _, m'. split; [reflexivity|]. split; [exact Hs'|]. split; [by eexists|].
      revert Hw'. unfold string_as_symbol. destruct find; intros [= _ <-]; done.
  - cbn [sstep]. destruct (booted w) eqn:Eb.
    + eexists _, _, m. split; [reflexivity|]. split; [done|]. split; [done|done].
    + destruct Hs as [_ Hk Hob Hnn Ht|]; [|congruence].
      destruct Hk as [K1 K2 K3 K4].
      assert (Hp : m ≡ₚ rev m) by apply Permutation_rev.
      destruct (install_ok (symbol_fuel (symbols w)) (names w) m (symbols w) [] Ht) as (t' & Hi & Hok').
      { unfold enough_fuel, symbol_fuel, retry_fuel. lia. }
      { cbn. lia. }
      { done. }
      { rewrite app_nil_r. eapply (kd_perm SP _ HC); [|exact K1]. by apply Permutation_map. }
      rewrite <- Hob, Hi. cbn [obind]. rewrite app_nil_r in Hok'.
      eexists _, _, (rev m). split; [reflexivity|]. split; [|split; [done|done]].
      apply sok_after; try done. split.
      * eapply (kd_perm SP _ HC); [|exact K1]. by apply Permutation_map.
      * intros k x Hin. rewrite <- Hp in Hin. by apply K2.
      * intros s' x Hin. rewrite <- (mget_perm _ _ s' K1 Hp). by apply K3.
      * by rewrite <- Hp.
Qed.

End Sym.

Lemma srun_ok N (HN : grow_ok default_grow_size (Z.of_nat N)) os : forall w m log,
  sok w m log -> (length log + length os <= N)%nat ->
  (booted w = false -> Forall no_null (preboot os)) ->
  exists rs w' m', srun w os = Val (rs, w') /\
    length (requested os) = length (omap id rs) /\
    sok w' m' (rev (zip (requested os) (omap id rs)) ++ log).
Proof.
  induction os as [|o os IH]; intros w m log Hs Hlen Hz.
  { exists [], w, m. done. }
  cbn [length] in Hlen.
  destruct (sstep_ok N HN w m log o Hs ltac:(lia)) as (r & w1 & m1 & Hst & Hs1 & Hr & Hb).
  { destruct o; cbn; [| |done]; intros E; specialize (Hz E); by inversion Hz. }
  cbn [srun]. rewrite Hst. cbn [obind].
  destruct (IH w1 m1 _ Hs1) as (rs & w' & m' & -> & Hl & Hs').
  { destruct o; cbn [add_log]; [destruct (Hr ltac:(done)) as [x ->]..|]; cbn [length]; lia. }
  { intros E. rewrite Hb in E. destruct o; [| |done]; specialize (Hz E); by inversion Hz. }
  cbn [obind]. exists (r :: rs), w', m'. split; [done|].
  destruct o as [s|s|].
  - destruct (Hr ltac:(done)) as [x ->].
    change (requested (SMake s :: os)) with (s :: requested os).
    change (omap id (Some x :: rs)) with (x :: omap id rs).
    cbn [length zip zip_with rev]. split; [by rewrite Hl|].
    rewrite <- app_assoc. exact Hs'.
  - destruct (Hr ltac:(done)) as [x ->].
    change (requested (SResolve s :: os)) with (s :: requested os).
    change (omap id (Some x :: rs)) with (x :: omap id rs).
    cbn [length zip zip_with rev]. split; [by rewrite Hl|].
    rewrite <- app_assoc. exact Hs'.
  - assert (r = None) as ->.
    { revert Hst. cbn [sstep]. destruct (booted w); [by intros [= <- _]|].
      destruct install_loop; cbn [obind]; try done. by intros [= <- _]. }
    split; [exact Hl|]. exact Hs'.
Qed.
