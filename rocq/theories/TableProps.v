(** C06, C07, C08: hash tables. *)
From Verif Require Import Base TableModel TableSpec TableProbe TableVec TableOps TableProofs.
From Coq Require Import ZifyBool ZifyNat.
Open Scope Z_scope.

(** ** C06: a table behaves as a finite map

    For every key test and hash function that agree, every collector schedule,
    every grow-size function that gives usable answers and every history of
    operations (including iterations that are interleaved with changes), the
    results are ones the finite map of TableSpec.v allows; in particular no
    operation fails to terminate and none touches a slot that is not there. *)
Theorem C06_table_is_finite_map {K V HS : Type} (P : protocol K HS) since grow n size c
    (os : list (op (K := K) (V := V))) :
  contract P since -> grow_ok grow (Z.of_nat n) -> size <= max_entries ->
  (adds os <= n)%nat ->
  exists t rs w a, make_table P size false c = Val t /\
    run P grow (World t []) os = Val (rs, w) /\
    spec_run (test P) (AWorld [] []) os rs a.
Proof.
  intros HC HN Hs Hos.
  destruct (make_table_ok P since HC (V := V) size c Hs) as (t & Ht & Hw).
  destruct (run_ok P since HC grow n HN os _ _ Hw) as (rs & w & a & Hr & Hsp & _); [cbn; lia|].
  exists t, rs, w, a. done.
Qed.
Print Assumptions C06_table_is_finite_map.

(** The grow-size function that tables get by default is usable. *)
Theorem C06_default_growth n : 2 * n + 14 <= max_entries -> grow_ok default_grow_size n.
Proof.
  intros H. unfold grow_ok, max_entries in *. split; [|intros p Hp; exists (2 * p)].
  - destruct (Z.le_gt_cases 0 n); lia.
  - split; [done|lia].
Qed.
Print Assumptions C06_default_growth.

(** The laws of the map the histories are compared with. *)
Theorem C06_map_laws {K V HS : Type} (P : protocol K HS) since (m : list (K * V)) k k' v :
  contract P since ->
  mget (test P) (mset (test P) m k v) k = Some v /\
  mget (test P) (mdel (test P) m k) k = None /\
  (test P k k' = false ->
   mget (test P) (mset (test P) m k v) k' = mget (test P) m k' /\
   mget (test P) (mdel (test P) m k) k' = mget (test P) m k').
Proof.
  intros HC. split; [|split].
  - unfold mset. destruct (existsb (fun p => test P k p.1) m) eqn:E.
    + apply existsb_exists in E as ([k1 x] & Hin & Ht). cbn in Ht.
      induction m as [|[a y] m IH]; [done|]. cbn. destruct (test P k a) eqn:Ea; cbn; rewrite Ea; [done|].
      destruct Hin as [[= -> ->]|Hin]; [congruence|]. by apply IH.
    + cbn. by rewrite (test_refl P since HC).
  - unfold mdel. apply mget_none. intros k1 x Hin.
    apply elem_of_list_In, filter_In in Hin as [_ Hn]. by apply negb_true_iff in Hn.
  - intros Hf. assert (Hsame : forall a, test P k a = true -> test P k' a = false).
    { intros a Ha. destruct (test P k' a) eqn:E; [|done]. rewrite <- Hf. symmetry.
      eapply (test_trans P since HC); [exact Ha|]. by apply (test_sym P since HC). }
    split.
    + unfold mset. destruct (existsb (fun p => test P k p.1) m).
      * induction m as [|[a y] m IH]; [done|]. unfold mget in *. cbn.
        destruct (test P k a) eqn:Ea; cbn.
        -- by rewrite (Hsame a Ea).
        -- destruct (test P k' a); [done|exact IH].
      * unfold mget. cbn. rewrite (Hsame k) by apply (test_refl P since HC). done.
    + induction m as [|[a y] m IH]; [done|]. unfold mget, mdel in *. cbn.
      destruct (test P k a) eqn:Ea; cbn.
      * by rewrite (Hsame a Ea).
      * destruct (test P k' a); [done|exact IH].
Qed.
Print Assumptions C06_map_laws.

(** A protocol whose hash codes are addresses that every collection changes. *)
Definition moving : protocol Z (option nat) := {|
  test := Z.eqb;
  hashf e k := ((k * 7919 + Z.of_nat e * 104729) mod 1000003, Some e);
  hs_new := None;
  hs_merge a b := match a, b with
                  | None, o | o, None => o
                  | Some x, Some y => Some (x `min` y)%nat
                  end;
  hs_stale h e := match h with None => false | Some e0 => (e0 <? e)%nat end;
|}.

Lemma moving_contract : contract moving (fun h => h).
Proof.
  split; cbn -[Nat.ltb Nat.min].
  - apply Z.eqb_refl.
  - intros k k'. rewrite Z.eqb_sym. done.
  - intros k1 k2 k3 H1 H2. apply Z.eqb_eq in H1, H2. subst. apply Z.eqb_refl.
  - intros e k k' H. apply Z.eqb_eq in H. by subst.
  - intros k e0 e e' H1 H2. apply Nat.ltb_ge in H2. assert (e = e0) as -> by lia. done.
  - intros [a|] [b|] e H; rewrite ?Nat.ltb_ge in *; try done. lia.
  - done.
  - intros e k. by right.
  - intros [?|] [?|]; done.
  - intros [e0|] e H; [|done]. apply Nat.ltb_lt in H. eauto.
  - intros [e0|] e e' H1 H2; [|done]. apply Nat.ltb_lt. apply Nat.ltb_lt in H2. lia.
Qed.

(** A history in which the collector runs in the middle of most operations, and
    the table grows, is emptied and is changed during an iteration. *)
Definition demo_history : list (op (K := Z) (V := Z)) :=
  map (fun i => OPut (Z.of_nat i * 3) (Z.of_nat i)) (seq 0 60)
  ++ [OGet 9; OGet 10; OSize; ORemove 9; OGet 9; OSize; OIter; OKey 0; OElement 0;
      OPut 1000 1; ONext 0; OCopy 0; ORemove 30; ONext 1; OFinished 1;
      OSetElement 0 77; OElement 0; OClear; OEmpty; ONext 0; OGet 12].

Example demo_history_ok :
  grow_ok default_grow_size 100 /\ 10 <= max_entries /\ (adds demo_history <= 100)%nat /\
  contract moving (fun h => h).
Proof.
  split; [apply C06_default_growth; done|]. split; [done|]. split; [vm_compute; lia|].
  apply moving_contract.
Qed.

Example demo_history_runs :
  match make_table moving (V := Z) 10 false (Clock 0 (replicate 1500 1%nat)) with
  | Val t =>
    match run moving default_grow_size (World t []) demo_history with
    | Val (rs, w) => (drop 60 rs, (300 <? epoch (clk (tab w)))%nat)
    | _ => ([], false)
    end
  | _ => ([], false)
  end =
  ([RValue (Some 3); RValue None; RInt 60; RBool true; RValue None; RInt 59;
    RCursor (Some 141); RKey 141; RValue (Some 47); RUnit; RCursor (Some 126);
    RCursor (Some 126); RBool true; RCursor (Some 39); RBool false; RUnit;
    RValue (Some 77); RUnit; RBool true; RCursor (Some 39); RValue None], true).
Proof. vm_compute. reflexivity. Qed.

(** ** C07: a probe ends

    The probe sequence of every hash code visits every slot of every vector
    size the implementation can choose. *)
Theorem C07_probe_visits_every_slot id desired count stride i :
  compute_entry_count desired = Val count ->
  secondary_stride id = Val stride -> 0 <= i < count ->
  exists n, (n < Z.to_nat count)%nat /\
    Nat.iter n (next_index count stride) (primary_index id count) = i.
Proof.
  intros Hc Hs Hi.
  destruct (compute_entry_count_cases desired) as [[m Hm]|(n & Hn & Hg & _)]; [congruence|].
  assert (n = count) as -> by congruence.
  assert (stride = stride_of id) as -> by (pose proof (stride_of_eq id); congruence).
  pose proof (stride_of_range id) as Hr. pose proof (proj1 Hg) as Hge.
  destruct (pos_surjective count (stride_of id) id i) as (k & Hk & He);
    [lia|by apply stride_of_gcd|done|].
  exists k. split; [lia|]. rewrite <- He. clear He Hk.
  induction k as [|k IH]; cbn [Nat.iter].
  - unfold primary_index, pos. change (Z.of_nat 0) with 0. by rewrite Z.mul_0_l, Z.sub_0_r.
  - change (Nat.iter (S k) (next_index count (stride_of id)) (primary_index id count))
      with (next_index count (stride_of id)
             (Nat.iter k (next_index count (stride_of id)) (primary_index id count))).
    rewrite IH. apply pos_next. lia.
Qed.
Print Assumptions C07_probe_visits_every_slot.

Example C07_ex_sizes :
  compute_entry_count 10 = Val 37 /\ compute_entry_count 100 = Val 163 /\
  secondary_stride 1234 = Val 11.
Proof. by vm_compute. Qed.

(** After every history some slot of the vector in use is empty, and a search
    for any key with any code ends. *)
Theorem C07_free_slot {K V HS : Type} (P : protocol K HS) since grow n size c
    (os : list (op (K := K) (V := V))) t rs w :
  contract P since -> grow_ok grow (Z.of_nat n) -> size <= max_entries ->
  (adds os <= n)%nat ->
  make_table P size false c = Val t -> run P grow (World t []) os = Val (rs, w) ->
  exists tv, vectors (tab w) !! current (tab w) = Some tv /\
    Empty ∈ keys tv /\
    forall key id, exists j s, search P (keys tv) key id = Val (Z.of_nat j, s) /\
      keys tv !! j = Some s /\ (s = Empty \/ exists k, s = Key k /\ test P key k = true).
Proof.
  intros HC HN Hs Hos Hmk Hrun.
  destruct (make_table_ok P since HC (V := V) size c Hs) as (t' & Ht & Hw).
  assert (t' = t) as -> by congruence.
  destruct (run_ok P since HC grow n HN os _ _ Hw) as (rs' & w' & a & Hr & _ & Hw'); [cbn; lia|].
  assert (w' = w) as -> by congruence.
  destruct (t_core _ _ _ (w_tab _ _ _ Hw')) as [tv [Hcur _ Hv _ _ _ _]].
  exists tv. split; [done|]. split.
  - destruct (cnt_lt_exists is_used (keys tv) (vec_ok_free P _ Hv)) as (j & s & Hj & Hu).
    destruct s; try done. by eapply elem_of_list_lookup_2.
  - intros key id. destruct (vec_search P tv key id Hv) as (j & s & Hse & Hj & Hcase).
    exists j, s. split; [done|]. split; [done|].
    destruct Hcase as [[-> _]|(k & -> & Ht')]; [by left|right; eauto].
Qed.
Print Assumptions C07_free_slot.

(** A protocol whose codes never change. *)
Definition static : protocol Z unit := {|
  test := Z.eqb; hashf _ k := (k, tt); hs_new := tt;
  hs_merge _ _ := tt; hs_stale _ _ := false |}.

(** For weak tables it fails: finishing an iteration resets the counts of
    additions and deletions although the entries the collector dropped still
    occupy their slots, and the table then fills up completely. *)
Definition weak_history : list (op (K := Z) (V := Z)) :=
  map (fun i => OPut (Z.of_nat i) 0) (seq 0 27)
  ++ map OPurge (seq 0 37) ++ [OIter; OFinished 0]
  ++ map (fun i => OPut (Z.of_nat i) 0) (seq 27 10).

Definition weak_table : table Z Z unit :=
  Eval vm_compute in
  match make_table static 10 true (Clock 0 []) with
  | Val t => t | _ => Table [] 0 0 true (Clock 0 [])
  end.
Definition weak_results : list (res (K := Z) (V := Z)) :=
  Eval vm_compute in
  match run static default_grow_size (World weak_table []) weak_history with
  | Val (rs, _) => rs | _ => []
  end.
Definition weak_world : world (K := Z) (V := Z) (HS := unit) :=
  Eval vm_compute in
  match run static default_grow_size (World weak_table []) weak_history with
  | Val (_, w) => w | _ => World weak_table []
  end.
Definition weak_vector : tvec Z Z unit :=
  Eval vm_compute in
  match vectors (tab weak_world) with
  | [tv] => tv | _ => TVec [] [] 0 false 0 0 0 tt 0
  end.

Theorem C07_weak_refuted :
  make_table static 10 true (Clock 0 []) = Val weak_table /\
  run static default_grow_size (World weak_table []) weak_history =
    Val (weak_results, weak_world) /\
  step static default_grow_size weak_world (OGet 100) = NoFuel /\
  vectors (tab weak_world) !! current (tab weak_world) = Some weak_vector /\
  Empty ∉ keys weak_vector /\
  forall fuel stride, secondary_stride 100 = Val stride ->
    probe_loop fuel (keys weak_vector) (search_stop static 100) stride
      (primary_index 100 (Z.of_nat (length (keys weak_vector)))) = NoFuel.
Proof.
  split; [vm_compute; reflexivity|]. split; [vm_compute; reflexivity|].
  split; [vm_compute; reflexivity|]. split; [vm_compute; reflexivity|]. split.
  - intros H. apply elem_of_list_In in H. cbn [weak_vector keys In] in H.
    repeat (destruct H as [H|H]; [discriminate H|]). done.
  - intros fuel stride Hs. vm_compute in Hs. injection Hs as <-.
    apply probe_loop_forever; [cbn; lia|vm_compute; split; congruence|].
    intros j s Hj. apply elem_of_list_lookup_2 in Hj. cbn [weak_vector keys] in Hj.
    apply elem_of_list_In in Hj. cbn [In] in Hj.
    repeat (destruct Hj as [<-|Hj]; [reflexivity|]). done.
Qed.
Print Assumptions C07_weak_refuted.

(** A grow-size function that signals an error leaves the table unusable: it is
    called (table.dylan:821-829) after the vector has been marked as being
    rehashed, and looking up a key that is present then spins for ever. *)
Definition no_growth (_ : Z) : outcome Z := Signal "no more".

Definition full_world : world (K := Z) (V := Z) (HS := unit) :=
  Eval vm_compute in
  match make_table static 10 false (Clock 0 []) with
  | Val t => match run static no_growth (World t [])
                     (map (fun i => OPut (Z.of_nat i) 0) (seq 0 28)) with
             | Val (_, w) => w
             | _ => World t []
             end
  | _ => World (Table [] 0 0 false (Clock 0 [])) []
  end.
Definition full_vector : tvec Z Z unit :=
  Eval vm_compute in
  match vectors (tab full_world) with
  | [tv] => tv | _ => TVec [] [] 0 false 0 0 0 tt 0
  end.

Theorem C06_failed_growth_refuted :
  vectors (tab full_world) !! current (tab full_world) = Some full_vector /\
  step static no_growth full_world (OGet 5) = Val (RValue (Some 0), full_world) /\
  step static no_growth full_world (OPut 100 1) = Signal "no more" /\
  let left := set_vec (tab full_world) (current (tab full_world)) (mark_rehashing full_vector) in
  forall fuel, gethash static no_growth fuel left 5 = NoFuel.
Proof.
  split; [vm_compute; reflexivity|].
  split; [vm_compute; reflexivity|]. split; [vm_compute; reflexivity|].
  cbv zeta. intros fuel. induction fuel as [|f IH]; [reflexivity|].
  set (left := set_vec (tab full_world) (current (tab full_world)) (mark_rehashing full_vector)) in *.
  cbn [gethash].
  assert (cur_vec left = Val (mark_rehashing full_vector)) as -> by (vm_compute; reflexivity).
  cbn [obind].
  assert (hash static (clk left) 5 = (5, tt, Clock 0 [])) as -> by (vm_compute; reflexivity).
  assert (search static (keys (mark_rehashing full_vector)) 5 5 = Val (5, Key 5)) as ->
    by (vm_compute; reflexivity).
  cbn [obind].
  assert (zread (vals (mark_rehashing full_vector)) 5 = Val (VVal 0)) as -> by (vm_compute; reflexivity).
  cbn [obind].
  assert (token_valid (mark_rehashing full_vector) (token (mark_rehashing full_vector)) = false) as ->
    by (vm_compute; reflexivity).
  assert (with_clk left (Clock 0 []) = left) as -> by (vm_compute; reflexivity).
  exact IH.
Qed.
Print Assumptions C06_failed_growth_refuted.

(** ** C08: iteration *)

(** The keys that iteration [i] reached, in order. *)
Definition visit {K V} (i : nat) (p : op (K := K) (V := V) * res (K := K) (V := V)) : list K :=
  match p with
  | (ONext j, RCursor (Some k)) => if (j =? i)%nat then [k] else []
  | _ => []
  end.
Definition visits {K V} (i : nat) (os : list (op (K := K) (V := V))) (rs : list (res (K := K) (V := V)))
  : list K := concat (map (visit i) (zip os rs)).

(** [k] stays in the table throughout [os]. *)
Definition stays {K V} (same : K -> K -> bool) (k : K) (os : list (op (K := K) (V := V))) : Prop :=
  forall o, o ∈ os -> match o with
    | OClear => False
    | ORemove k' => same k' k = false
    | _ => True
    end.

(** The operations in [os] that may have put [k] into the table. *)
Definition stored {K V} (same : K -> K -> bool) (k : K) (os : list (op (K := K) (V := V))) : Prop :=
  exists o, o ∈ os /\ match o with
    | OPut k' _ => same k k' = true
    | OSetElement _ _ => True
    | _ => False
    end.

Section C08.
Context {K V HS : Type} (P : protocol K HS) (since : HS -> option nat).
Context (HC : contract P since).
Notation same := (test P).
Notation matching k l := (List.filter (same k) l).

Lemma visits_cons i (o : op (K := K) (V := V)) r os rs :
  visits i (o :: os) (r :: rs) = visit i (o, r) ++ visits i os rs.
Proof. done. Qed.

Lemma kin_same k k' l : same k k' = true -> kin same k l = kin same k' l.
Proof.
  intros Ht. unfold kin. induction l as [|a l IH]; [done|]. cbn. f_equal; [|done].
  destruct (same k a) eqn:E.
  - symmetry. eapply (test_trans P since HC); [|exact E]. by apply (test_sym P since HC).
  - destruct (same k' a) eqn:E'; [|done]. rewrite <- E.
    by apply (test_trans P since HC k k' a).
Qed.

Lemma kin_kdel_other k k' l : same k' k = false -> kin same k (kdel same k' l) = kin same k l.
Proof.
  intros Hf. unfold kin, kdel. induction l as [|a l IH]; [done|]. cbn.
  destruct (same k' a) eqn:Ea; cbn; [|by rewrite IH].
  rewrite IH. destruct (same k a) eqn:E; [|done].
  exfalso. rewrite <- Bool.not_true_iff_false in Hf. apply Hf.
  eapply (test_trans P since HC); [exact Ea|]. by apply (test_sym P since HC).
Qed.

(** Operations other than moving iteration [i] on. *)
Lemma other_step (a : aworld K V) o r a' i c k :
  spec_step same a o r a' -> cursors a !! i = Some c ->
  match o with OClear => False | ORemove k' => same k' k = false | _ => True end ->
  (forall k', r = RCursor k' -> o <> ONext i) ->
  exists c', cursors a' !! i = Some c' /\ at_key c' = at_key c /\
    kin same k (must c') = kin same k (must c) /\ kin same k (seen c') = kin same k (seen c).
Proof.
  intros Hs Hc Hst Hne. inversion Hs; subst; cbn [cursors amap] in *; try (by exists c).
  - rewrite list_lookup_fmap, Hc. cbn. by eexists.
  - rewrite list_lookup_fmap, Hc. eexists. split; [reflexivity|].
    cbn [at_key must seen cursor_remove]. split; [done|]. by rewrite !kin_kdel_other.
  - exists c. split; [|done]. by apply lookup_app_l_Some.
  - destruct (decide (i0 = i)) as [->|Hni]; [by exfalso; eapply Hne|].
    exists c. rewrite list_lookup_insert_ne by done. done.
  - rewrite list_lookup_fmap, Hc. cbn. by eexists.
  - exists c. split; [|done]. by apply lookup_app_l_Some.
Qed.

Lemma spec_run_cons_inv (a : aworld K V) o os rs a' :
  spec_run same a (o :: os) rs a' ->
  exists r rs1 a1, rs = r :: rs1 /\ spec_step same a o r a1 /\ spec_run same a1 os rs1 a'.
Proof. inversion 1; subst. eauto 10. Qed.

Lemma spec_next_inv (a : aworld K V) i r a' c :
  spec_step same a (ONext i) r a' -> cursors a !! i = Some c ->
  (is_Some (at_key c) /\ exists k c', advance same c k c' /\ r = RCursor k /\
     a' = AWorld (amap a) (<[i := c']> (cursors a))) \/
  (at_key c = None /\ r = RCursor None /\ a' = a).
Proof.
  intros Hs Hc. inversion Hs as [| | | | | | |? c1 k c' Hc1 Hat Hadv|? c1 Hc1 Hat| | | | | | |
    ? ? ? ? ? Ho|? ? Hn Ho|]; subst; simplify_eq.
  - left. split; [done|]. by exists k, c'.
  - by right.
  - destruct Ho as [?|[?|[? ?]]]; done.
  - destruct Ho as [?|[?|[?|[?|[?|[? ?]]]]]]; try done. congruence.
Qed.

Lemma visits_seen os : forall (a : aworld K V) rs a' i c k,
  spec_run same a os rs a' -> cursors a !! i = Some c -> stays same k os ->
  kin same k (seen c) = true -> matching k (visits i os rs) = [].
Proof.
  induction os as [|o os IH]; intros a rs a' i c k Hr Hc Hst Hseen;
    [by inversion Hr|].
  apply spec_run_cons_inv in Hr as (r & rs1 & a1 & -> & H2 & H4).
  rewrite visits_cons, List.filter_app.
  assert (Hst' : stays same k os) by (intros o' Ho'; apply Hst; by right).
  specialize (Hst o ltac:(left)).
  destruct o as [| | | | | | |j| | | | | | ]; try done;
    try (destruct (other_step _ _ _ _ _ _ k H2 Hc Hst ltac:(done)) as (c' & Hc' & _ & _ & Hs');
         cbn; eapply IH; [done|done|done|congruence]).
  destruct (decide (j = i)) as [->|Hne].
  - destruct (spec_next_inv _ _ _ _ _ H2 Hc) as [(_ & k1 & c' & Hadv & -> & ->)|(_ & -> & ->)].
    + assert (Hlt : (i < length (cursors a))%nat) by (by apply lookup_lt_Some in Hc).
      assert (Hc' : cursors (AWorld (amap a) (<[i:=c']> (cursors a))) !! i = Some c')
        by (by apply list_lookup_insert).
      destruct Hadv as [k' He Hn|Hm].
      * cbn [visit]. rewrite Nat.eqb_refl. cbn [List.filter].
        assert (same k k' = false) as ->.
        { destruct (same k k') eqn:E; [|done]. rewrite (kin_same _ _ _ E) in Hseen. congruence. }
        cbn [app]. eapply IH; [exact H4|exact Hc'|done|].
        by apply kin_cons_r.
      * cbn [visit List.filter app]. eapply IH; [exact H4|exact Hc'|done|done].
    + cbn [visit List.filter app]. by eapply IH.
  - assert (Hv : visit i (ONext (V := V) j, r) = []).
    { cbn. destruct r as [| | | | |[?|]|]; try done. by rewrite (proj2 (Nat.eqb_neq j i)) by done. }
    rewrite Hv. cbn [List.filter app].
    destruct (other_step _ _ _ _ i c k H2 Hc Hst ltac:(congruence)) as (c' & Hc' & _ & _ & Hs').
    eapply IH; [done|done|done|congruence].
Qed.

Lemma finished_stays os : forall (a : aworld K V) rs a' i c,
  spec_run same a os rs a' -> cursors a !! i = Some c -> at_key c = None ->
  exists c', cursors a' !! i = Some c' /\ at_key c' = None.
Proof.
  induction os as [|o os IH]; intros a rs a' i c Hr Hc Hat;
    [inversion Hr; subst; eauto|].
  apply spec_run_cons_inv in Hr as (r & rs1 & a1 & -> & H2 & H4).
  assert (exists c1, cursors a1 !! i = Some c1 /\ at_key c1 = None) as (c1 & Hc1 & Hat1).
  { inversion H2; subst; cbn [cursors] in *; try (by eauto).
    - rewrite list_lookup_fmap, Hc. cbn. by eexists.
    - rewrite list_lookup_fmap, Hc. cbn. by eexists.
    - rewrite list_lookup_fmap, Hc. cbn. by eexists.
    - exists c. split; [|done]. by apply lookup_app_l_Some.
    - destruct (decide (i0 = i)) as [->|Hni].
      + simplify_eq. rewrite Hat in H0. by destruct H0.
      + rewrite list_lookup_insert_ne by done. eauto.
    - rewrite list_lookup_fmap, Hc. cbn. by eexists.
    - exists c. split; [|done]. by apply lookup_app_l_Some. }
  by eapply IH.
Qed.

Lemma visits_must os : forall (a : aworld K V) rs a' i c k,
  spec_run same a os rs a' -> cursors a !! i = Some c -> stays same k os ->
  kin same k (must c) = true -> kin same k (seen c) = false -> is_Some (at_key c) ->
  (length (matching k (visits i os rs)) <= 1)%nat /\
  ((exists c', cursors a' !! i = Some c' /\ at_key c' = None) ->
   length (matching k (visits i os rs)) = 1%nat).
Proof.
  induction os as [|o os IH]; intros a rs a' i c k Hr Hc Hst Hm Hs Hat.
  { inversion Hr; subst. split; [cbn; lia|]. intros (c' & Hc' & Hn). simplify_eq. rewrite Hn in Hat. by destruct Hat. }
  apply spec_run_cons_inv in Hr as (r & rs1 & a1 & -> & H2 & H4).
  rewrite visits_cons, List.filter_app.
  assert (Hst' : stays same k os) by (intros o' Ho'; apply Hst; by right).
  specialize (Hst o ltac:(left)).
  destruct o as [| | | | | | |j| | | | | | ]; try done;
    try (destruct (other_step _ _ _ _ _ _ k H2 Hc Hst ltac:(done)) as (c' & Hc' & Ha' & Hm' & Hs');
         cbn; eapply IH; [done|done|done|congruence|congruence|congruence]).
  destruct (decide (j = i)) as [->|Hne].
  - destruct (spec_next_inv _ _ _ _ _ H2 Hc) as [(_ & k1 & c' & Hadv & -> & ->)|(Hn & -> & ->)];
      [|rewrite Hn in Hat; by destruct Hat].
    assert (Hlt : (i < length (cursors a))%nat) by (by apply lookup_lt_Some in Hc).
    assert (Hc' : cursors (AWorld (amap a) (<[i:=c']> (cursors a))) !! i = Some c')
      by (by apply list_lookup_insert).
    destruct Hadv as [k' He Hn|Hmust]; [|by rewrite Hmust in Hm].
    cbn [visit]. rewrite Nat.eqb_refl. cbn [List.filter].
    destruct (same k k') eqn:E.
    + rewrite (visits_seen os _ _ _ i _ k H4 Hc'); [cbn; lia|done|].
      apply kin_true. exists k'. split; [left|done].
    + cbn [app]. eapply IH; [exact H4|exact Hc'|done| | |done].
      * cbn [must]. rewrite kin_kdel_other; [done|].
        destruct (same k' k) eqn:E'; [|done]. apply (test_sym P since HC) in E'. congruence.
      * cbn [seen]. apply kin_false. intros k2 Hin. apply elem_of_cons in Hin as [->|Hin]; [done|].
        by eapply kin_false in Hs.
  - assert (Hv : visit i (ONext (V := V) j, r) = []).
    { cbn. destruct r as [| | | | |[?|]|]; try done. by rewrite (proj2 (Nat.eqb_neq j i)) by done. }
    rewrite Hv. cbn [List.filter app].
    destruct (other_step _ _ _ _ i c k H2 Hc Hst ltac:(congruence)) as (c' & Hc' & Ha' & Hm' & Hs').
    eapply IH; [done|done|done|congruence|congruence|congruence].
Qed.

Lemma ever_step (a : aworld K V) o r a' i c k :
  spec_step same a o r a' -> cursors a !! i = Some c ->
  exists c', cursors a' !! i = Some c' /\
    (kin same k (ever c') = true -> kin same k (ever c) = true \/ stored same k [o]).
Proof.
  assert (Hcase : forall k' (o' : op (K := K) (V := V)), kin same k (k' :: ever c) = true ->
    (same k k' = true -> stored same k [o']) ->
    kin same k (ever c) = true \/ stored same k [o']).
  { intros k' o' Hk Hs. apply kin_true in Hk as (k2 & Hin & Ht).
    apply elem_of_cons in Hin as [->|Hin]; [right; by apply Hs|].
    left. apply kin_true. eauto. }
  intros Hs Hc. inversion Hs; subst; cbn [cursors amap] in *;
    try (exists c; split; [done|by left]).
  - rewrite list_lookup_fmap, Hc. eexists. split; [reflexivity|]. cbn [ever cursor_put].
    intros Hk. eapply Hcase; [exact Hk|]. intros Ht. eexists. split; [left|]. done.
  - rewrite list_lookup_fmap, Hc. eexists. split; [reflexivity|]. cbn [ever cursor_remove]. by left.
  - rewrite list_lookup_fmap, Hc. eexists. split; [reflexivity|]. cbn [ever cursor_clear]. by left.
  - exists c. split; [by apply lookup_app_l_Some|by left].
  - destruct (decide (i0 = i)) as [->|Hni].
    + simplify_eq. rewrite list_lookup_insert by (by apply lookup_lt_Some in Hc).
      eexists. split; [reflexivity|]. destruct H1; cbn [ever]; by left.
    + rewrite list_lookup_insert_ne by done. exists c. split; [done|by left].
  - rewrite list_lookup_fmap, Hc. eexists. split; [reflexivity|]. cbn [ever cursor_put].
    intros Hk. eapply Hcase; [exact Hk|]. intros Ht. eexists. split; [left|]. done.
  - exists c. split; [by apply lookup_app_l_Some|by left].
Qed.

Lemma stored_mono k (os os' : list (op (K := K) (V := V))) :
  (forall o, o ∈ os -> o ∈ os') -> stored same k os -> stored same k os'.
Proof. intros H (o & Ho & Hm). exists o. split; [by apply H|done]. Qed.

Lemma visits_ever os : forall (a : aworld K V) rs a' i c k,
  spec_run same a os rs a' -> cursors a !! i = Some c -> k ∈ visits i os rs ->
  kin same k (ever c) = true \/ stored same k os.
Proof.
  induction os as [|o os IH]; intros a rs a' i c k Hr Hc Hin.
  { inversion Hr; subst. by apply elem_of_nil in Hin. }
  apply spec_run_cons_inv in Hr as (r & rs1 & a1 & -> & H2 & H4).
  rewrite visits_cons in Hin. apply elem_of_app in Hin as [Hin|Hin].
  - left. destruct o as [| | | | | | |j| | | | | | ]; try (by apply elem_of_nil in Hin).
    cbn [visit] in Hin. destruct r as [| | | | |[k1|]|]; try (by apply elem_of_nil in Hin).
    destruct (Nat.eqb_spec j i) as [->|]; [|by apply elem_of_nil in Hin].
    apply elem_of_list_singleton in Hin as ->.
    destruct (spec_next_inv _ _ _ _ _ H2 Hc) as [(_ & k2 & c' & Hadv & [= <-] & _)|(_ & ? & _)]; [|done].
    by inversion Hadv.
  - destruct (ever_step _ _ _ _ _ _ k H2 Hc) as (c' & Hc' & Hev).
    destruct (IH _ _ _ _ _ _ H4 Hc' Hin) as [He|Hs].
    + destruct (Hev He) as [?|Hs]; [by left|right]. eapply stored_mono; [|exact Hs].
      intros o' Ho'. apply elem_of_list_singleton in Ho' as ->. left.
    + right. eapply stored_mono; [|exact Hs]. intros o' Ho'. by right.
Qed.

Lemma spec_finished_inv (a : aworld K V) i a' :
  spec_step same a (OFinished i) (RBool true) a' ->
  exists c', cursors a !! i = Some c' /\ at_key c' = None.
Proof.
  intros Hs. remember (RBool true) as r eqn:Er. inversion Hs; subst; try done.
  match goal with H : _ = RBool true |- _ => injection H as Hb | H : RBool true = _ |- _ => injection H as Hb end.
  apply bool_decide_eq_true in Hb. eauto.
Qed.

Lemma adds_app (os os' : list (op (K := K) (V := V))) : adds (os ++ os') = (adds os + adds os')%nat.
Proof. unfold adds. by rewrite List.filter_app, app_length. Qed.

Lemma length_amap_run os : forall (a : aworld K V) rs a',
  spec_run same a os rs a' -> (length (amap a') <= length (amap a) + adds os)%nat.
Proof.
  induction os as [|o os IH]; intros a rs a' Hr; [inversion Hr; subst; lia|].
  apply spec_run_cons_inv in Hr as (r & rs1 & a1 & -> & H2 & H4).
  specialize (IH _ _ _ H4).
  assert (Ha : adds (o :: os) = (adds1 o + adds os)%nat) by (unfold adds; destruct o; done).
  assert (length (amap a1) <= length (amap a) + adds1 o)%nat; [|lia].
  inversion H2; subst; cbn [amap adds1]; try lia.
  - pose proof (length_mset_le P (amap a) k v). lia.
  - pose proof (length_mdel_le P (amap a) k). lia.
  - cbn. lia.
  - pose proof (length_mset_le P (amap a) k v). lia.
Qed.

End C08.

(** The keys an iteration has reached: the first one, then those of each move. *)
Definition reached {K V} (i : nat) (k0 : option K) (os : list (op (K := K) (V := V)))
  (rs : list (res (K := K) (V := V))) : list K := option_list k0 ++ visits i os rs.

(** Start an iteration after any history, then do anything at all -- other
    iterations, stores, removals, growth, collections -- while moving it on.
    An entry that is there at the start and is not removed is reached at most
    once, and exactly once if the iteration has finished. *)
Theorem C08_each_entry_once {K V HS : Type} (P : protocol K HS) since grow n size c
    (os1 os2 : list (op (K := K) (V := V))) t rs1 w1 k0 rs2 w2 k v w1' :
  contract P since -> grow_ok grow (Z.of_nat n) -> size <= max_entries ->
  (adds os1 + adds os2 <= n)%nat ->
  make_table P size false c = Val t ->
  run P grow (World t []) os1 = Val (rs1, w1) ->
  run P grow w1 (OIter :: os2) = Val (RCursor k0 :: rs2, w2) ->
  step P grow w1 (OGet k) = Val (RValue (Some v), w1') -> stays (test P) k os2 ->
  let i := length (states w1) in
  let hits := length (List.filter (test P k) (reached i k0 os2 rs2)) in
  (hits <= 1)%nat /\
  (step P grow w2 (OFinished i) = Val (RBool true, w2) -> hits = 1%nat).
Proof.
  intros HC HN Hsz Hn Hmk Hr1 Hr2 Hget Hst i hits.
  destruct (make_table_ok P since HC (V := V) size c Hsz) as (t' & Ht & Hw).
  assert (t' = t) as -> by congruence.
  destruct (run_ok P since HC grow n HN os1 _ _ Hw) as (rs' & w' & a1 & Hr' & Hsp1 & Hw1); [cbn [amap length]; lia|].
  assert (w' = w1) as -> by congruence.
  pose proof (length_amap_run P os1 _ _ _ Hsp1) as Hl1. cbn [amap length] in Hl1.
  destruct (step_ok P since HC grow n HN w1 a1 (OGet k) Hw1 ltac:(lia))
    as (r & wg & ag & Hg & Hsg & _ & _).
  assert (mget (test P) (amap a1) k = Some v) as Hm.
  { rewrite Hget in Hg. injection Hg as <- <-. by inversion Hsg. }
  destruct (run_ok P since HC grow n HN (OIter :: os2) w1 a1 Hw1) as (rs'' & w'' & a2 & Hr'' & Hsp2 & Hw2).
  { change (adds (OIter :: os2)) with (adds os2). lia. }
  rewrite Hr2 in Hr''. injection Hr'' as <- <-.
  apply spec_run_cons_inv in Hsp2 as (r0 & rs0 & a1' & [= <- <-] & Hit & Hsp2).
  assert (exists c0, advance (test P) (CursorSpec None (map fst (amap a1)) [] (map fst (amap a1))) k0 c0 /\
    a1' = AWorld (amap a1) (cursors a1 ++ [c0])) as (c0 & Hadv & ->).
  { inversion Hit; subst; by eauto. }
  assert (Hil : i = length (cursors a1)) by (apply (Forall2_length _ _ _ (w_cur _ _ _ Hw1))).
  assert (Hci : cursors (AWorld (amap a1) (cursors a1 ++ [c0])) !! i = Some c0).
  { cbn [cursors]. rewrite Hil. apply list_lookup_middle. done. }
  assert (Hkm : kin (test P) k (map fst (amap a1)) = true).
  { apply mget_Some_inv in Hm as (k' & Hin & Ht'). apply kin_true. exists k'. split; [|done].
    by eapply elem_of_map_fst. }
  assert (Hfin : step P grow w2 (OFinished i) = Val (RBool true, w2) ->
    exists c', cursors a2 !! i = Some c' /\ at_key c' = None).
  { intros Hf. pose proof (length_amap_run P os2 _ _ _ Hsp2) as Hl2. cbn [amap length] in Hl2.
    destruct (step_ok P since HC grow n HN w2 a2 (OFinished i) Hw2 ltac:(lia))
      as (rf & wf & af & Hf' & Hsf & _ & _).
    rewrite Hf in Hf'. injection Hf' as <- <-.
    by eapply spec_finished_inv. }
  unfold hits, reached. inversion Hadv as [k1 He Hs|Hmust]; subst; cbn [must seen ever] in *.
  - change (option_list (Some k1) ++ visits i os2 rs2) with (k1 :: visits i os2 rs2).
    cbn [List.filter]. destruct (test P k k1) eqn:E.
    + rewrite (visits_seen P since HC os2 _ _ _ _ _ k Hsp2 Hci Hst); [done|].
      apply kin_true. exists k1. split; [left|done].
    + destruct (visits_must P since HC os2 _ _ _ _ _ k Hsp2 Hci Hst) as [H1 H2].
      * cbn [must]. rewrite (kin_kdel_other P since HC); [done|].
        destruct (test P k1 k) eqn:E'; [|done]. apply (test_sym P since HC) in E'. congruence.
      * cbn [seen]. apply kin_false. intros k2 Hin. by apply elem_of_list_singleton in Hin as ->.
      * done.
      * split; [done|]. intros Hf. apply H2. by apply Hfin.
  - rewrite Hmust in Hkm. done.
Qed.
Print Assumptions C08_each_entry_once.

(** Every key it reaches is in the table at the start or was stored since. *)
Theorem C08_only_entries {K V HS : Type} (P : protocol K HS) since grow n size c
    (os1 os2 : list (op (K := K) (V := V))) t rs1 w1 k0 rs2 w2 k :
  contract P since -> grow_ok grow (Z.of_nat n) -> size <= max_entries ->
  (adds os1 + adds os2 <= n)%nat ->
  make_table P size false c = Val t ->
  run P grow (World t []) os1 = Val (rs1, w1) ->
  run P grow w1 (OIter :: os2) = Val (RCursor k0 :: rs2, w2) ->
  k ∈ reached (length (states w1)) k0 os2 rs2 ->
  (exists v w1', step P grow w1 (OGet k) = Val (RValue (Some v), w1')) \/ stored (test P) k os2.
Proof.
  intros HC HN Hsz Hn Hmk Hr1 Hr2 Hin.
  destruct (make_table_ok P since HC (V := V) size c Hsz) as (t' & Ht & Hw).
  assert (t' = t) as -> by congruence.
  destruct (run_ok P since HC grow n HN os1 _ _ Hw) as (rs' & w' & a1 & Hr' & Hsp1 & Hw1); [cbn [amap length]; lia|].
  assert (w' = w1) as -> by congruence.
  pose proof (length_amap_run P os1 _ _ _ Hsp1) as Hl1. cbn [amap length] in Hl1.
  destruct (run_ok P since HC grow n HN (OIter :: os2) w1 a1 Hw1) as (rs'' & w'' & a2 & Hr'' & Hsp2 & Hw2).
  { change (adds (OIter :: os2)) with (adds os2). lia. }
  rewrite Hr2 in Hr''. injection Hr'' as <- <-.
  apply spec_run_cons_inv in Hsp2 as (r0 & rs0 & a1' & [= <- <-] & Hit & Hsp2).
  assert (exists c0, advance (test P) (CursorSpec None (map fst (amap a1)) [] (map fst (amap a1))) k0 c0 /\
    a1' = AWorld (amap a1) (cursors a1 ++ [c0])) as (c0 & Hadv & ->).
  { inversion Hit; subst; by eauto. }
  assert (Hil : length (states w1) = length (cursors a1))
    by (apply (Forall2_length _ _ _ (w_cur _ _ _ Hw1))).
  assert (Hci : cursors (AWorld (amap a1) (cursors a1 ++ [c0])) !! length (states w1) = Some c0).
  { cbn [cursors]. rewrite Hil. apply list_lookup_middle. done. }
  assert (Hor : kin (test P) k (map fst (amap a1)) = true \/ stored (test P) k os2).
  { unfold reached in Hin. apply elem_of_app in Hin as [Hin|Hin].
    - left. inversion Hadv as [k1 He Hs|Hmust]; subst; cbn in Hin; [|by apply elem_of_nil in Hin].
      by apply elem_of_list_singleton in Hin as ->.
    - destruct (visits_ever P os2 _ _ _ _ _ _ Hsp2 Hci Hin) as [He|Hs]; [left|by right].
      by inversion Hadv; subst. }
  destruct Hor as [Hk|Hs]; [left|by right].
  destruct (step_ok P since HC grow n HN w1 a1 (OGet k) Hw1 ltac:(lia))
    as (r & wg & ag & Hg & Hsg & _ & _).
  apply kin_true in Hk as (k' & Hin' & Ht').
  destruct (mget (test P) (amap a1) k) as [v|] eqn:Em.
  - exists v, wg. rewrite Hg. inversion Hsg; subst; [by rewrite Em| |].
    + destruct H1 as [?|[?|[? ?]]]; done.
    + destruct H0 as [?|[?|[?|[?|[?|[? ?]]]]]]; done.
  - exfalso. apply elem_of_map_fst_inv in Hin' as [x Hx].
    rewrite (mget_None_inv P _ _ _ _ Em Hx) in Ht'. done.
Qed.
Print Assumptions C08_only_entries.

(** ** The iteration of a table nobody modifies *)

(** Look at the current key and element of iteration [i] and move on, [n] times. *)
Definition walk {K V} (i n : nat) : list (op (K := K) (V := V)) :=
  concat (replicate n [OKey i; OElement i; ONext i]).
(** What it returns if it goes through the pairs [ps]. *)
Fixpoint walked {K V} (ps : list (K * V)) : list (res (K := K) (V := V)) :=
  match ps with
  | [] => []
  | (k, v) :: ps' => RKey k :: RValue (Some v) :: RCursor (fst <$> head ps') :: walked ps'
  end.
(** No two of the keys are the same. *)
Fixpoint distinct {K} (same : K -> K -> bool) (l : list K) : Prop :=
  match l with [] => True | k :: l' => kin same k l' = false /\ distinct same l' end.

Section C08_unmodified.
Context {K V HS : Type} (P : protocol K HS) (since : HS -> option nat) (HC : contract P since).
Local Notation same := (test P).

Lemma test_sym_eq k k' : same k k' = same k' k.
Proof.
  destruct (same k k') eqn:E, (same k' k) eqn:E'; try done.
  - apply (test_sym P since HC) in E. congruence.
  - apply (test_sym P since HC) in E'. congruence.
Qed.

Lemma same_kin k k' l : same k k' = true -> kin same k l = kin same k' l.
Proof.
  intros H. induction l as [|x l IH]; [done|]. cbn. f_equal; [|exact IH].
  destruct (same k x) eqn:E, (same k' x) eqn:E'; try done.
  - rewrite <- E'. symmetry. eapply (test_trans P since HC); [|exact E]. by apply (test_sym P since HC).
  - rewrite <- E. eapply (test_trans P since HC); [exact H|exact E'].
Qed.

Lemma kin_kdel x k l : kin same x (kdel same k l) = kin same x l && negb (same k x).
Proof.
  destruct (same k x) eqn:E; cbn [negb].
  - rewrite andb_false_r. by apply (kin_kdel_false P since HC).
  - rewrite andb_true_r. apply (kin_kdel_other P since HC). done.
Qed.

Lemma distinct_kdel k l : distinct same l -> distinct same (kdel same k l).
Proof.
  induction l as [|x l IH]; [done|]. intros [Hx Hl]. cbn. destruct (negb (same k x)) eqn:E; [|by apply IH].
  cbn. split; [|by apply IH]. change (kin same x (kdel same k l) = false). by rewrite kin_kdel, Hx.
Qed.

Lemma kdel_absent k l : kin same k l = false -> kdel same k l = l.
Proof.
  induction l as [|x l IH]; [done|]. cbn. intros H. apply orb_false_iff in H as [-> H]. cbn. f_equal. by apply IH.
Qed.

Lemma length_kdel k l : distinct same l -> kin same k l = true ->
  length l = S (length (kdel same k l)).
Proof.
  induction l as [|x l IH]; [done|]. intros [Hx Hl] Hk. cbn in Hk |- *.
  destruct (same k x) eqn:E; cbn.
  - f_equal. change (length l = length (kdel same k l)). rewrite kdel_absent; [done|]. by rewrite (same_kin k x).
  - f_equal. by apply IH.
Qed.

Lemma spec_key_inv (a : aworld K V) i c k r a' :
  spec_step same a (OKey i) r a' -> cursors a !! i = Some c -> at_key c = Some k -> r = RKey k /\ a' = a.
Proof. intros Hs Hc Hk. inversion Hs; subst; simplify_eq; try done; repeat match goal with H : _ \/ _ |- _ => destruct H | H : exists _, _ |- _ => destruct H end; simplify_eq; try done; try congruence. Qed.

Lemma spec_element_inv (a : aworld K V) i c k v r a' :
  spec_step same a (OElement i) r a' -> cursors a !! i = Some c -> at_key c = Some k ->
  kin same k (seen c) = true -> mget same (amap a) k = Some v -> r = RValue (Some v) /\ a' = a.
Proof.
  intros Hs Hc Hk Hn Hm. inversion Hs; subst; simplify_eq; try done; repeat match goal with H : _ \/ _ |- _ => destruct H | H : exists _, _ |- _ => destruct H end; simplify_eq; try done; try congruence.
Qed.

Lemma walk_spec n : forall (a : aworld K V) rs a' i c k,
  spec_run same a (walk i n) rs a' -> cursors a !! i = Some c -> at_key c = Some k ->
  kin same k (map fst (amap a)) = true -> kin same k (must c) = false ->
  kin same k (seen c) = true ->
  (forall x, kin same x (ever c) = kin same x (map fst (amap a))) ->
  (forall x, kin same x (must c) = kin same x (map fst (amap a)) && negb (kin same x (seen c))) ->
  distinct same (must c) -> n = S (length (must c)) ->
  exists ps : list (K * V), rs = walked ps /\ length ps = n /\ fst <$> head ps = Some k /\
    distinct same (map fst ps) /\ (forall k' v, (k', v) ∈ ps -> mget same (amap a) k' = Some v) /\
    (forall x, kin same x (map fst ps) = same x k || kin same x (must c)).
Proof.
  induction n as [|n IH]; intros a rs a' i c k Hr Hc Hk Hin Hnm Hns Hev Hmu Hd Hn; [done|].
  change (walk i (S n)) with (OKey i :: OElement i :: ONext i :: walk (K := K) (V := V) i n) in Hr.
  apply spec_run_cons_inv in Hr as (r1 & rs1 & a1 & -> & H1 & Hr).
  destruct (spec_key_inv _ _ _ _ _ _ H1 Hc Hk) as [-> ->].
  apply spec_run_cons_inv in Hr as (r2 & rs2 & a2 & -> & H2 & Hr).
  assert (exists v, mget same (amap a) k = Some v) as [v Hv].
  { destruct (mget same (amap a) k) eqn:E; [eauto|]. apply kin_true in Hin as (k' & Hin & Ht).
    apply elem_of_map_fst_inv in Hin as [x Hx]. rewrite (mget_None_inv P _ _ _ _ E Hx) in Ht. done. }
  destruct (spec_element_inv _ _ _ _ _ _ _ H2 Hc Hk Hns Hv) as [-> ->].
  apply spec_run_cons_inv in Hr as (r3 & rs3 & a3 & -> & H3 & Hr).
  destruct (spec_next_inv P _ _ _ _ _ H3 Hc) as [(_ & kn & c' & Hadv & -> & ->)|(? & _)];
    [|congruence].
  inversion Hadv as [k1 He Hs|Hmust]; subst.
  - rewrite Hev in He.
    assert (Hk1 : kin same k1 (must c) = true) by (by rewrite Hmu, He, Hs).
    assert (Hl := length_kdel _ _ Hd Hk1).
    destruct (IH (AWorld (amap a) (<[i := CursorSpec (Some k1) (kdel same k1 (must c)) (k1 :: seen c) (ever c)]> (cursors a)))
      rs3 a' i _ k1 Hr (list_lookup_insert _ _ _ (lookup_lt_Some _ _ _ Hc)) eq_refl)
      as (ps & -> & Hlen & Hhd & Hdis & Hval & Hkin); cbn [amap must seen ever] in *.
    + done.
    + rewrite kin_kdel. rewrite (test_refl P since HC). by rewrite andb_false_r.
    + by apply (kin_cons_l P since HC).
    + done.
    + intros x. rewrite kin_kdel, Hmu. cbn [kin existsb].
      rewrite negb_orb. rewrite (test_sym_eq x k1). fold (kin same x (seen c)).
      destruct (kin same x (map fst (amap a))), (kin same x (seen c)), (same k1 x); done.
    + by apply distinct_kdel.
    + lia.
    + exists ((k, v) :: ps). cbn [walked map fst length head]. split; [by rewrite Hhd|].
      split; [lia|]. split; [done|].
      assert (Hmx : forall x, kin same x (map fst ps) = kin same x (must c)).
      { intros x. rewrite Hkin, kin_kdel. rewrite (test_sym_eq x k1).
        destruct (same k1 x) eqn:E; cbn [negb orb]; [|by rewrite andb_true_r].
        rewrite <- (same_kin k1 x _ E). done. }
      split; [split; [by rewrite Hmx|done]|]. split.
      * intros k' v' Hin'. apply elem_of_cons in Hin' as [[= -> ->]|Hin']; [done|by apply Hval].
      * intros x. cbn [kin existsb]. f_equal. apply Hmx.
  - rewrite Hmust in Hn. cbn in Hn. injection Hn as ->.
    inversion Hr; subst. exists [(k, v)]. split; [done|]. split; [done|]. split; [done|].
    split; [done|]. split; [|intros x; by rewrite Hmust; cbn].
    intros k' v' Hin'. by apply elem_of_list_singleton in Hin' as [= -> ->].
Qed.

Lemma kd_distinct l : kd P l <-> distinct same l.
Proof.
  induction l as [|x l IH]; [done|]. cbn. rewrite IH. f_equiv.
  symmetry. apply kin_false.
Qed.

Lemma mget_same (m : list (K * V)) k k' : same k k' = true -> mget same m k = mget same m k'.
Proof.
  intros H. unfold mget. f_equal. induction m as [|[x v] m IH]; [done|]. cbn.
  assert (same k x = same k' x) as ->; [|by destruct (same k' x)].
  pose proof (same_kin k k' [x] H) as Hs. cbn in Hs. by rewrite !orb_false_r in Hs.
Qed.

Lemma adds_walk i n : adds (walk (K := K) (V := V) i n) = 0%nat.
Proof. unfold walk. induction n as [|n IH]; [done|]. exact IH. Qed.

Lemma spec_size_inv (a : aworld K V) z a' :
  spec_step same a OSize (RInt z) a' -> z = Z.of_nat (length (amap a)).
Proof. intros H. by inversion H. Qed.

Lemma spec_get_inv (a : aworld K V) k r a' :
  spec_step same a (OGet k) r a' -> r = RValue (mget same (amap a) k).
Proof. intros H. inversion H; subst; try done; repeat match goal with H : _ \/ _ |- _ => destruct H | H : exists _, _ |- _ => destruct H end; simplify_eq; try done; try congruence. Qed.

End C08_unmodified.


(** On a table in any state, iterate without modifying: the pairs obtained are,
    without repetition, exactly the entries that [element] finds. *)
Theorem C08_unmodified {K V HS : Type} (P : protocol K HS) since grow n size c
    (os : list (op (K := K) (V := V))) t rs1 w1 s w1' k0 rs w2 :
  contract P since -> grow_ok grow (Z.of_nat n) -> size <= max_entries ->
  (adds os <= n)%nat ->
  make_table P size false c = Val t ->
  run P grow (World t []) os = Val (rs1, w1) ->
  step P grow w1 OSize = Val (RInt (Z.of_nat s), w1') ->
  run P grow w1 (OIter :: walk (length (states w1)) s) = Val (RCursor k0 :: rs, w2) ->
  exists ps : list (K * V),
    k0 = fst <$> head ps /\ rs = walked ps /\ length ps = s /\ distinct (test P) (map fst ps) /\
    forall k, exists w', step P grow w1 (OGet k) = Val (RValue (mget (test P) ps k), w').
Proof.
  intros HC HN Hsz Hn Hmk Hr1 Hsize Hr2.
  destruct (make_table_ok P since HC (V := V) size c Hsz) as (t' & Ht & Hw).
  assert (t' = t) as -> by congruence.
  destruct (run_ok P since HC grow n HN os _ _ Hw) as (rs' & w' & a1 & Hr' & Hsp1 & Hw1); [cbn [amap length]; lia|].
  assert (w' = w1) as -> by congruence.
  pose proof (length_amap_run P os _ _ _ Hsp1) as Hl1. cbn [amap length] in Hl1.
  assert (Hs : length (amap a1) = s).
  { destruct (step_ok P since HC grow n HN w1 a1 OSize Hw1 ltac:(lia)) as (r & wg & ag & Hg & Hsg & _ & _).
    rewrite Hsize in Hg. injection Hg as <- _. apply spec_size_inv in Hsg. lia. }
  destruct (run_ok P since HC grow n HN (OIter :: walk (length (states w1)) s) w1 a1 Hw1)
    as (rs'' & w'' & a2 & Hr'' & Hsp2 & Hw2).
  { change (adds (OIter :: walk (length (states w1)) s))
      with (adds (walk (K := K) (V := V) (length (states w1)) s)). rewrite adds_walk. lia. }
  rewrite Hr2 in Hr''. injection Hr'' as <- <-.
  apply spec_run_cons_inv in Hsp2 as (r0 & rs0 & a1' & [= <- <-] & Hit & Hsp2).
  assert (exists c0, advance (test P) (CursorSpec None (map fst (amap a1)) [] (map fst (amap a1))) k0 c0 /\
    a1' = AWorld (amap a1) (cursors a1 ++ [c0])) as (c0 & Hadv & ->).
  { inversion Hit; subst; by eauto. }
  assert (Hil : length (states w1) = length (cursors a1))
    by (apply (Forall2_length _ _ _ (w_cur _ _ _ Hw1))).
  assert (Hci : cursors (AWorld (amap a1) (cursors a1 ++ [c0])) !! length (states w1) = Some c0).
  { cbn [cursors]. rewrite Hil. apply list_lookup_middle. done. }
  destruct (w_tab _ _ _ Hw1) as [[tv Hcore] _ _].
  assert (Hd : distinct (test P) (map fst (amap a1))).
  { apply kd_distinct. by eapply (core_kd P since HC). }
  assert (Hget : forall k, exists w', step P grow w1 (OGet k) = Val (RValue (mget (test P) (amap a1) k), w')).
  { intros k. destruct (step_ok P since HC grow n HN w1 a1 (OGet k) Hw1 ltac:(lia))
      as (r & wg & ag & Hg & Hsg & _ & _).
    apply spec_get_inv in Hsg as ->. eauto. }
  inversion Hadv as [k1 He _|Hmust]; subst; cbn [must seen ever] in *.
  - assert (Hlk := length_kdel P since HC _ _ Hd He). rewrite map_length in Hlk.
    destruct (walk_spec P since HC _ _ _ _ _ _ k1 Hsp2 Hci eq_refl)
      as (ps & -> & Hlen & Hhd & Hdis & Hval & Hkin); cbn [amap must seen ever] in *; try done.
    + rewrite (kin_kdel P since HC), (test_refl P since HC). by rewrite andb_false_r.
    + by apply (kin_cons_l P since HC).
    + intros x. rewrite (kin_kdel P since HC). f_equal. f_equal. cbn.
      rewrite orb_false_r. apply (test_sym_eq P since HC).
    + by apply (distinct_kdel P since HC).
    + exists ps. split; [done|]. split; [done|]. split; [done|]. split; [done|].
      intros k. destruct (Hget k) as [w' Hg]. exists w'. rewrite Hg. do 3 f_equal.
      destruct (mget (test P) (amap a1) k) as [v|] eqn:Em.
      * assert (Hk : kin (test P) k (map fst ps) = true).
        { rewrite Hkin, (kin_kdel P since HC). apply mget_Some_inv in Em as (k' & Hin & Ht').
          assert (kin (test P) k (map fst (amap a1)) = true) as ->.
          { apply kin_true. exists k'. split; [by eapply elem_of_map_fst|done]. }
          rewrite (test_sym_eq P since HC k k1). by destruct (test P k1 k). }
        apply kin_true in Hk as (k' & Hin & Ht'). apply elem_of_map_fst_inv in Hin as [v' Hin].
        rewrite (mget_some P since HC ps k k' v'); [|by apply kd_distinct|done|done].
        pose proof (Hval _ _ Hin) as Hv'.
        rewrite (mget_same P since HC _ k k' Ht') in Em. congruence.
      * symmetry. apply mget_none. intros k' v' Hin. destruct (test P k k') eqn:E; [|done].
        pose proof (Hval _ _ Hin) as Hv'. rewrite (mget_same P since HC _ k k' E) in Em. congruence.
  - destruct (amap a1) as [|[? ?] ?]; [|done]. cbn in Hsp2. inversion Hsp2; subst.
    exists []. split; [done|]. split; [done|]. split; [done|]. split; [done|]. exact Hget.
Qed.
Print Assumptions C08_unmodified.

(** The hypotheses are met: 40 entries (47 keys reached), an iteration to its end with a store
    that makes the table grow half-way. *)
Definition demo_fill : list (op (K := Z) (V := Z)) :=
  map (fun i => OPut (Z.of_nat i * 5) (Z.of_nat i)) (seq 0 40).
Definition demo_walk : list (op (K := Z) (V := Z)) :=
  replicate 20 (ONext 0) ++ map (fun i => OPut (Z.of_nat i * 5 + 1) 7) (seq 0 60)
  ++ replicate 40 (ONext 0).

Example C08_ex_walk :
  match make_table moving (V := Z) 10 false (Clock 0 (replicate 300 1%nat)) with
  | Val t =>
    match run moving default_grow_size (World t []) demo_fill with
    | Val (_, w1) =>
      match run moving default_grow_size w1 (OIter :: demo_walk) with
      | Val (RCursor k0 :: rs2, w2) =>
        (length (reached 0 k0 demo_walk rs2),
         match step moving default_grow_size w2 (OFinished 0) with
         | Val (RBool b, _) => b | _ => false end,
         match step moving default_grow_size w1 (OGet 35) with
         | Val (RValue (Some v), _) => v | _ => 0 end,
         (length (vectors (tab w2)) <? 10)%nat && (2 <? length (vectors (tab w2)))%nat)
      | _ => (0%nat, false, 0, false)
      end
    | _ => (0%nat, false, 0, false)
    end
  | _ => (0%nat, false, 0, false)
  end = (47%nat, true, 7, true) /\
  stays (test moving) 35 demo_walk.
Proof.
  split; [vm_compute; reflexivity|]. intros o Ho. unfold demo_walk in Ho.
  rewrite !elem_of_app in Ho. destruct Ho as [Ho|[Ho|Ho]].
  - by apply elem_of_replicate in Ho as [-> _].
  - apply elem_of_list_In, in_map_iff in Ho as (i & <- & _). done.
  - by apply elem_of_replicate in Ho as [-> _].
Qed.

(** What is not promised: when the entry an iteration is at is removed and its
    key stored again, the current element is an error although the table has
    an entry for the current key. *)
Theorem C08_stored_again_refuted :
  match make_table static (V := Z) 10 false (Clock 0 []) with
  | Val t =>
    match run static default_grow_size (World t [])
            [OPut 1 10; OIter; OKey 0; ORemove 1; OPut 1 11; OKey 0; OGet 1; OElement 0] with
    | Val (rs, _) => drop 2 rs
    | _ => []
    end
  | _ => []
  end = [RKey 1; RBool true; RUnit; RKey 1; RValue (Some 11); RError].
Proof. vm_compute. reflexivity. Qed.
Print Assumptions C08_stored_again_refuted.
