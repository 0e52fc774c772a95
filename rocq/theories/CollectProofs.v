(** Proofs about collectors and tokenize-environment-variable. *)
From Verif Require Import Base ListModel ListSpec ListProofs TlSpec TlProofs CollectModel CollectSpec.
From Coq Require Import ZifyBool ZifyNat.
Open Scope Z_scope.

(** The collector [OList k] holds the list of [xs], made of the pairs [cs]. *)
Definition col (h : heap) (k : nat) (xs : list obj) (cs : list nat) : Prop :=
  k <> 0%nat /\ k ∉ cs /\ exists t, h !! k = Some (last_of (k :: cs), t) /\ lst h t xs cs.

Lemma col_stable es h h' k xs cs : only_cells es h h' -> disj es (k :: cs) -> col h k xs cs -> col h' k xs cs.
Proof.
  intros Hu Hd (H1 & H2 & t & H3 & H4). split; [done|]. split; [done|]. exists t. split.
  - destruct Hu as [_ A]. rewrite A; [done|by apply lookup_lt_Some in H3|]. intros Hin. apply (Hd k Hin). by left.
  - eapply only_cells_seg; [done| |done]. intros a Ha Hb. apply (Hd a Ha). by right.
Qed.
Lemma col_bound h k xs cs a : col h k xs cs -> a ∈ k :: cs -> a <> 0%nat /\ (a < length h)%nat.
Proof.
  intros (H1 & H2 & t & H3 & H4) [->|Ha]%elem_of_cons; [by apply lookup_lt_Some in H3|]. by eapply seg_in.
Qed.
Lemma new_collector_ok h : h !! 0%nat <> None ->
  exists h', new_collector h = Val (OList (length h), h') /\ col h' (length h) [] [] /\ only_cells [] h h' /\ length h' = S (length h).
Proof.
  intros H0. assert (length h <> 0%nat) as Hz by (destruct h; done). unfold new_collector. cbn [pair].
  rewrite (set_head_val _ (length h) fls nil) by (by rewrite lookup_app_r, Nat.sub_diag by lia). cbn [obind].
  eexists. split; [done|]. split; [|split].
  - split; [done|]. split; [apply not_elem_of_nil|]. exists nil. split; [|done]. apply list_lookup_insert. rewrite app_length. cbn. lia.
  - eapply (only_cells_trans_new [] [length h]); [intros a ->%elem_of_list_singleton; lia|apply only_cells_alloc|apply only_cells_insert].
  - rewrite insert_length, app_length. cbn. lia.
Qed.
Lemma two_cells a b h x y : only_cells [a; b] h (<[a := x]> (<[b := y]> h)).
Proof.
  split; [by rewrite !insert_length|]. intros i Hi Hn. rewrite !not_elem_of_cons in Hn. rewrite !list_lookup_insert_ne by (intros ->; tauto). done.
Qed.
Lemma only_cells_after_alloc es h v h' : only_cells es (h ++ [v]) h' -> only_cells es h h'.
Proof.
  intros [L A]. rewrite app_length in L. cbn in L. split; [lia|]. intros a Ha Hn. rewrite A; [by rewrite lookup_app_l|rewrite app_length; lia|done].
Qed.

Lemma add_first_ok h k xs cs x : col h k xs cs ->
  exists c h', add_first h (OList k) x = Val h' /\ col h' k (x :: xs) (c :: cs) /\ only_cells (k :: cs) h h' /\ (length h <= c)%nat.
Proof.
  intros Hc. pose proof Hc as (H1 & H2 & t & H3 & H4). unfold add_first. rewrite (tail_val _ _ _ _ H3). cbn [obind pair].
  pose proof (lookup_lt_Some _ _ _ H3) as Hlt. assert (length h ∉ cs) as Hnin by (intros Hin; eapply seg_in in Hin as [_ ?]; [|exact H4]; lia).
  rewrite (set_tail_val _ k (last_of (k :: cs)) t) by (by rewrite lookup_app_l). cbn [obind]. exists (length h). destruct cs as [|c cs].
  - unfold lst in H4. destruct xs; [|done]. cbn in H4. subst t. cbn [is_nil nil].
    rewrite (set_head_val _ k (last_of [k]) (OList (length h))) by (apply list_lookup_insert; rewrite app_length; lia).
    rewrite list_insert_insert. eexists. split; [done|]. split; [|split; [|lia]].
    + split; [done|]. split; [rewrite elem_of_list_singleton; lia|]. exists (OList (length h)). split; [apply list_lookup_insert; rewrite app_length; lia|].
      apply (seg_cons _ _ _ nil); [lia| |done]. rewrite list_lookup_insert_ne by lia. by rewrite lookup_app_r, Nat.sub_diag by lia.
    + eapply only_cells_after_alloc. apply only_cells_insert.
  - assert (is_nil t = false) as ->. { destruct xs as [|y xs]; [done|]. destruct H4 as (-> & Hcc & _). by apply is_nil_S. }
    eexists. split; [done|]. split; [|split; [|lia]].
    + split; [done|]. split; [rewrite not_elem_of_cons; split; [lia|done]|]. exists (OList (length h)). split.
      * rewrite list_lookup_insert by (rewrite app_length; lia). done.
      * apply (seg_cons _ _ _ t); [lia| |]. { rewrite list_lookup_insert_ne by lia. by rewrite lookup_app_r, Nat.sub_diag by lia. }
        apply seg_update; [done|]. by apply seg_alloc.
    + eapply only_cells_after_alloc. eapply only_cells_sub; [|apply only_cells_insert]. intros a ->%elem_of_list_singleton. by left.
Qed.
Lemma add_last_ok h k xs cs x : h !! 0%nat <> None -> col h k xs cs ->
  exists c h', add_last h (OList k) x = Val h' /\ col h' k (xs ++ [x]) (cs ++ [c]) /\ only_cells (k :: cs) h h' /\ (length h <= c)%nat.
Proof.
  intros H0 Hc. pose proof Hc as (H1 & H2 & t & H3 & H4). unfold add_last. cbn [pair]. pose proof (lookup_lt_Some _ _ _ H3) as Hlt.
  assert (length h ∉ cs) as Hnin by (intros Hin; eapply seg_in in Hin as [_ ?]; [|exact H4]; lia).
  rewrite (head_val _ k (last_of (k :: cs)) t) by (by rewrite lookup_app_l). cbn [obind]. exists (length h).
  pose proof (seg_length _ _ _ _ _ H4) as Hlen.
  destruct cs as [|c cs _] using rev_ind.
  - destruct xs; [|done]. cbn in H4. subst t. cbn [last_of foldl]. rewrite is_pair_S by done.
    rewrite (set_tail_val _ k (OList k) nil) by (by rewrite lookup_app_l). cbn [obind].
    rewrite (set_head_val _ k (OList k) (OList (length h))) by (apply list_lookup_insert; rewrite app_length; lia). rewrite list_insert_insert.
    eexists. split; [done|]. split; [|split; [|lia]].
    + split; [done|]. split; [cbn; rewrite elem_of_list_singleton; lia|]. exists (OList (length h)). split; [apply list_lookup_insert; rewrite app_length; lia|].
      apply (seg_cons _ _ _ nil); [lia| |done]. rewrite list_lookup_insert_ne by lia. by rewrite lookup_app_r, Nat.sub_diag by lia.
    + eapply only_cells_after_alloc. apply only_cells_insert.
  - rewrite app_length in Hlen. cbn in Hlen. destruct xs as [|y xs _] using rev_ind; [cbn in Hlen; lia|]. rewrite app_length in Hlen. cbn in Hlen.
    rewrite not_elem_of_app, elem_of_list_singleton in H2. destruct H2 as [H2 Hkc].
    rewrite not_elem_of_app, elem_of_list_singleton in Hnin. destruct Hnin as [Hnin Hncc].
    pose proof H4 as H4'. apply seg_split in H4' as (m & H5 & H6); [|lia]. cbn in H6. destruct H6 as (-> & Hc0 & u & Hu & ->).
    pose proof (lookup_lt_Some _ _ _ Hu) as Hltc. pose proof (seg_nodup _ _ _ _ nil ltac:(done) H4) as Hn.
    change (k :: cs ++ [c]) with ((k :: cs) ++ [c]) in *. rewrite last_of_snoc in *. rewrite is_pair_S by done.
    rewrite (set_tail_val _ c y nil) by (by rewrite lookup_app_l). cbn [obind].
    rewrite (set_head_val _ k (OList c) t) by (rewrite list_lookup_insert_ne by done; by rewrite lookup_app_l).
    eexists. split; [done|]. split; [|split; [|lia]].
    + split; [done|]. split. { rewrite !not_elem_of_app, !elem_of_list_singleton. split; [split; [done|done]|lia]. } exists t. split.
      * rewrite list_lookup_insert by (rewrite insert_length, app_length; lia). change (k :: (cs ++ [c]) ++ [length h]) with ((k :: (cs ++ [c])) ++ [length h]). by rewrite last_of_snoc.
      * unfold lst. eapply seg_app.
        -- apply seg_update. { rewrite not_elem_of_app, elem_of_list_singleton. split; [done|done]. }
           apply (seg_redirect _ _ _ _ y c nil _ Hn); [|lia]. by apply seg_alloc.
        -- apply (seg_cons _ _ _ nil); [lia| |done]. rewrite !list_lookup_insert_ne by lia. by rewrite lookup_app_r, Nat.sub_diag by lia.
    + eapply only_cells_after_alloc. eapply only_cells_sub; [|apply two_cells]. intros a [->| ->%elem_of_list_singleton]%elem_of_cons; [by left|]. apply elem_of_app. right. by left.
Qed.
Lemma add_event_ok h k xs cs e : h !! 0%nat <> None -> col h k xs cs ->
  exists cs' h', add_event h (OList k) e = Val h' /\ col h' k (collect xs e) cs' /\ only_cells (k :: cs) h h' /\ (forall a, a ∈ cs' -> a ∈ cs \/ (length h <= a)%nat).
Proof.
  intros H0 Hc. destruct e as [x|x]; cbn [add_event collect].
  - destruct (add_first_ok h k xs cs x Hc) as (c & h' & -> & H1 & H2 & H3). exists (c :: cs), h'. split; [done|]. split; [done|]. split; [done|].
    intros a [->|Ha]%elem_of_cons; [by right|by left].
  - destruct (add_last_ok h k xs cs x H0 Hc) as (c & h' & -> & H1 & H2 & H3). exists (cs ++ [c]), h'. split; [done|]. split; [done|]. split; [done|].
    intros a [Ha| ->%elem_of_list_singleton]%elem_of_app; [by left|by right].
Qed.

Lemma add_events_ok es : forall h k1 k2 xs1 xs2 cs1 cs2, h !! 0%nat <> None -> col h k1 xs1 cs1 -> col h k2 xs2 cs2 -> disj (k1 :: cs1) (k2 :: cs2) ->
  exists cs1' cs2' h', add_events h (OList k1) (OList k2) es = Val h' /\ col h' k1 (foldl collect xs1 (events_of true es)) cs1' /\
    col h' k2 (foldl collect xs2 (events_of false es)) cs2' /\ only_cells ((k1 :: cs1) ++ (k2 :: cs2)) h h'.
Proof.
  induction es as [|[b e] es IH]; intros h k1 k2 xs1 xs2 cs1 cs2 H0 Hc1 Hc2 Hd; cbn [add_events].
  - exists cs1, cs2, h. split; [done|]. split; [done|]. split; [done|]. apply only_cells_refl.
  - assert (0%nat ∉ k1 :: cs1) as Z1 by (intros Hin; eapply col_bound in Hin as [? _]; [|exact Hc1]; done).
    assert (0%nat ∉ k2 :: cs2) as Z2 by (intros Hin; eapply col_bound in Hin as [? _]; [|exact Hc2]; done).
    destruct b; unfold events_of.
    + rewrite filter_cons_True, filter_cons_False by done. rewrite fmap_cons. cbn [foldl snd].
      destruct (add_event_ok h k1 xs1 cs1 e H0 Hc1) as (cs' & h' & -> & H1 & H2 & H3). cbn [obind].
      destruct (IH h' k1 k2 (collect xs1 e) xs2 cs' cs2) as (a1 & a2 & h2 & -> & H4 & H5 & H6).
      * by eapply only_cells_0.
      * done.
      * by eapply col_stable.
      * intros a [->|Ha]%elem_of_cons Hb; [apply (Hd k1); [by left|done]|]. apply H3 in Ha as [Ha|Ha]; [apply (Hd a); [by right|done]|].
        eapply col_bound in Hb as [_ Hb]; [|exact Hc2]. lia.
      * exists a1, a2, h2. split; [done|]. split; [done|]. split; [done|]. destruct H2 as [L2 A2], H6 as [L6 A6]. split; [lia|].
        intros a Ha Hn. rewrite not_elem_of_app in Hn. destruct Hn as [Hn1 Hn2]. rewrite A6; [by apply A2|lia|].
        rewrite not_elem_of_app. split; [|done]. rewrite not_elem_of_cons in *. split; [tauto|]. intros Hin. apply H3 in Hin as [?|?]; [tauto|lia].
    + rewrite filter_cons_False, filter_cons_True by done. rewrite fmap_cons. cbn [foldl snd].
      destruct (add_event_ok h k2 xs2 cs2 e H0 Hc2) as (cs' & h' & -> & H1 & H2 & H3). cbn [obind].
      destruct (IH h' k1 k2 xs1 (collect xs2 e) cs1 cs') as (a1 & a2 & h2 & -> & H4 & H5 & H6).
      * by eapply only_cells_0.
      * eapply col_stable; [done| |done]. intros a Ha Hb. by eapply Hd.
      * done.
      * intros a Hb [->|Ha]%elem_of_cons; [apply (Hd k2); [done|by left]|]. apply H3 in Ha as [Ha|Ha]; [apply (Hd a); [done|by right]|].
        eapply col_bound in Hb as [_ Hb]; [|exact Hc1]. lia.
      * exists a1, a2, h2. split; [done|]. split; [done|]. split; [done|]. destruct H2 as [L2 A2], H6 as [L6 A6]. split; [lia|].
        intros a Ha Hn. rewrite not_elem_of_app in Hn. destruct Hn as [Hn1 Hn2]. rewrite A6; [by apply A2|lia|].
        rewrite not_elem_of_app. split; [done|]. rewrite not_elem_of_cons in *. split; [tauto|]. intros Hin. apply H3 in Hin as [?|?]; [tauto|lia].
Qed.

(** *** Stretchy sequences *)
Lemma zread_mid (a b : list obj) x i : i = Z.of_nat (length a) -> zread (a ++ x :: b) i = Val x.
Proof. intros ->. apply zread_val; [lia|]. rewrite Nat2Z.id, lookup_app_r, Nat.sub_diag by lia. done. Qed.
Lemma zwrite_mid (a b : list obj) x y i : i = Z.of_nat (length a) -> zwrite (a ++ x :: b) i y = Val (a ++ y :: b).
Proof.
  intros ->. rewrite zwrite_val by (rewrite app_length; cbn; lia). rewrite Nat2Z.id. f_equal.
  rewrite <- (Nat.add_0_r (length a)), insert_app_r. done.
Qed.
Lemma shift_up_ok a : forall y b, shift_up (length a) (a ++ y :: b) = Val (match a with [] => y :: b | a0 :: _ => a0 :: a ++ b end).
Proof.
  induction a as [|z a IH] using rev_ind; intros y b; [done|]. rewrite app_length. cbn [length]. rewrite Nat.add_1_r. cbn [shift_up].
  rewrite <- app_assoc. cbn [app]. rewrite (zread_mid a (y :: b)) by done. cbn [obind].
  replace (a ++ z :: y :: b) with ((a ++ [z]) ++ y :: b) by (by rewrite <- app_assoc).
  rewrite zwrite_mid by (rewrite app_length; cbn; lia). cbn [obind]. rewrite <- app_assoc. cbn [app]. rewrite IH. f_equal.
  destruct a; cbn; [done|]. by rewrite <- app_assoc.
Qed.
Lemma set_size_grow v : set_size v (vsize v + 1) = v ++ [fls].
Proof.
  unfold set_size, vsize. replace (Z.to_nat (Z.of_nat (length v) + 1)) with (S (length v)) by lia. replace (S (length v) - length v)%nat with 1%nat by lia. cbn [replicate].
  apply take_ge. rewrite app_length. cbn. lia.
Qed.
Lemma add_stretchy_ok v e : add_stretchy v e = Val (collect v e).
Proof.
  destruct e as [x|x]; cbn [add_stretchy collect].
  - unfold add_first_stretchy. rewrite set_size_grow. unfold vsize. rewrite app_length. cbn [length].
    replace (Z.to_nat (Z.of_nat (length v + 1) - 2 + 1)) with (length v) by lia. rewrite shift_up_ok. cbn [obind].
    destruct v as [|a v]; [done|]. rewrite app_nil_r. apply (zwrite_mid []). done.
  - unfold add_last_stretchy. rewrite set_size_grow. unfold vsize. apply zwrite_mid. rewrite app_length. cbn. lia.
Qed.
Lemma add_all_stretchy_ok es : forall v, add_all_stretchy v es = Val (foldl collect v es).
Proof. induction es as [|e es IH]; intros v; [done|]. cbn [add_all_stretchy foldl]. rewrite add_stretchy_ok. apply IH. Qed.

(** *** tokenize-environment-variable *)
Lemma copy_part_mid pre cur rest : copy_part (pre ++ cur ++ rest) (Z.of_nat (length pre)) (Z.of_nat (length (pre ++ cur))) = cur.
Proof.
  unfold copy_part. rewrite app_length. replace (Z.to_nat (Z.of_nat (length pre + length cur) - Z.of_nat (length pre))) with (length cur) by lia.
  rewrite Nat2Z.id, drop_app, take_app. done.
Qed.
Lemma tokenize_loop_ok d rest : forall fuel pre cur strings, (length rest < fuel)%nat -> d ∉ cur ->
  exists ps, ps <> [] /\ join d ps = cur ++ rest /\ Forall (fun p => d ∉ p) ps /\
    tokenize_loop fuel d (pre ++ cur ++ rest) strings (Z.of_nat (length pre)) (Z.of_nat (length (pre ++ cur))) =
    Val (strings ++ filter (fun p => p <> []) ps).
Proof.
  induction rest as [|c rest IH]; intros [|fuel] pre cur strings Hf Hd; cbn in Hf; try lia; cbn [tokenize_loop].
  - exists [cur]. split; [done|]. split; [cbn; by rewrite app_nil_r|]. split; [by repeat constructor|].
    destruct (Z.ltb_spec (Z.of_nat (length (pre ++ cur))) (Z.of_nat (length (pre ++ cur ++ [])))) as [H|H]; [rewrite app_nil_r in H; lia|].
    unfold collect_string. rewrite copy_part_mid. cbn [fst]. rewrite app_length. destruct cur as [|x cur].
    + replace (_ =? _) with true by (cbn; lia). rewrite filter_cons_False by tauto. by rewrite app_nil_r.
    + replace (_ =? _) with false by (cbn; lia). by rewrite filter_cons_True.
  - destruct (Z.ltb_spec (Z.of_nat (length (pre ++ cur))) (Z.of_nat (length (pre ++ cur ++ c :: rest)))) as [H|H]; [|rewrite !app_length in H; cbn in H; lia].
    rewrite (zread_val _ _ c); [|lia|rewrite Nat2Z.id, app_assoc, lookup_app_r, Nat.sub_diag by lia; done]. cbn [obind].
    destruct (Z.eqb_spec c d) as [->|Hc].
    + unfold collect_string. rewrite copy_part_mid.
      destruct (IH fuel (pre ++ cur ++ [d]) [] (if Z.of_nat (length (pre ++ cur)) =? Z.of_nat (length pre) then strings else strings ++ [cur])) as (ps & H1 & H2 & H3 & H4); [lia|apply not_elem_of_nil|].
      exists (cur :: ps). split; [done|]. split; [destruct ps as [|p ps]; [done|]; change (join d (cur :: p :: ps)) with (cur ++ d :: join d (p :: ps)); by rewrite H2|]. split; [by constructor|].
      replace (pre ++ cur ++ d :: rest) with ((pre ++ cur ++ [d]) ++ [] ++ rest) by (cbn; rewrite <- !app_assoc; done).
      replace (Z.of_nat (length (pre ++ cur)) + 1) with (Z.of_nat (length (pre ++ cur ++ [d]))) by (rewrite !app_length; cbn; lia).
      rewrite app_nil_r in H4. rewrite H4. f_equal. rewrite app_length. destruct cur as [|x cur].
      * replace (_ =? _) with true by (cbn; lia). by rewrite filter_cons_False by tauto.
      * replace (_ =? _) with false by (cbn; lia). rewrite filter_cons_True by done. by rewrite <- app_assoc.
    + destruct (IH fuel pre (cur ++ [c]) strings) as (ps & H1 & H2 & H3 & H4); [lia|rewrite not_elem_of_app, elem_of_list_singleton; split; [done|congruence]|].
      exists ps. rewrite <- app_assoc in H2. split; [done|]. split; [done|]. split; [done|].
      replace (pre ++ cur ++ c :: rest) with (pre ++ (cur ++ [c]) ++ rest) by (by rewrite <- app_assoc).
      replace (Z.of_nat (length (pre ++ cur)) + 1) with (Z.of_nat (length (pre ++ cur ++ [c]))) by (rewrite !app_length; cbn; lia). done.
Qed.
(** The pieces are determined by the variable. *)
Lemma join_unique d ps : forall qs, ps <> [] -> qs <> [] -> Forall (fun p => d ∉ p) ps -> Forall (fun p => d ∉ p) qs -> join d ps = join d qs -> ps = qs.
Proof.
  assert (G : forall p q a b, d ∉ p -> d ∉ q -> p ++ d :: a = q ++ d :: b -> p = q /\ a = b).
  { induction p as [|x p IH]; intros [|y q] a b Hp Hq E; cbn in E.
    - by injection E.
    - injection E as -> _. exfalso. apply Hq. by left.
    - injection E as -> _. exfalso. apply Hp. by left.
    - injection E as -> E. rewrite not_elem_of_cons in Hp, Hq. destruct (IH q a b) as [-> ->]; [tauto|tauto|done|done]. }
  assert (G2 : forall p q b : list Z, d ∉ p -> p = q ++ d :: b -> False).
  { intros p q b Hp ->. apply Hp. apply elem_of_app. right. by left. }
  induction ps as [|p ps IH]; intros [|q qs] H1 H2 Hp Hq E; try done. apply Forall_cons in Hp as [Hp Hps]. apply Forall_cons in Hq as [Hq Hqs].
  destruct ps as [|p' ps], qs as [|q' qs].
  - cbn in E. by subst.
  - exfalso. change (join d [p]) with p in E. change (join d (q :: q' :: qs)) with (q ++ d :: join d (q' :: qs)) in E. by eapply (G2 p).
  - exfalso. change (join d [q]) with q in E. change (join d (p :: p' :: ps)) with (p ++ d :: join d (p' :: ps)) in E. by eapply (G2 q).
  - change (join d (q :: q' :: qs)) with (q ++ d :: join d (q' :: qs)) in E. change (join d (p :: p' :: ps)) with (p ++ d :: join d (p' :: ps)) in E.
    apply G in E as [-> E]; [|done|done]. f_equal. by apply IH.
Qed.
