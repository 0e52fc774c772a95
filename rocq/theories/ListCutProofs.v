(** Proofs about the list operations, continued: leaving out elements, copying
    parts, joining, comparing. *)
From Verif Require Import Base ListModel ListSpec ListProofs.
From Coq Require Import ZifyBool ZifyNat.
Open Scope Z_scope.

(** ** remove *)

(** The counter of [remove] as a limit. *)
Definition limit_of (count : Z) : option nat := if count <? 0 then None else Some (Z.to_nat count).

Lemma without_nil p n : without p n [] = [].
Proof. by destruct n. Qed.

Lemma without_keep p x xs count : count <> 0 -> p x = false ->
  without p (limit_of count) (x :: xs) = x :: without p (limit_of count) xs.
Proof.
  intros Hc Hp. unfold limit_of. destruct (count <? 0) eqn:E; cbn; [by rewrite Hp|].
  destruct (Z.to_nat count) eqn:E2; [lia|]. by rewrite Hp.
Qed.
Lemma without_drop p x xs count : count <> 0 -> p x = true ->
  without p (limit_of count) (x :: xs) = without p (limit_of (count - 1)) xs.
Proof.
  intros Hc Hp. unfold limit_of. destruct (count <? 0) eqn:E.
  - replace (count - 1 <? 0) with true by lia. cbn. by rewrite Hp.
  - replace (count - 1 <? 0) with false by lia. cbn. destruct (Z.to_nat count) eqn:E2; [lia|].
    rewrite Hp. do 2 f_equal. lia.
Qed.
Lemma without_0 p xs : without p (Some 0%nat) xs = xs.
Proof. by destruct xs. Qed.

Lemma remove_loop_ok test v xs : forall fuel h0 h acc ys ds l cs count,
  h !! 0%nat <> None -> lst h acc ys ds -> lst h l xs cs -> unchanged h0 h -> fresh h0 ds ->
  disj ds cs -> fresh h0 ds -> Forall (fun c => c < length h0)%nat cs ->
  count <> 0 -> (length xs < fuel)%nat ->
  exists acc' rs h' ks zs ds' es,
    remove_loop fuel h test v acc l nil count = Val (acc', nil, rs, h') /\
    lst h' acc' (rev ks ++ ys) ds' /\ fresh h0 ds' /\ unchanged h h' /\
    lst h' rs zs es /\ Forall (fun c => c < length h0)%nat es /\
    ks ++ zs = without (fun x => test x v) (limit_of count) xs.
Proof.
  induction xs as [|x xs IH]; intros fuel h0 h acc ys ds l cs count H0 Ha Hl Hu Hf Hd _ Hold Hc Hfu;
    (destruct fuel as [|f]; [cbn in Hfu; lia|]).
  - unfold lst in Hl. seg_inv Hl. cbn. exists acc, nil, h, [], [], ds, [].
    repeat split; try done.
  - assert (Hl' := Hl). unfold lst in Hl. seg_inv Hl. apply Forall_cons in Hold as [Hcl Hold].
    cbn [remove_loop]. rewrite is_pair_S by done.
    rewrite (head_val _ _ _ _ Ht), (tail_val _ _ _ _ Ht). cbn [obind].
    destruct (test x v) eqn:Etest.
    + rewrite without_drop by done. destruct (Z.eqb_spec (count - 1) 0) as [E|E].
      * rewrite E. change (limit_of 0) with (Some 0%nat). rewrite without_0.
        destruct f as [|f]; [cbn in Hfu; lia|]. cbn.
        exists acc, t, h, [], xs, ds, cs. repeat split; try done.
      * apply IH with (ds := ds) (cs := cs); try done; [|cbn in Hfu; lia].
        intros a H1 H2. apply (Hd a); [done|by right].
    + rewrite without_keep by done. cbn [pair].
      destruct (IH f h0 (h ++ [(x, acc)]) (OList (length h)) (x :: ys) (length h :: ds) t cs count)
        as (acc' & rs & h' & ks & zs & ds' & es & Hr & Hs & Hf' & Hu' & Hz & Ho & E).
      * eapply unchanged_0; [apply unchanged_pair|done].
      * by apply pair_seg.
      * by apply seg_alloc.
      * eapply unchanged_trans; [done|apply unchanged_pair].
      * by apply fresh_cons.
      * intros a H1 H2. apply elem_of_cons in H1 as [-> |H1]; [|apply (Hd a); [done|by right]].
        eapply seg_in in H2 as [_ H2]; [|exact Hl]. lia.
      * by apply fresh_cons.
      * done.
      * done.
      * cbn in Hfu. lia.
      * exists acc', rs, h', (x :: ks), zs, ds', es. cbn [rev app]. rewrite <- app_assoc.
        split; [exact Hr|]. split; [exact Hs|]. split; [done|].
        split; [eapply unchanged_trans; [apply unchanged_pair|done]|]. split; [done|]. split; [done|].
        by f_equal.
Qed.

(** The [count:] argument as a limit. *)
Definition limit_arg (count : option Z) : option nat :=
  match count with None => None | Some n => Some (Z.to_nat n) end.

Lemma check_count_ok count : (forall n, count = Some n -> 0 <= n) ->
  exists c, check_count count = Val c /\ limit_of c = limit_arg count /\ (c = 0 <-> count = Some 0).
Proof.
  destruct count as [n|]; intros H; cbn.
  - specialize (H n eq_refl). replace (0 <=? n) with true by lia. exists n. split; [done|].
    unfold limit_of. replace (n <? 0) with false by lia. split; [done|]. split; [by intros ->|by intros [= ->]].
  - exists (-1). done.
Qed.

Lemma seg_old h o xs cs e : seg h o xs cs e -> Forall (fun c => c < length h)%nat cs.
Proof. intros H. apply Forall_forall. intros a Ha. eapply seg_in; eauto. Qed.

Lemma remove_ok test v count fuel h l xs cs :
  h !! 0%nat <> None -> lst h l xs cs -> (forall n, count = Some n -> 0 <= n) -> (length xs < fuel)%nat ->
  exists o h' ds, remove fuel h l v test count = Val (o, h') /\
    lst h' o (without (fun x => test x v) (limit_arg count) xs) ds /\ unchanged h h'.
Proof.
  intros H0 Hl Hc Hfu. unfold remove.
  destruct (check_count_ok count Hc) as (c & -> & Hlim & Hz). cbn [obind].
  destruct (Z.eqb_spec c 0) as [E|E].
  - apply Hz in E as ->. exists l, h, cs. cbn. rewrite without_0. repeat split; try done.
  - destruct (remove_loop_ok test v xs fuel h h nil [] [] l cs c)
      as (acc & rs & h' & ks & zs & ds & es & -> & Hs & Hf & Hu & Hr & Ho & Hw);
      try done; try (by constructor).
    { intros a Ha. by apply elem_of_nil in Ha. }
    { by eapply seg_old. }
    cbn [obind is_nil negb]. rewrite app_nil_r in Hs.
    assert (Hd : disj ds es).
    { intros a H1 H2. unfold fresh in Hf. rewrite Forall_forall in Hf, Ho.
      specialize (Hf a H1). specialize (Ho a H2). cbn in Ho. lia. }
    assert (Hlen : (length ks <= length xs)%nat).
    { assert (length (ks ++ zs) <= length xs)%nat; [|rewrite app_length in *; lia]. rewrite Hw.
      clear. generalize (limit_of c). induction xs as [|x xs IH]; intros [[|n]|]; cbn; try lia.
      - destruct (test x v); [specialize (IH (Some n))|specialize (IH (Some (S n)))]; cbn in *; lia.
      - specialize (IH None). destruct (test x v); cbn in *; lia. }
    destruct (relink_ok (rev ks) fuel h' acc ds rs zs es) as (o & h'' & -> & Hl' & Ht & _); try done.
    { rewrite rev_length. lia. }
    rewrite rev_involutive, Hw, Hlim in Hl'. exists o, h'', (rev ds ++ es). split; [done|].
    split; [done|]. eapply only_tails_fresh; [exact Hu|exact Ht|exact Hf].
Qed.

(** ** remove! *)

Lemma last_snoc_inv {A} (l : list A) x : list.last l = Some x -> exists l', l = l' ++ [x].
Proof.
  intros H. destruct l as [|y l _] using rev_ind; [done|]. rewrite last_snoc in H. injection H as ->. eauto.
Qed.

(** The kept part ends at [e]; dropping what is between its last pair and [t]. *)
Lemma unlink_ok h result ks kcs e t x c rcs rest :
  NoDup (kcs ++ c :: rcs) -> seg h result ks kcs (OList c) -> c <> 0%nat ->
  h !! c = Some (x, t) -> seg h t rest rcs e ->
  exists result' h',
    match list.last kcs with
    | Some p => (do h <- set_tail h (OList p) t ; Val (result, h))%outcome
    | None => Val (t, h)
    end = Val (result', h') /\
    seg h' result' ks kcs t /\ seg h' t rest rcs e /\ h' !! c = Some (x, t) /\ only_tails kcs h h'.
Proof.
  intros Hn Hk Hc Ht Hr. destruct (list.last kcs) as [p|] eqn:El.
  - apply last_snoc_inv in El as (kcs' & ->).
    assert (exists ks' y, ks = ks' ++ [y] /\ length ks' = length kcs') as (ks' & y & -> & Hlen).
    { pose proof (seg_length _ _ _ _ _ Hk) as Hl. rewrite app_length in Hl. cbn in Hl.
      destruct ks as [|y ks' _] using rev_ind; [cbn in Hl; lia|]. rewrite app_length in Hl. cbn in Hl.
      exists ks', y. split; [done|lia]. }
    assert (Hp : exists u, h !! p = Some (y, u)).
    { destruct (seg_split _ _ _ _ _ _ _ Hlen Hk) as (m & _ & Hm). cbn in Hm.
      destruct Hm as (_ & _ & u & Hu & _). eauto. }
    destruct Hp as (u & Hp). rewrite (set_tail_val _ _ _ _ _ Hp). cbn [obind].
    apply NoDup_app in Hn as (Hn1 & Hn2 & Hn3). apply NoDup_cons in Hn3 as [Hn3 Hn4].
    assert (Hpc : p <> c) by (intros ->; apply (Hn2 c); [apply elem_of_app; right; by left|by left]).
    eexists _, _. split; [reflexivity|]. split; [by eapply seg_redirect|]. split; [|split].
    + apply seg_update; [|done]. intros Hin. apply (Hn2 p); [apply elem_of_app; right; by left|by right].
    + by rewrite list_lookup_insert_ne.
    + apply (only_tails_set _ p y u); [apply elem_of_app; right; by left|done].
  - apply last_None in El as ->. destruct ks; [|by destruct Hk]. cbn in Hk.
    exists t, h. repeat split; try done. eauto.
Qed.

Lemma NoDup_drop (ks cs : list nat) c : NoDup (ks ++ c :: cs) -> NoDup (ks ++ cs).
Proof.
  rewrite !NoDup_app. intros (H1 & H2 & H3). apply NoDup_cons in H3 as [_ H3].
  split; [done|]. split; [|done]. intros a Ha Hin. apply (H2 a Ha). by right.
Qed.

Lemma unchanged_cell_0 cs h h' :
  only_tails cs h h' -> h !! 0%nat = Some (nil, nil) -> 0%nat ∉ cs -> h' !! 0%nat = Some (nil, nil).
Proof. intros (_ & A & _) H0 Hn. rewrite A; try done. by apply lookup_lt_Some in H0. Qed.

Lemma seg_no_0 h o xs cs e : seg h o xs cs e -> 0%nat ∉ cs.
Proof. intros H Hin. eapply seg_in in Hin as [Hin _]; [|done]. done. Qed.

Lemma remove_bang_loop_ok test v xs : forall fuel h result ks kcs l cs count,
  h !! 0%nat = Some (nil, nil) -> NoDup (kcs ++ cs) ->
  seg h result ks kcs l -> lst h l xs cs -> count <> 0 -> (length xs < fuel)%nat ->
  exists o h' ds,
    remove_bang_loop fuel h test v result (OList <$> list.last kcs) l count = Val (o, nil, h') /\
    lst h' o (ks ++ without (fun x => test x v) (limit_of count) xs) ds /\
    ds `sublist_of` kcs ++ cs /\ only_tails (kcs ++ cs) h h'.
Proof.
  induction xs as [|x xs IH]; intros fuel h result ks kcs l cs count H0 Hn Hk Hl Hc Hfu;
    (destruct fuel as [|f]; [cbn in Hfu; lia|]).
  - unfold lst in Hl. seg_inv Hl. cbn. exists result, h, kcs. rewrite !app_nil_r.
    repeat split; try done. eauto.
  - assert (Hl' := Hl). unfold lst in Hl. seg_inv Hl. cbn [remove_bang_loop]. rewrite is_pair_S by done.
    rewrite (head_val _ _ _ _ Ht). cbn [obind].
    destruct (test x v) eqn:Etest; cbn [negb].
    + rewrite without_drop by done. rewrite (tail_val _ _ _ _ Ht). cbn [obind].
      destruct (unlink_ok h result ks kcs nil t x c cs xs Hn Hk Hc0 Ht Hl)
        as (result' & h' & Hun & Hk' & Hr' & Ht' & Hot).
      assert (match (OList <$> list.last kcs : option obj) with
        | Some p => (do h0 <- set_tail h p t ; Val (result, h0))%outcome
        | None => Val (t, h) end = Val (result', h')) as ->.
      { rewrite <- Hun. by destruct (list.last kcs). }
      cbn [obind].
      assert (Hn' : NoDup (kcs ++ cs)).
      { by apply NoDup_drop in Hn. }
      assert (H0' : h' !! 0%nat = Some (nil, nil)).
      { eapply unchanged_cell_0; [exact Hot|done|]. by eapply seg_no_0. }
      destruct (Z.eqb_spec (count - 1) 0) as [E|E].
      * rewrite E. rewrite (tail_val _ _ _ _ H0' : tail h' nil = _). cbn [obind].
        change (limit_of 0) with (Some 0%nat). rewrite without_0.
        destruct f as [|f]; [cbn in Hfu; lia|]. cbn.
        exists result', h', (kcs ++ cs). split; [done|]. split; [by eapply seg_app|].
        split; [apply sublist_app; [done|by constructor]|].
        eapply only_tails_sub; [|exact Hot]. intros a Ha. apply elem_of_app. by left.
      * rewrite (tail_val _ _ _ _ Ht'). cbn [obind].
        destruct (IH f h' result' ks kcs t cs (count - 1)) as (o & h'' & ds & Hrun & Hs & Hsub & Ho);
          try done; [cbn in Hfu; lia|].
        exists o, h'', ds. split; [done|]. split; [done|].
        split; [etrans; [exact Hsub|]; apply sublist_app; [done|by constructor]|].
        eapply only_tails_trans.
        -- eapply only_tails_sub; [|exact Hot]. intros a Ha. apply elem_of_app. by left.
        -- eapply only_tails_sub; [|exact Ho]. intros a Ha. apply elem_of_app in Ha as [Ha|Ha];
             apply elem_of_app; [by left|right; by right].
    + rewrite without_keep by done. rewrite (tail_val _ _ _ _ Ht). cbn [obind].
      destruct (IH f h result (ks ++ [x]) (kcs ++ [c]) t cs count) as (o & h'' & ds & Hrun & Hs & Hsub & Ho);
        try done.
      * by rewrite <- app_assoc.
      * eapply seg_app; [exact Hk|]. by eapply seg_cons.
      * cbn in Hfu. lia.
      * rewrite last_snoc in Hrun. rewrite <- app_assoc in Hs, Hsub, Ho. cbn in Hs, Hsub, Ho.
        exists o, h'', ds. done.
Qed.

Lemma remove_bang_ok test v count fuel h l xs cs :
  h !! 0%nat = Some (nil, nil) -> lst h l xs cs -> (forall n, count = Some n -> 0 <= n) ->
  (length xs < fuel)%nat ->
  exists o h' ds, remove_bang fuel h l v test count = Val (o, h') /\
    lst h' o (without (fun x => test x v) (limit_arg count) xs) ds /\
    ds `sublist_of` cs /\ only_tails cs h h'.
Proof.
  intros H0 Hl Hc Hfu. unfold remove_bang.
  destruct (check_count_ok count Hc) as (c & -> & Hlim & Hz). cbn [obind].
  destruct (Z.eqb_spec c 0) as [E|E].
  - apply Hz in E as ->. exists l, h, cs. cbn. rewrite without_0. repeat split; try done. eauto.
  - destruct (remove_bang_loop_ok test v xs fuel h l [] [] l cs c) as (o & h' & ds & Hr & Hs & Hsub & Ho);
      try done.
    { exact (seg_nodup _ _ _ _ _ (eq_refl : is_pair nil = false) Hl). }
    cbn in Hr. rewrite Hr. cbn. rewrite Hlim in Hs. exists o, h', ds. done.
Qed.

(** ** remove-duplicates *)

Lemma remove_duplicates_loop_ok test xs : forall fuel h0 h result ks kcs l cs,
  h !! 0%nat <> None -> unchanged h0 h -> lst h result ks kcs -> fresh h0 kcs ->
  lst h l xs cs -> disj kcs cs -> (length xs < fuel)%nat ->
  exists o h' ds,
    remove_duplicates_loop fuel h test result (OList <$> list.last kcs) l = Val (o, nil, h') /\
    lst h' o (ks ++ last_occurrences (apply_test test) xs) ds /\ fresh h0 ds /\ unchanged h0 h'.
Proof.
  induction xs as [|x xs IH]; intros fuel h0 h result ks kcs l cs H0 Hu Hk Hf Hl Hd Hfu;
    (destruct fuel as [|f]; [cbn in Hfu; lia|]).
  - unfold lst in Hl. seg_inv Hl. cbn. exists result, h, kcs. rewrite app_nil_r. done.
  - assert (Hl' := Hl). unfold lst in Hl. seg_inv Hl. cbn [remove_duplicates_loop]. rewrite is_pair_S by done.
    rewrite (head_val _ _ _ _ Ht), (tail_val _ _ _ _ Ht). cbn [obind].
    rewrite (member_ok test x f h t xs cs) by (done || (cbn in Hfu; lia)). cbn [obind last_occurrences].
    assert (Hd' : disj kcs cs) by (intros a H1 H2; apply (Hd a); [done|by right]).
    destruct (existsb (apply_test test x) xs) eqn:Ex.
    + apply IH with (cs := cs); try done. cbn in Hfu. lia.
    + change (make_list h [x]) with (OList (length h), h ++ [(x, nil)]). cbv beta iota.
      assert (Hnew : seg (h ++ [(x, nil)]) (OList (length h)) [x] [length h] nil) by (by apply pair_seg).
      assert (Hu1 : unchanged h0 (h ++ [(x, nil)])) by (eapply unchanged_trans; [done|apply unchanged_pair]).
      assert (H01 : (h ++ [(x, nil)]) !! 0%nat <> None) by (eapply unchanged_0; [apply unchanged_pair|done]).
      assert (Hf1 : fresh h0 [length h]) by (apply fresh_cons; [done|constructor]).
      assert (Hd1 : disj [length h] cs).
      { intros a H1 H2. apply elem_of_list_singleton in H1 as ->. eapply seg_in in H2 as [_ H2]; [|exact Hl]. lia. }
      destruct (list.last kcs) as [p|] eqn:El; cbn [fmap option_fmap option_map].
      * apply last_snoc_inv in El as (kcs' & ->).
        assert (exists ks' y, ks = ks' ++ [y] /\ length ks' = length kcs') as (ks' & y & -> & Hlen).
        { pose proof (seg_length _ _ _ _ _ Hk) as Hlk. rewrite app_length in Hlk. cbn in Hlk.
          destruct ks as [|y ks' _] using rev_ind; [cbn in Hlk; lia|]. rewrite app_length in Hlk. cbn in Hlk.
          exists ks', y. split; [done|lia]. }
        pose proof (seg_nodup _ _ _ _ _ (eq_refl : is_pair nil = false) Hk) as Hnk.
        assert (Hk1 := seg_alloc _ [(x, nil)] _ _ _ _ Hk).
        assert (exists u, (h ++ [(x, nil)]) !! p = Some (y, u)) as (u & Hp).
        { destruct (seg_split _ _ _ _ _ _ _ Hlen Hk1) as (m & _ & Hm). cbn in Hm.
          destruct Hm as (_ & _ & u & Hpu & _). eauto. }
        assert (Hpl : (p < length h)%nat).
        { eapply seg_in; [exact Hk|]. apply elem_of_app. right. by left. }
        rewrite (set_tail_val _ _ _ _ _ Hp). cbn [obind].
        set (h2 := <[p := (y, OList (length h))]> (h ++ [(x, nil)])).
        destruct (IH f h0 h2 result ((ks' ++ [y]) ++ [x]) ((kcs' ++ [p]) ++ [length h]) t cs)
          as (o & h' & ds & Hrun & Hs & Hfd & Hu').
        -- unfold h2. rewrite list_lookup_insert_ne; [done|]. eapply seg_in; [exact Hk|].
           apply elem_of_app. right. by left.
        -- eapply only_tails_fresh; [exact Hu1|apply (only_tails_set [p] p y u); [by left|done]|].
           constructor; [|constructor]. unfold fresh in Hf. rewrite Forall_forall in Hf. apply Hf.
           apply elem_of_app. right. by left.
        -- unfold lst. eapply seg_app.
           ++ eapply seg_redirect; [done|exact Hk1|done].
           ++ apply seg_update; [|done]. intros Hin. apply elem_of_list_singleton in Hin. lia.
        -- apply Forall_app. split; done.
        -- apply seg_update.
           ++ intros Hin. apply (Hd' p); [apply elem_of_app; right; by left|done].
           ++ by apply seg_alloc.
        -- intros a H1 H2. apply elem_of_app in H1 as [H1|H1]; [by apply (Hd' a)|by apply (Hd1 a)].
        -- cbn in Hfu. lia.
        -- rewrite last_snoc in Hrun. cbn in Hrun. exists o, h', ds.
           rewrite <- (app_assoc (ks' ++ [y])) in Hs. done.
      * apply last_None in El as ->. unfold lst in Hk. destruct ks; [|by destruct Hk].
        destruct (IH f h0 (h ++ [(x, nil)]) (OList (length h)) [x] [length h] t cs)
          as (o & h' & ds & Hrun & Hs & Hfd & Hu'); try done.
        -- by apply seg_alloc.
        -- cbn in Hfu. lia.
        -- exists o, h', ds. done.
Qed.

Lemma remove_duplicates_ok test fuel h l xs cs :
  h !! 0%nat <> None -> lst h l xs cs -> (length xs < fuel)%nat ->
  exists o h' ds, remove_duplicates fuel h l test = Val (o, h') /\
    lst h' o (last_occurrences (apply_test test) xs) ds /\ unchanged h h'.
Proof.
  intros H0 Hl Hf. unfold remove_duplicates.
  destruct (remove_duplicates_loop_ok test xs fuel h h nil [] [] l cs) as (o & h' & ds & Hr & Hs & _ & Hu); try done.
  { constructor. } { intros a Ha. by apply elem_of_nil in Ha. }
  cbn in Hr. rewrite Hr. cbn. exists o, h', ds. done.
Qed.

Lemma remove_duplicates_bang_loop_ok test xs : forall fuel h result ks kcs l cs,
  NoDup (kcs ++ cs) -> seg h result ks kcs l -> lst h l xs cs -> (length xs < fuel)%nat ->
  exists o h' ds,
    remove_duplicates_bang_loop fuel h test result (OList <$> list.last kcs) l = Val (o, nil, h') /\
    lst h' o (ks ++ last_occurrences (apply_test test) xs) ds /\
    ds `sublist_of` kcs ++ cs /\ only_tails (kcs ++ cs) h h'.
Proof.
  induction xs as [|x xs IH]; intros fuel h result ks kcs l cs Hn Hk Hl Hfu;
    (destruct fuel as [|f]; [cbn in Hfu; lia|]).
  - unfold lst in Hl. seg_inv Hl. cbn. exists result, h, kcs. rewrite !app_nil_r.
    repeat split; try done. eauto.
  - assert (Hl' := Hl). unfold lst in Hl. seg_inv Hl. cbn [remove_duplicates_bang_loop]. rewrite is_pair_S by done.
    rewrite (head_val _ _ _ _ Ht), (tail_val _ _ _ _ Ht). cbn [obind].
    rewrite (member_ok test x f h t xs cs) by (done || (cbn in Hfu; lia)). cbn [obind last_occurrences].
    destruct (existsb (apply_test test x) xs) eqn:Ex; cbn [negb].
    + destruct (unlink_ok h result ks kcs nil t x c cs xs Hn Hk Hc Ht Hl)
        as (result' & h' & Hun & Hk' & Hr' & Ht' & Hot).
      assert (Hn' : NoDup (kcs ++ cs)).
      { by apply NoDup_drop in Hn. }
      destruct (IH f h' result' ks kcs t cs) as (o & h'' & ds & Hrun & Hs & Hsub & Ho);
          try done; [cbn in Hfu; lia|].
      exists o, h'', ds. split.
      { destruct (list.last kcs) as [p|]; cbn [fmap option_fmap option_map] in Hrun |- *.
        - destruct (set_tail h (OList p) t) as [h1| | |]; try done. cbn [obind] in Hun |- *.
          injection Hun as -> ->. done.
        - injection Hun as -> ->. done. }
      split; [done|]. split; [etrans; [exact Hsub|]; apply sublist_app; [done|by constructor]|].
      eapply only_tails_trans.
      * eapply only_tails_sub; [|exact Hot]. intros a Ha. apply elem_of_app. by left.
      * eapply only_tails_sub; [|exact Ho]. intros a Ha. apply elem_of_app in Ha as [Ha|Ha];
          apply elem_of_app; [by left|right; by right].
    + destruct (IH f h result (ks ++ [x]) (kcs ++ [c]) t cs) as (o & h'' & ds & Hrun & Hs & Hsub & Ho); try done.
      * by rewrite <- app_assoc.
      * eapply seg_app; [exact Hk|]. by eapply seg_cons.
      * cbn in Hfu. lia.
      * rewrite last_snoc in Hrun. rewrite <- app_assoc in Hs, Hsub, Ho. cbn in Hs, Hsub, Ho.
        exists o, h'', ds. done.
Qed.

Lemma remove_duplicates_bang_ok test fuel h l xs cs :
  lst h l xs cs -> (length xs < fuel)%nat ->
  exists o h' ds, remove_duplicates_bang fuel h l test = Val (o, h') /\
    lst h' o (last_occurrences (apply_test test) xs) ds /\ ds `sublist_of` cs /\ only_tails cs h h'.
Proof.
  intros Hl Hf. unfold remove_duplicates_bang.
  destruct (remove_duplicates_bang_loop_ok test xs fuel h l [] [] l cs) as (o & h' & ds & Hr & Hs & Hsub & Ho); try done.
  { exact (seg_nodup _ _ _ _ _ (eq_refl : is_pair nil = false) Hl). }
  cbn in Hr. rewrite Hr. cbn. exists o, h', ds. done.
Qed.
