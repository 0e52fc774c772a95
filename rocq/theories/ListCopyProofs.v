(** Proofs about the list operations, continued: copying parts, joining,
    comparing, and the size of every structure. *)
From Verif Require Import Base ListModel ListSpec ListProofs ListCutProofs.
From Coq Require Import ZifyBool ZifyNat.
Open Scope Z_scope.

(** ** copy-sequence *)

Lemma skip_to_ok xs : forall fuel h l cs first i,
  lst h l xs cs -> i <= first -> (length xs < fuel)%nat ->
  exists l' i', skip_to fuel h first l i = Val (l', i') /\
    i' = Z.min first (i + Z.of_nat (length xs)) /\
    lst h l' (drop (Z.to_nat (first - i)) xs) (drop (Z.to_nat (first - i)) cs).
Proof.
  induction xs as [|x xs IH]; intros [|f] h l cs first i Hl Hi Hf; cbn in Hf; try lia; unfold lst in Hl; seg_inv Hl.
  - cbn. rewrite andb_false_r. exists nil, i. rewrite !drop_nil. split; [done|]. split; [cbn; lia|done].
  - cbn [skip_to]. rewrite is_nil_S by done. destruct (Z.ltb_spec i first) as [E|E]; cbn [andb negb].
    + rewrite (tail_val _ _ _ _ Ht). cbn [obind].
      destruct (IH f h t cs first (i + 1) Hl) as (l' & i' & -> & -> & Hd); [lia|lia|].
      eexists _, _. split; [reflexivity|]. split; [cbn [length]; lia|].
      replace (Z.to_nat (first - i)) with (S (Z.to_nat (first - (i + 1)))) by lia. exact Hd.
    + exists (OList c), i. split; [done|]. split; [lia|].
      replace (Z.to_nat (first - i)) with 0%nat by lia. cbn. eauto.
Qed.

Lemma copy_to_ok xs : forall fuel h0 h l cs last i result ys ds,
  h !! 0%nat <> None -> lst h l xs cs -> lst h result ys ds -> unchanged h0 h -> fresh h0 ds ->
  i <= last -> (length xs < fuel)%nat ->
  exists l' i' o h' ds', copy_to fuel h last l i result = Val (l', i', o, h') /\
    i' = Z.min last (i + Z.of_nat (length xs)) /\
    lst h' o (rev (take (Z.to_nat (last - i)) xs) ++ ys) ds' /\ unchanged h h' /\ fresh h0 ds'.
Proof.
  induction xs as [|x xs IH]; intros [|f] h0 h l cs last i result ys ds H0 Hl Hr Hu Hfr Hi Hf;
    cbn in Hf; try lia; unfold lst in Hl; seg_inv Hl.
  - cbn. rewrite andb_false_r. exists nil, i, result, h, ds. rewrite take_nil.
    split; [done|]. split; [lia|]. split; [done|]. split; [apply unchanged_refl|done].
  - cbn [copy_to]. rewrite is_nil_S by done. destruct (Z.ltb_spec i last) as [E|E]; cbn [andb negb].
    + rewrite (tail_val _ _ _ _ Ht), (head_val _ _ _ _ Ht). cbn [obind pair].
      destruct (IH f h0 (h ++ [(x, result)]) t cs last (i + 1) (OList (length h)) (x :: ys) (length h :: ds))
        as (l' & i' & o & h' & ds' & Hrun & -> & Hs & Hu' & Hf').
      * eapply unchanged_0; [apply unchanged_pair|done].
      * by apply seg_alloc.
      * by apply pair_seg.
      * eapply unchanged_trans; [done|apply unchanged_pair].
      * by apply fresh_cons.
      * lia.
      * lia.
      * exists l'; eexists; exists o, h', ds'. split; [exact Hrun|]. split; [cbn [length]; lia|].
        replace (Z.to_nat (last - i)) with (S (Z.to_nat (last - (i + 1)))) by lia.
        cbn [take rev]. rewrite <- app_assoc. split; [exact Hs|]. split; [|done].
        eapply unchanged_trans; [apply unchanged_pair|done].
    + exists (OList c), i, result, h, ds. split; [done|]. split; [lia|].
      replace (Z.to_nat (last - i)) with 0%nat by lia.
      split; [done|]. split; [apply unchanged_refl|done].
Qed.

(** The end of the part to copy. *)
Definition end_of (last : option Z) (xs : list obj) : Z :=
  match last with Some e => e | None => Z.of_nat (length xs) end.

Lemma copy_sequence_ok fuel h l xs cs first last :
  h !! 0%nat <> None -> lst h l xs cs -> (length xs < fuel)%nat ->
  if decide (0 <= first <= end_of last xs /\ end_of last xs <= Z.of_nat (length xs)) then
    exists o h' ds, copy_sequence fuel h l first last = Val (o, h') /\
      lst h' o (take (Z.to_nat (end_of last xs - first)) (drop (Z.to_nat first) xs)) ds /\
      unchanged h h' /\ fresh h ds
  else exists m, copy_sequence fuel h l first last = Signal m.
Proof.
  intros H0 Hl Hf. unfold copy_sequence.
  destruct ((first =? 0) && match last with None => true | _ => false end) eqn:E.
  { destruct last as [last|]; [lia|]. assert (first = 0) as -> by lia. cbn [end_of].
    rewrite decide_True by (cbn; lia).
    destruct (map_list_ok id fuel h l xs cs H0 Hl Hf) as (o & h' & ds & Hm & Hs & Hu & Hfr).
    unfold map_list in Hm. exists o, h', ds. split; [exact Hm|]. rewrite map_id in Hs.
    rewrite drop_0, take_ge by (cbn; lia). done. }
  destruct (Z.ltb_spec first 0) as [E0|E0].
  { rewrite decide_False by lia. eauto. }
  destruct (skip_to_ok xs fuel h l cs first 0 Hl E0 Hf) as (l' & i' & -> & Hi' & Hd). cbn [obind].
  rewrite Z.add_0_l in Hi'. rewrite Z.sub_0_r in Hd.
  destruct (Z.ltb_spec i' first) as [E1|E1].
  { rewrite decide_False; [eauto|]. destruct last; cbn; lia. }
  assert (Hlen : (length (drop (Z.to_nat first) xs) < fuel)%nat) by (rewrite drop_length; lia).
  destruct last as [last|]; cbn [end_of].
  - destruct (Z.ltb_spec last first) as [E2|E2].
    { rewrite decide_False by lia. eauto. }
    assert (i' = first) as -> by lia.
    destruct (copy_to_ok _ fuel h h l' _ last first nil [] [] H0 Hd)
      as (l2 & i2 & o & h' & ds & -> & Hi2 & Hs & Hu & Hfr); try done; [constructor|].
    cbn [obind]. rewrite drop_length in Hi2. destruct (Z.ltb_spec i2 last) as [E3|E3].
    { rewrite decide_False by lia. eauto. }
    rewrite decide_True by lia. rewrite app_nil_r in Hs.
    destruct (reverse_fresh fuel h h' o _ ds Hu Hs Hfr) as (o' & h'' & ds' & Hr & Hs' & Hu' & Hfr').
    { rewrite rev_length, take_length. lia. }
    rewrite rev_involutive in Hs'. exists o', h'', ds'. done.
  - rewrite decide_True by lia.
    destruct (map_list_ok id fuel h l' _ _ H0 Hd Hlen) as (o & h' & ds & Hm & Hs & Hu & Hfr).
    unfold map_list in Hm. exists o, h', ds. split; [exact Hm|]. rewrite map_id in Hs.
    rewrite take_ge by (rewrite drop_length; cbn; lia). done.
Qed.

(** ** concatenate *)

Lemma concatenate_as_two_ok fuel h l1 xs cs l2 ys ds :
  h !! 0%nat <> None -> lst h l1 xs cs -> lst h l2 ys ds -> (length xs < fuel)%nat ->
  exists o h' es, concatenate_as_two fuel h l1 l2 = Val (o, h') /\ lst h' o (xs ++ ys) es /\ unchanged h h'.
Proof.
  intros H0 H1 H2 Hf. unfold concatenate_as_two.
  destruct ys as [|y ys].
  { unfold lst in H2. seg_inv H2. cbn [is_nil nil]. exists l1, h, cs. rewrite app_nil_r.
    split; [done|]. split; [done|apply unchanged_refl]. }
  assert (is_nil l2 = false) as ->.
  { destruct ds; [by destruct H2|]. destruct H2 as (-> & Hc & _). by apply is_nil_S. }
  destruct xs as [|x xs].
  { unfold lst in H1. seg_inv H1. cbn [is_nil nil]. exists l2, h, ds. split; [done|]. split; [done|apply unchanged_refl]. }
  assert (is_nil l1 = false) as ->.
  { destruct cs; [by destruct H1|]. destruct H1 as (-> & Hc & _). by apply is_nil_S. }
  destruct (push_all_ok id (x :: xs) fuel h h l1 cs nil [] []) as (o & h' & es & -> & Hs & Hu & Hfr); try done.
  { constructor. }
  cbn [obind]. rewrite app_nil_r, map_id in Hs.
  assert (H2' : lst h' l2 (y :: ys) ds) by (by eapply unchanged_seg).
  destruct (relink_ok _ fuel h' o es l2 (y :: ys) ds Hs H2') as (o' & h'' & -> & Hs' & Ht & _).
  { eapply fresh_disjoint; [exact H2|exact Hfr]. } { by rewrite rev_length. }
  rewrite rev_involutive in Hs'. eexists _, _, _. split; [reflexivity|]. split; [exact Hs'|].
  eapply only_tails_fresh; [exact Hu|exact Ht|exact Hfr].
Qed.

Lemma concatenate_loop_ok ls : forall fuel h xss acc ys ds,
  h !! 0%nat <> None -> Forall2 (is_lst h) ls xss -> lst h acc ys ds ->
  Forall (fun xs : list obj => length xs < fuel)%nat xss ->
  exists o h' es, concatenate_loop fuel h ls acc = Val (o, h') /\
    lst h' o (concat (rev xss) ++ ys) es /\ unchanged h h'.
Proof.
  induction ls as [|l ls IH]; intros fuel h xss acc ys ds H0 Hls Ha Hf.
  - apply Forall2_nil_inv_l in Hls as ->. exists acc, h, ds. split; [done|]. split; [done|apply unchanged_refl].
  - apply Forall2_cons_inv_l in Hls as (xs & xss' & [cs Hl] & Hls & ->).
    apply Forall_cons in Hf as [Hf1 Hf2].
    destruct (concatenate_as_two_ok fuel h l xs cs acc ys ds H0 Hl Ha Hf1) as (o & h' & es & Hc & Hs & Hu).
    cbn [concatenate_loop]. rewrite Hc. cbn [obind].
    destruct (IH fuel h' xss' o (xs ++ ys) es) as (o' & h'' & es' & Hr & Hs' & Hu').
    + by eapply unchanged_0.
    + eapply Forall2_impl; [exact Hls|]. intros a b [c Hc']. exists c. by eapply unchanged_seg.
    + done.
    + done.
    + exists o', h'', es'. split; [exact Hr|]. cbn [rev]. rewrite concat_app. cbn [concat].
      rewrite app_nil_r, <- app_assoc. split; [exact Hs'|]. by eapply unchanged_trans.
Qed.

Lemma concatenate_ok fuel h l xs ls xss :
  h !! 0%nat <> None -> is_lst h l xs -> Forall2 (is_lst h) ls xss ->
  Forall (fun xs : list obj => length xs < fuel)%nat (xs :: xss) ->
  exists o h', concatenate fuel h l ls = Val (o, h') /\ is_lst h' o (xs ++ concat xss) /\ unchanged h h'.
Proof.
  intros H0 [cs Hl] Hls Hf. apply Forall_cons in Hf as [Hf1 Hf2]. unfold concatenate.
  destruct (concatenate_loop_ok (rev ls) fuel h (rev xss) nil [] []) as (o & h' & es & -> & Hs & Hu); try done.
  { apply (Forall2_reverse (is_lst h)) in Hls. unfold reverse in Hls.
    by rewrite !rev_alt. }
  { apply Forall_forall. intros a Ha. rewrite Forall_forall in Hf2. apply Hf2.
    by apply elem_of_list_In, in_rev, elem_of_list_In. }
  cbn [obind]. rewrite rev_involutive, app_nil_r in Hs.
  destruct (concatenate_as_two_ok fuel h' l xs cs o (concat xss) es) as (o' & h'' & es' & Hc & Hs' & Hu'); try done.
  { by eapply unchanged_0. } { by eapply unchanged_seg. }
  exists o', h''. split; [done|]. split; [by exists es'|]. by eapply unchanged_trans.
Qed.

(** ** replace-subsequence! *)

Lemma advance_ok n : forall h l xs cs e, seg h l xs cs e -> (n <= length xs)%nat ->
  exists m, advance n h l = Val m /\ seg h l (take n xs) (take n cs) m /\ seg h m (drop n xs) (drop n cs) e.
Proof.
  induction n as [|n IH]; intros h l xs cs e Hl Hn; [by exists l|].
  destruct xs as [|x xs]; [cbn in Hn; lia|]. seg_inv Hl. cbn [advance]. rewrite (tail_val _ _ _ _ Ht). cbn [obind].
  destruct (IH h t xs cs e Hl) as (m & Ha & H1 & H2); [cbn in Hn; lia|]. exists m. split; [done|]. cbn. eauto 10.
Qed.

Lemma find_hole_ok k : forall fuel h l xs cs e index, seg h l xs cs e -> (k <= length xs)%nat -> (k < fuel)%nat ->
  exists m, find_hole fuel h l index (index + Z.of_nat k) = Val m /\ seg h m (drop k xs) (drop k cs) e.
Proof.
  induction k as [|k IH]; intros [|f] h l xs cs e index Hl Hk Hf; try lia.
  - exists l. cbn [find_hole]. rewrite (proj2 (Z.eqb_eq index _)) by lia. done.
  - destruct xs as [|x xs]; [cbn in Hk; lia|]. seg_inv Hl. cbn [find_hole].
    rewrite (proj2 (Z.eqb_neq index _)) by lia. rewrite (tail_val _ _ _ _ Ht). cbn [obind].
    replace (index + Z.of_nat (S k)) with (index + 1 + Z.of_nat k) by lia.
    apply IH; [done|cbn in Hk; lia|lia].
Qed.

Lemma seg_snoc_cell h l xs x cs c e : length xs = length cs -> seg h l (xs ++ [x]) (cs ++ [c]) e ->
  c <> 0%nat /\ h !! c = Some (x, e) /\ seg h l xs cs (OList c).
Proof.
  intros Hl H. apply seg_split in H as (m & H1 & H2); [|done]. cbn in H2.
  destruct H2 as (-> & Hc & t & Ht & ->). done.
Qed.

(** The insertion loop: [pre] are the pairs before the hole, the last of which
    is [p]; the pairs of [insert] are not changed. *)
Lemma insert_loop_ok ys : forall fuel h root xs cs x p e ins is,
  h !! 0%nat <> None -> length xs = length cs -> NoDup (cs ++ [p]) ->
  seg h root (xs ++ [x]) (cs ++ [p]) e -> lst h ins ys is -> p ∉ is -> (length ys < fuel)%nat ->
  exists xs' x' cs' p' e' h', insert_loop fuel h ins (OList p) = Val (OList p', h') /\
    xs' ++ [x'] = (xs ++ [x]) ++ ys /\ length xs' = length cs' /\ NoDup (cs' ++ [p']) /\
    seg h' root (xs' ++ [x']) (cs' ++ [p']) e' /\
    (length h <= length h')%nat /\
    (forall a, (a < length h)%nat -> a <> p -> h' !! a = h !! a) /\
    (forall a, a ∈ cs' ++ [p'] -> a ∈ cs ++ [p] \/ (length h <= a)%nat) /\
    (exists t, h' !! p = Some (x, t)) /\ (ys = [] -> p' = p) /\ (p' = p \/ (length h <= p')%nat).
Proof.
  induction ys as [|y ys IH]; intros [|f] h root xs cs x p e ins is H0 Hlen Hn Hs Hi Hp Hf;
    cbn in Hf; try lia; unfold lst in Hi; seg_inv Hi.
  - destruct (seg_snoc_cell _ _ _ _ _ _ _ Hlen Hs) as (_ & Hpc & _).
    cbn. exists xs, x, cs, p, e, h. rewrite app_nil_r. repeat split; try done; eauto.
  - cbn [insert_loop]. rewrite is_nil_S by done. rewrite (head_val _ _ _ _ Ht). cbn [obind pair].
    destruct (seg_snoc_cell _ _ _ _ _ _ _ Hlen Hs) as (Hp0 & Hpc & _).
    assert (Hpl : (p < length h)%nat) by (by apply lookup_lt_Some in Hpc).
    assert (Hpc' : (h ++ [(y, OAtom 0)]) !! p = Some (x, e)) by (by rewrite lookup_app_l).
    rewrite (set_tail_val _ _ _ _ _ Hpc'). cbn [obind].
    set (h2 := <[p := (x, OList (length h))]> (h ++ [(y, OAtom 0)])).
    assert (Hcl : (c < length h)%nat) by (by apply lookup_lt_Some in Ht).
    assert (Hpc2 : p <> c) by (intros ->; apply Hp; by left).
    assert (Ht2 : h2 !! c = Some (y, t)).
    { unfold h2. rewrite list_lookup_insert_ne by done. by rewrite lookup_app_l. }
    rewrite (tail_val _ _ _ _ Ht2). cbn [obind]. rewrite (check_list_seg _ _ _ _ Hi). cbn [obind].
    assert (Hnew : h2 !! length h = Some (y, OAtom 0)).
    { unfold h2. rewrite list_lookup_insert_ne by lia. by rewrite lookup_app_r, Nat.sub_diag by lia. }
    assert (Hin : forall a, a ∈ cs ++ [p] -> (a < length h)%nat) by (intros a Ha; eapply seg_in in Ha as [_ Ha]; [done|exact Hs]).
    destruct (IH f h2 root (xs ++ [x]) (cs ++ [p]) y (length h) (OAtom 0) t is)
      as (xs' & x' & cs' & p' & e' & h' & Hrun & Hxs & Hl' & Hn' & Hs' & Hle & Hsame & Hcs & (tp & Htp) & Hnil & Hp').
    + unfold h2. rewrite list_lookup_insert_ne by done. eapply unchanged_0; [apply unchanged_pair|done].
    + rewrite !app_length. cbn. lia.
    + apply NoDup_app. split; [done|]. split; [|apply NoDup_singleton].
      intros a Ha Hb. apply elem_of_list_singleton in Hb as ->. specialize (Hin _ Ha). lia.
    + eapply seg_app.
      * eapply seg_redirect; [done| |done]. by apply seg_alloc.
      * eapply seg_cons; [lia|exact Hnew|done].
    + apply seg_update; [|by apply seg_alloc]. intros Hin'. apply Hp. by right.
    + intros Hin'. eapply seg_in in Hin' as [_ Hin']; [|exact Hi]. lia.
    + lia.
    + exists xs', x', cs', p', e', h'. split; [exact Hrun|].
      assert (Hl2 : length h2 = S (length h)) by (unfold h2; rewrite insert_length, app_length; cbn; lia).
      split; [rewrite Hxs, <- app_assoc; done|]. split; [done|]. split; [done|]. split; [done|].
      split; [lia|]. split.
      { intros a Ha Hne. rewrite Hsame by lia. unfold h2. rewrite list_lookup_insert_ne by done. by rewrite lookup_app_l. }
      split.
      { intros a Ha. apply Hcs in Ha as [Ha|Ha]; [|right; lia]. apply elem_of_app in Ha as [Ha|Ha]; [by left|].
        right. apply elem_of_list_singleton in Ha. lia. }
      split.
      { exists (OList (length h)). rewrite Hsame by lia. unfold h2. apply list_lookup_insert. rewrite app_length. lia. }
      split; [done|]. right. destruct Hp' as [-> |Hp']; lia.
Qed.

Lemma size_loop_proper xs : forall fuel h count fast slow cs ys ds,
  (0 <= count) -> lst h fast xs cs -> xs <> [] -> lst h slow ys ds ->
  (length xs + Z.to_nat count / 2 = length ys)%nat -> Z.even count = true -> (length xs <= fuel)%nat ->
  size_loop fuel h count fast slow = Val (Some (count + Z.of_nat (length xs))).
Proof.
  intros fuel. revert xs. induction fuel as [|f IH]; intros xs h count fast slow cs ys ds H0 Hf Hne Hs Hlen Hev Hfu.
  { destruct xs; [done|]. cbn in Hfu. lia. }
  destruct xs as [|x xs]; [done|]. assert (Hf0 := Hf). unfold lst in Hf. seg_inv Hf. cbn [size_loop].
  rewrite (tail_val _ _ _ _ Ht). cbn [obind].
  destruct xs as [|x2 xs].
  { seg_inv Hf. cbn [is_nil nil]. do 2 f_equal. }
  assert (Hsame : same (OList c) slow && (0 <? count) = false).
  { destruct (Z.ltb_spec 0 count) as [Hc0|Hc0]; [|by rewrite andb_false_r].
    unfold same. destruct (decide (OList c = slow)) as [<-|Hne']; [|by rewrite bool_decide_eq_false_2].
    exfalso. destruct (seg_det h (OList c) _ _ nil _ _ nil eq_refl eq_refl Hf0 Hs) as (E & _ & _).
    apply (f_equal length) in E. apply Z.even_spec in Hev as [k Hk]. subst count.
    replace (Z.to_nat (2 * k)) with (Z.to_nat k * 2)%nat in Hlen by lia. rewrite Nat.div_mul in Hlen by lia. lia. }
  seg_inv Hf. rewrite is_nil_S by done. rewrite Hsame, is_pair_S by done.
  rewrite (tail_val _ _ _ _ Ht0). cbn [obind].
  destruct xs as [|x3 xs].
  { seg_inv Hf. cbn [is_nil nil]. do 2 f_equal. }
  match type of Hf with seg _ ?t3 _ _ _ => assert (exists c3, t3 = OList c3 /\ c3 <> 0%nat) as (c3 & -> & Hc3) end.
  { destruct cs; [by destruct Hf|]. destruct Hf as (-> & Hc3 & _). eauto. }
  rewrite is_nil_S, is_pair_S by done.
  destruct ys as [|y ys]; [cbn in Hlen; lia|]. unfold lst in Hs. seg_inv Hs.
  erewrite tail_val by eassumption. cbn [obind].
  destruct ys as [|y2 ys]; [cbn in Hlen; lia|].
  match type of Hs with seg _ ?t3 _ _ _ => assert (is_pair t3 = true) as -> end.
  { destruct ds; [by destruct Hs|]. destruct Hs as (-> & Hc4 & _). by apply is_pair_S. }
  erewrite (IH (x3 :: xs)); try done.
  - do 2 f_equal. cbn [length]. lia.
  - lia.
  - replace (Z.to_nat (count + 2)) with (Z.to_nat count + 1 * 2)%nat by lia. rewrite Nat.div_add by lia.
    cbn [length] in *. lia.
  - by rewrite Z.even_add, Hev.
  - cbn [length] in *. lia.
Qed.

Lemma list_size_proper fuel h l xs cs :
  lst h l xs cs -> (length xs < fuel)%nat -> list_size fuel h l = Val (Some (Z.of_nat (length xs))).
Proof.
  intros Hl Hf. unfold list_size. destruct xs as [|x xs].
  - unfold lst in Hl. seg_inv Hl. done.
  - assert (is_nil l = false) as ->.
    { destruct cs; [by destruct Hl|]. destruct Hl as (-> & Hc & _). by apply is_nil_S. }
    rewrite (size_loop_proper (x :: xs) fuel h 0 l l cs (x :: xs) cs); try done; cbn -[Nat.div] in *; change (0 / 2)%nat with 0%nat; lia.
Qed.

(** The cell whose tail is changed: the one before the hole. *)
Definition before_hole (start : Z) (cs : list nat) : list nat :=
  match Z.to_nat start with O => [] | S k => option_list (cs !! k) end.

Lemma replace_ok fuel h target xs cs insert ys is start last :
  h !! 0%nat <> None -> lst h target xs cs -> lst h insert ys is ->
  let e := default (start + Z.of_nat (length ys)) last in
  0 <= start <= e -> e <= Z.of_nat (length xs) ->
  disj (before_hole start cs) is -> (length xs + length ys < fuel)%nat ->
  exists o h' ds, replace_subsequence_bang fuel h target insert start last = Val (o, h') /\
    lst h' o (take (Z.to_nat start) xs ++ ys ++ drop (Z.to_nat e) xs) ds /\
    only_tails (before_hole start cs) h h'.
Proof.
  intros H0 Ht Hi e Hs He Hd Hf. unfold replace_subsequence_bang. cbn [pair].
  set (r := length h). set (h1 := h ++ [(OAtom 0, target)]).
  assert (H01 : h1 !! 0%nat <> None) by (eapply unchanged_0; [apply unchanged_pair|done]).
  assert (Hr : seg h1 (OList r) (OAtom 0 :: xs) (r :: cs) nil) by (by apply pair_seg).
  assert (Hi1 : lst h1 insert ys is) by (by apply seg_alloc).
  assert (Hncs : NoDup (r :: cs)) by (by eapply seg_nodup in Hr).
  set (s := Z.to_nat start).
  destruct (advance_ok s h1 (OList r) _ _ _ Hr) as (p & -> & Hp1 & Hp2); [cbn; lia|]. cbn [obind].
  assert (Hlen := seg_length _ _ _ _ _ Ht).
  destruct (drop s (OAtom 0 :: xs)) as [|x rest] eqn:Exs.
  { apply (f_equal length) in Exs. rewrite drop_length in Exs. cbn in Exs. lia. }
  destruct (drop s (r :: cs)) as [|pc rcs] eqn:Ecs; [by destruct Hp2|].
  assert (Hsplit : take s (r :: cs) ++ pc :: rcs = r :: cs) by (rewrite <- Ecs; apply take_drop).
  assert (Hpre : take s (OAtom 0 :: xs) ++ x :: rest = OAtom 0 :: xs) by (rewrite <- Exs; apply take_drop).
  assert (Hrest : rest = drop s xs /\ rcs = drop s cs).
  { split.
    - change (drop s xs) with (drop (S s) (OAtom 0 :: xs)). rewrite <- Nat.add_1_r, <- drop_drop, Exs. done.
    - change (drop s cs) with (drop (S s) (r :: cs)). rewrite <- Nat.add_1_r, <- drop_drop, Ecs. done. }
  destruct Hrest as [-> ->].
  cbn in Hp2. destruct Hp2 as (-> & Hpc0 & t & Hpt & Htl).
  assert ((do last <- match last with
        | Some last => Val last
        | None => (do n <- list_size fuel h1 insert ; match n with Some n => Val (start + n) | None => type_error end)%outcome
        end ; Val last)%outcome = Val e) as Hlast.
  { unfold e. destruct last as [last|]; [done|]. rewrite (list_size_proper fuel h1 insert ys is) by (done || lia). done. }
  destruct (match last with
        | Some last => Val last
        | None => (do n <- list_size fuel h1 insert ; match n with Some n => Val (start + n) | None => type_error end)%outcome
        end) as [e'| | |]; try done. cbn [obind] in Hlast |- *. injection Hlast as ->.
  rewrite (tail_val _ _ _ _ Hpt). cbn [obind].
  destruct (find_hole_ok (Z.to_nat (e - start)) fuel h1 t (drop s xs) (drop s cs) nil start Htl) as (ah & Hfh & Hah).
  { rewrite drop_length. lia. } { lia. }
  replace (start + Z.of_nat (Z.to_nat (e - start))) with e in Hfh by lia. rewrite Hfh. cbn [obind].
  rewrite !drop_drop in Hah. replace (s + Z.to_nat (e - start))%nat with (Z.to_nat e) in Hah by lia.
  (* the pair before the hole *)
  assert (Hbh : pc = r \/ before_hole start cs = [pc]).
  { unfold before_hole. fold s. destruct s as [|k] eqn:Es.
    - left. cbn in Ecs. congruence.
    - right. cbn in Ecs. assert (cs !! k = Some pc) as ->; [|done].
      rewrite <- (Nat.add_0_r k), <- lookup_drop, Ecs. done. }
  assert (Hpi : pc ∉ is).
  { intros Hin. destruct Hbh as [-> |Hbh].
    - eapply seg_in in Hin as [_ Hin]; [|exact Hi]. unfold r in Hin. lia.
    - apply (Hd pc); [rewrite Hbh; by left|done]. }
  assert (Hnd : NoDup (take s (r :: cs) ++ [pc])).
  { rewrite <- Hsplit in Hncs. change (pc :: drop s cs) with ([pc] ++ drop s cs) in Hncs. rewrite app_assoc in Hncs.
    by apply NoDup_app in Hncs as (Hncs & _ & _). }
  assert (Hpseg : seg h1 (OList r) (take s (OAtom 0 :: xs) ++ [x]) (take s (r :: cs) ++ [pc]) t).
  { eapply seg_app; [exact Hp1|]. by eapply seg_cons. }
  assert (Hl2 : length (take s (OAtom 0 :: xs)) = length (take s (r :: cs))) by (rewrite !take_length; cbn; lia).
  destruct (insert_loop_ok ys fuel h1 (OList r) _ _ x pc t insert is H01 Hl2 Hnd Hpseg Hi1 Hpi)
    as (xs' & x' & cs' & p' & e' & h' & Hrun & Hxs & Hl' & Hn' & Hs' & Hle & Hsame & Hcs & (tp & Htp) & Hnil & Hp'); [lia|].
  rewrite Hrun. cbn [obind].
  destruct (seg_snoc_cell _ _ _ _ _ _ _ Hl' Hs') as (Hp0 & Hpc' & _).
  rewrite (set_tail_val _ _ _ _ _ Hpc'). cbn [obind].
  set (h2 := <[p' := (x', ah)]> h').
  assert (Hlh1 : length h1 = S r) by (unfold h1, r; rewrite app_length; cbn; lia).
  assert (Hrl : (r < length h1)%nat) by lia.
  (* what is after the hole *)
  assert (Hdisj : forall a, a ∈ drop (Z.to_nat e) cs -> a ∉ cs' ++ [p']).
  { intros a Ha Hb. assert (Ha0 := Ha). eapply seg_in in Ha as [_ Ha]; [|exact Hah].
    apply Hcs in Hb as [Hb|Hb]; [|lia]. rewrite <- Hsplit in Hncs.
    change (pc :: drop s cs) with ([pc] ++ drop s cs) in Hncs. rewrite app_assoc in Hncs.
    apply NoDup_app in Hncs as (_ & Hncs & _). apply (Hncs a Hb).
    replace (Z.to_nat e) with (s + Z.to_nat (e - start))%nat in Ha0 by lia. rewrite <- drop_drop in Ha0.
    eapply elem_of_submseteq; [exact Ha0|]. apply sublist_submseteq, sublist_drop. }
  assert (Hah2 : seg h2 ah (drop (Z.to_nat e) xs) (drop (Z.to_nat e) cs) nil).
  { apply seg_update.
    - intros Hin. apply (Hdisj _ Hin). apply elem_of_app. right. by left.
    - eapply seg_mono; [|exact Hah]. intros a Ha. assert (a < length h1)%nat by (exact (proj2 (seg_in _ _ _ _ _ _ Hah Ha))). apply Hsame; [done|]. intros ->.
      rewrite <- Hsplit in Hncs. apply NoDup_app in Hncs as (_ & _ & Hncs). apply NoDup_cons in Hncs as [Hncs _].
      apply Hncs. replace (Z.to_nat e) with (s + Z.to_nat (e - start))%nat in Ha by lia. rewrite <- drop_drop in Ha.
      eapply elem_of_submseteq; [exact Ha|]. apply sublist_submseteq, sublist_drop. }
  assert (Hfull : seg h2 (OList r) ((xs' ++ [x']) ++ drop (Z.to_nat e) xs) ((cs' ++ [p']) ++ drop (Z.to_nat e) cs) nil).
  { eapply seg_app; [|exact Hah2]. by eapply seg_redirect. }
  rewrite Hxs in Hfull.
  assert (Hx2 : take s (OAtom 0 :: xs) ++ [x] = OAtom 0 :: take s xs).
  { change (take s (OAtom 0 :: xs) ++ [x]) with (take s (OAtom 0 :: xs) ++ take 1 (x :: drop s xs)).
    rewrite <- Exs, take_take_drop, Nat.add_1_r. done. }
  rewrite Hx2 in Hfull. cbn [app] in Hfull. rewrite <- app_assoc in Hfull.
  destruct ((cs' ++ [p']) ++ drop (Z.to_nat e) cs) as [|c0 ds] eqn:Eds; [by destruct Hfull|].
  cbn in Hfull. destruct Hfull as (E0 & Hc0 & t0 & Ht0 & Hfin). injection E0 as <-.
  rewrite (tail_val _ _ _ _ Ht0). cbn [obind]. exists t0, h2, ds. split; [done|]. split; [exact Hfin|].
  (* frame *)
  assert (Hbl : forall a, a ∈ before_hole start cs -> a = pc).
  { intros a Ha. destruct Hbh as [-> |Hbh]; [|rewrite Hbh in Ha; by apply elem_of_list_singleton in Ha].
    unfold before_hole in Ha. fold s in Ha. destruct s as [|k] eqn:Es; [by apply elem_of_nil in Ha|].
    cbn in Ecs. assert (cs !! k = Some r) as E.
    { rewrite <- (Nat.add_0_r k), <- lookup_drop, Ecs. done. }
    rewrite E in Ha. by apply elem_of_list_singleton in Ha. }
  assert (Hpc_old : (pc < length h)%nat -> pc ∈ before_hole start cs).
  { intros Hlt. destruct Hbh as [-> | ->]; [unfold r in Hlt; lia|by left]. }
  split; [unfold h2; rewrite insert_length; lia|]. split.
  - intros a Ha Hna. assert (a <> pc) by (intros ->; by apply Hna, Hpc_old).
    unfold h2. rewrite list_lookup_insert_ne by (destruct Hp' as [-> |Hp']; [done|fold r in Ha; lia]).
    rewrite Hsame by (fold r in Ha; lia || done). unfold h1. by rewrite lookup_app_l.
  - intros a y u Ha. assert (Hal : (a < length h)%nat) by (by apply lookup_lt_Some in Ha).
    assert (Ha1 : h1 !! a = Some (y, u)) by (unfold h1; by rewrite lookup_app_l).
    destruct (decide (a = pc)) as [-> |Hne].
    + assert (y = x) as -> by congruence. unfold h2. destruct (decide (p' = pc)) as [-> |Hne'].
      * rewrite list_lookup_insert by (by apply lookup_lt_Some in Htp). assert (x' = x) as -> by congruence. eauto.
      * rewrite list_lookup_insert_ne by done. eauto.
    + exists u. unfold h2. rewrite list_lookup_insert_ne by (destruct Hp' as [-> |Hp']; [done|fold r in Hal; lia]).
      rewrite Hsame by (done || (fold r in Hal; lia)). done.
Qed.
