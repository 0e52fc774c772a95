(** Proofs about the list operations. *)
From Verif Require Import Base ListModel ListSpec.
From Coq Require Import ZifyBool ZifyNat.
Open Scope Z_scope.

(** ** Segments *)

Lemma seg_cons h c x t xs cs e :
  c <> 0%nat -> h !! c = Some (x, t) -> seg h t xs cs e -> seg h (OList c) (x :: xs) (c :: cs) e.
Proof. intros. cbn. eauto. Qed.

Lemma seg_length h o xs cs e : seg h o xs cs e -> length xs = length cs.
Proof.
  revert o cs. induction xs as [|x xs IH]; intros o [|c cs]; cbn; try done.
  intros (_ & _ & t & _ & H). f_equal. eauto.
Qed.

Lemma seg_app h o xs1 cs1 m xs2 cs2 e :
  seg h o xs1 cs1 m -> seg h m xs2 cs2 e -> seg h o (xs1 ++ xs2) (cs1 ++ cs2) e.
Proof.
  revert o cs1. induction xs1 as [|x xs IH]; intros o [|c cs]; cbn; try done.
  - by intros ->.
  - intros (-> & Hc & t & Ht & H) H2. split; [done|]. split; [done|]. exists t. split; [done|]. by apply IH.
Qed.

Lemma seg_split h o xs1 cs1 xs2 cs2 e :
  length xs1 = length cs1 -> seg h o (xs1 ++ xs2) (cs1 ++ cs2) e ->
  exists m, seg h o xs1 cs1 m /\ seg h m xs2 cs2 e.
Proof.
  revert o cs1. induction xs1 as [|x xs IH]; intros o [|c cs] Hl; cbn in Hl |- *; try done.
  - intros H. by exists o.
  - intros (-> & Hc & t & Ht & H). apply IH in H as (m & H1 & H2); [|lia].
    exists m. split; [|done]. eauto.
Qed.

Lemma seg_nonpair h e xs cs e' : is_pair e = false -> seg h e xs cs e' -> xs = [] /\ cs = [] /\ e' = e.
Proof.
  destruct xs as [|x xs], cs as [|c cs]; cbn; try done.
  intros Hp (-> & Hc & _). by destruct c.
Qed.

Lemma seg_det h o xs cs e xs' cs' e' :
  is_pair e = false -> is_pair e' = false -> seg h o xs cs e -> seg h o xs' cs' e' ->
  xs = xs' /\ cs = cs' /\ e = e'.
Proof.
  intros He He'. revert o cs xs' cs'. induction xs as [|x xs IH]; intros o cs xs' cs' H H'.
  - destruct cs; [|done]. cbn in H. subst o. apply seg_nonpair in H' as (-> & -> & ->); done.
  - destruct cs as [|c cs]; [done|]. destruct xs' as [|x' xs'], cs' as [|c' cs']; try done.
    + cbn in H'. subst. destruct H as (-> & Hc & _). by destruct c.
    + cbn in H, H'. destruct H as (-> & Hc & t & Ht & H), H' as ([= <-] & _ & t' & Ht' & H').
      rewrite Ht in Ht'. injection Ht' as <- <-. destruct (IH _ _ _ _ H H') as (-> & -> & ->). done.
Qed.

Lemma seg_nodup h o xs cs e : is_pair e = false -> seg h o xs cs e -> NoDup cs.
Proof.
  intros He. revert o cs. induction xs as [|x xs IH]; intros o [|c cs] H; try done; [constructor|].
  pose proof (seg_length _ _ _ _ _ H) as Hl.
  assert (H0 := H). cbn in H0. destruct H0 as (-> & Hc & t & Ht & H1). constructor; [|by eapply IH].
  intros Hin. apply elem_of_list_split in Hin as (c1 & c2 & ->).
  assert (Hlx : length xs = length (c1 ++ c :: c2)) by (cbn in Hl; lia). rewrite app_length in Hlx. cbn in Hlx.
  rewrite <- (take_drop (length c1) xs) in H1. apply seg_split in H1 as (m & Ha & Hb); [|rewrite take_length; lia].
  assert (m = OList c) as ->.
  { destruct (drop (length c1) xs) eqn:E; [|by destruct Hb]. by cbn in Hb. }
  destruct (seg_det h (OList c) _ _ e _ _ e He He H Hb) as (_ & E & _).
  apply (f_equal length) in E. cbn in E. rewrite app_length in E. cbn in E. lia.
Qed.

Lemma seg_in h o xs cs e a : seg h o xs cs e -> a ∈ cs -> a <> 0%nat /\ (a < length h)%nat.
Proof.
  revert o cs. induction xs as [|x xs IH]; intros o [|c cs]; cbn; try done.
  - intros _ H. by apply elem_of_nil in H.
  - intros (-> & Hc & t & Ht & H) Hin. apply elem_of_cons in Hin as [-> |Hin]; [|by eapply IH].
    split; [done|]. by apply lookup_lt_Some in Ht.
Qed.

Lemma seg_mono h h' o xs cs e :
  (forall a, a ∈ cs -> h' !! a = h !! a) -> seg h o xs cs e -> seg h' o xs cs e.
Proof.
  revert o cs. induction xs as [|x xs IH]; intros o [|c cs]; cbn; try done.
  intros Hs (-> & Hc & t & Ht & H). split; [done|]. split; [done|]. exists t.
  split; [rewrite Hs; [done|by left]|]. apply IH; [|done]. intros a Ha. apply Hs. by right.
Qed.

Lemma seg_alloc h new o xs cs e : seg h o xs cs e -> seg (h ++ new) o xs cs e.
Proof.
  intros H. eapply seg_mono; [|exact H]. intros a Ha. apply lookup_app_l. eapply seg_in; eauto.
Qed.

Lemma seg_update h b c o xs cs e : b ∉ cs -> seg h o xs cs e -> seg (<[b := c]> h) o xs cs e.
Proof.
  intros Hb H. eapply seg_mono; [|exact H]. intros a Ha. apply list_lookup_insert_ne. intros ->. done.
Qed.

(** The tail of the last pair redirected. *)
Lemma seg_redirect h o xs cs x c e e' :
  NoDup (cs ++ [c]) -> seg h o (xs ++ [x]) (cs ++ [c]) e -> length xs = length cs ->
  seg (<[c := (x, e')]> h) o (xs ++ [x]) (cs ++ [c]) e'.
Proof.
  intros Hn H Hl. apply seg_split in H as (m & H1 & H2); [|done]. cbn in H2.
  destruct H2 as (-> & Hc & t & Ht & ->). apply NoDup_app in Hn as (_ & Hn & _).
  eapply seg_app.
  - apply seg_update; [|exact H1]. intros Hin. apply (Hn _ Hin). by left.
  - eapply seg_cons; [done| |done]. apply list_lookup_insert. by apply lookup_lt_Some in Ht.
Qed.

(** ** Reads and writes *)

Lemma head_val h c x t : h !! c = Some (x, t) -> head h (OList c) = Val x.
Proof. intros H. unfold head. by rewrite (vread_val _ _ _ H). Qed.
Lemma tail_val h c x t : h !! c = Some (x, t) -> tail h (OList c) = Val t.
Proof. intros H. unfold tail. by rewrite (vread_val _ _ _ H). Qed.
Lemma set_tail_val h c x t v : h !! c = Some (x, t) -> set_tail h (OList c) v = Val (<[c := (x, v)]> h).
Proof.
  intros H. unfold set_tail. rewrite (vread_val _ _ _ H). cbn. apply vwrite_val. by apply lookup_lt_Some in H.
Qed.
Lemma set_head_val h c x t v : h !! c = Some (x, t) -> set_head h (OList c) v = Val (<[c := (v, t)]> h).
Proof.
  intros H. unfold set_head. rewrite (vread_val _ _ _ H). cbn. apply vwrite_val. by apply lookup_lt_Some in H.
Qed.

Lemma is_pair_S c : c <> 0%nat -> is_pair (OList c) = true.
Proof. by destruct c. Qed.
Lemma is_nil_S c : c <> 0%nat -> is_nil (OList c) = false.
Proof. by destruct c. Qed.

Lemma unchanged_refl h : unchanged h h.
Proof. exists []. by rewrite app_nil_r. Qed.
Lemma unchanged_pair h x : unchanged h (h ++ [x]).
Proof. by exists [x]. Qed.
Lemma unchanged_trans h1 h2 h3 : unchanged h1 h2 -> unchanged h2 h3 -> unchanged h1 h3.
Proof. intros [a ->] [b ->]. exists (a ++ b). by rewrite app_assoc. Qed.
Lemma unchanged_seg h h' o xs cs e : unchanged h h' -> seg h o xs cs e -> seg h' o xs cs e.
Proof. intros [n ->]. apply seg_alloc. Qed.
Lemma unchanged_length h h' : unchanged h h' -> (length h <= length h')%nat.
Proof. intros [n ->]. rewrite app_length. lia. Qed.

(** Only the pairs [cs] have changed, and only in their tails; new pairs may
    have been made. *)
Lemma only_tails_refl cs h : only_tails cs h h.
Proof. split; [done|]. split; [done|]. eauto. Qed.
Lemma only_tails_trans cs h1 h2 h3 : only_tails cs h1 h2 -> only_tails cs h2 h3 -> only_tails cs h1 h3.
Proof.
  intros (L1 & A1 & B1) (L2 & A2 & B2). split; [lia|]. split.
  - intros a Ha Hc. rewrite A2 by (done || lia). by apply A1.
  - intros a x t H. apply B1 in H as (t' & H). by apply B2 in H.
Qed.
Lemma only_tails_sub cs cs' h h' : cs ⊆ cs' -> only_tails cs h h' -> only_tails cs' h h'.
Proof. intros Hs (L & A & B). split; [done|]. split; [|done]. intros a Ha Hc. apply A; [done|]. intros Hin. by apply Hc, Hs. Qed.
Lemma only_tails_set cs c x t v h : c ∈ cs -> h !! c = Some (x, t) -> only_tails cs h (<[c := (x, v)]> h).
Proof.
  intros Hc Ht. split; [by rewrite insert_length|]. split.
  - intros a Ha Hn. apply list_lookup_insert_ne. by intros ->.
  - intros a y u Hy. destruct (decide (a = c)) as [-> |Hne].
    + exists v. rewrite list_lookup_insert by (by apply lookup_lt_Some in Ht). congruence.
    + exists u. by rewrite list_lookup_insert_ne by done.
Qed.
Lemma only_tails_seg cs ds h h' o xs e : only_tails cs h h' -> disj cs ds -> seg h o xs ds e -> seg h' o xs ds e.
Proof.
  intros (_ & A & _) Hd H. eapply seg_mono; [|exact H]. intros a Ha. apply A.
  - eapply seg_in; eauto.
  - intros Hin. by apply (Hd a).
Qed.

Ltac seg_inv H :=
  match type of H with
  | seg _ _ (_ :: _) ?cs _ =>
    destruct cs as [|?c cs]; [by destruct H|]; cbn in H;
    let Hc := fresh "Hc" in let t := fresh "t" in let Ht := fresh "Ht" in
    destruct H as (-> & Hc & t & Ht & H)
  | seg _ _ [] ?cs _ => destruct cs; [cbn in H; subst|by destruct H]
  end.

(** ** Moving pairs: [relink], [reverse!] *)

Lemma relink_ok xs : forall fuel h acc cs result ys ds,
  lst h acc xs cs -> lst h result ys ds -> disj cs ds -> (length xs < fuel)%nat ->
  exists o h', relink fuel h acc result = Val (o, h') /\
    lst h' o (rev xs ++ ys) (rev cs ++ ds) /\ only_tails cs h h' /\ length h' = length h.
Proof.
  induction xs as [|x xs IH]; intros fuel h acc cs result ys ds Ha Hr Hd Hf;
    destruct fuel as [|f]; [cbn in Hf; lia| |cbn in Hf; lia|].
  - unfold lst in Ha. seg_inv Ha. cbn. exists result, h. repeat split; try done. eauto.
  - pose proof (seg_nodup _ _ _ _ _ (eq_refl : is_pair nil = false) Ha) as Hn.
    unfold lst in Ha. seg_inv Ha. cbn [relink]. rewrite is_nil_S by done.
    rewrite (tail_val _ _ _ _ Ht). cbn [obind]. rewrite (set_tail_val _ _ _ _ _ Ht). cbn [obind].
    apply NoDup_cons in Hn as [Hni Hn].
    destruct (IH f (<[c := (x, result)]> h) t cs (OList c) (x :: ys) (c :: ds)) as (o & h' & Hrl & Hl & Ho & Hln).
    + by apply seg_update.
    + eapply seg_cons; [done|apply list_lookup_insert; by apply lookup_lt_Some in Ht|].
      apply seg_update; [|done]. intros Hin. apply (Hd c); [by left|done].
    + intros a Ha1 Ha2. apply elem_of_cons in Ha2 as [-> |Ha2]; [done|]. apply (Hd a); [by right|done].
    + cbn in Hf. lia.
    + exists o, h'. split; [exact Hrl|]. cbn [rev]. rewrite <- !app_assoc. split; [exact Hl|].
      split; [|by rewrite Hln, insert_length].
      eapply only_tails_trans; [apply (only_tails_set (c :: cs) c x t); [by left|done]|].
      eapply only_tails_sub; [|exact Ho]. intros a Ha'. by right.
Qed.

Lemma reverse_bang_loop_ok xs : forall fuel h l cs e result ys ds,
  is_pair e = false -> seg h l xs cs e -> lst h result ys ds -> disj cs ds -> (length xs < fuel)%nat ->
  exists o h', reverse_bang_loop fuel h l result = Val (o, h') /\
    lst h' o (rev xs ++ ys) (rev cs ++ ds) /\ only_tails cs h h' /\ length h' = length h.
Proof.
  induction xs as [|x xs IH]; intros fuel h l cs e result ys ds He Ha Hr Hd Hf;
    destruct fuel as [|f]; [cbn in Hf; lia| |cbn in Hf; lia|].
  - seg_inv Ha. cbn. rewrite He. exists result, h. repeat split; try done. eauto.
  - pose proof (seg_nodup _ _ _ _ _ He Ha) as Hn. seg_inv Ha.
    cbn [reverse_bang_loop]. rewrite is_pair_S by done.
    rewrite (tail_val _ _ _ _ Ht). cbn [obind]. rewrite (set_tail_val _ _ _ _ _ Ht). cbn [obind].
    apply NoDup_cons in Hn as [Hni Hn].
    destruct (IH f (<[c := (x, result)]> h) t cs e (OList c) (x :: ys) (c :: ds)) as (o & h' & Hrl & Hl & Ho & Hln); [done|..].
    + by apply seg_update.
    + eapply seg_cons; [done|apply list_lookup_insert; by apply lookup_lt_Some in Ht|].
      apply seg_update; [|done]. intros Hin. apply (Hd c); [by left|done].
    + intros a Ha1 Ha2. apply elem_of_cons in Ha2 as [-> |Ha2]; [done|]. apply (Hd a); [by right|done].
    + cbn in Hf. lia.
    + exists o, h'. split; [exact Hrl|]. cbn [rev]. rewrite <- !app_assoc. split; [exact Hl|].
      split; [|by rewrite Hln, insert_length].
      eapply only_tails_trans; [apply (only_tails_set (c :: cs) c x t); [by left|done]|].
      eapply only_tails_sub; [|exact Ho]. intros a Ha'. by right.
Qed.

(** ** Fresh pairs *)

(** [cs] are pairs made after [h]. *)
Definition fresh (h : heap) (cs : list nat) : Prop := Forall (fun c => (length h <= c)%nat) cs.

Lemma fresh_pair h h' x t : unchanged h h' -> fresh h [length h'] /\ unchanged h (h' ++ [(x, t)]).
Proof.
  intros H. split; [|eapply unchanged_trans; [done|apply unchanged_pair]].
  constructor; [|constructor]. by apply unchanged_length in H.
Qed.

Lemma fresh_disjoint h o xs cs e ds : seg h o xs cs e -> fresh h ds -> disj ds cs.
Proof.
  intros Hs Hf a H1 H2. eapply seg_in in H2 as [_ H2]; [|done].
  unfold fresh in Hf. rewrite Forall_forall in Hf. specialize (Hf a H1). lia.
Qed.

(** A change confined to fresh pairs leaves the old heap unchanged. *)
Lemma only_tails_fresh h h' h'' cs :
  unchanged h h' -> only_tails cs h' h'' -> fresh h cs -> unchanged h h''.
Proof.
  intros [n ->] (L & A & _) Hf. exists (drop (length h) h'').
  rewrite app_length in L.
  apply list_eq. intros i. destruct (decide (i < length h)%nat) as [Hi|Hi].
  - rewrite lookup_app_l by done. rewrite A.
    + by rewrite lookup_app_l.
    + rewrite app_length. lia.
    + intros Hin. unfold fresh in Hf. rewrite Forall_forall in Hf. specialize (Hf i Hin). lia.
  - rewrite lookup_app_r by lia. rewrite lookup_drop. f_equal. lia.
Qed.

Lemma pair_seg h x t xs cs e :
  h !! 0%nat <> None -> seg h t xs cs e ->
  seg (h ++ [(x, t)]) (OList (length h)) (x :: xs) (length h :: cs) e.
Proof.
  intros H0 Hs. eapply seg_cons.
  - intros E. destruct h; [done|]. cbn in E. lia.
  - by rewrite lookup_app_r, Nat.sub_diag by lia.
  - by apply seg_alloc.
Qed.

Lemma unchanged_0 h h' : unchanged h h' -> h !! 0%nat <> None -> h' !! 0%nat <> None.
Proof. intros [n ->] H. destruct h; [done|]. done. Qed.

Lemma fresh_cons h h' cs : unchanged h h' -> fresh h cs -> fresh h (length h' :: cs).
Proof. intros H Hf. constructor; [|done]. by apply unchanged_length in H. Qed.

Lemma push_all_ok f xs : forall fuel h0 h l cs result ys ds,
  h !! 0%nat <> None -> lst h l xs cs -> lst h result ys ds -> unchanged h0 h -> fresh h0 ds ->
  (length xs < fuel)%nat ->
  exists o h' ds', push_all fuel h f l result = Val (o, h') /\
    lst h' o (rev (map f xs) ++ ys) ds' /\ unchanged h h' /\ fresh h0 ds'.
Proof.
  induction xs as [|x xs IH]; intros fuel h0 h l cs result ys ds H0 Hl Hr Hu Hf Hfu;
    destruct fuel as [|fl]; [cbn in Hfu; lia| |cbn in Hfu; lia|].
  - unfold lst in Hl. seg_inv Hl. cbn. exists result, h, ds. repeat split; try done.
  - unfold lst in Hl. seg_inv Hl. cbn [push_all]. rewrite is_nil_S by done.
    rewrite (head_val _ _ _ _ Ht), (tail_val _ _ _ _ Ht). cbn [obind].
    assert (check_list t = Val t) as ->.
    { destruct xs, cs; cbn in Hl; try done; [by subst|]. by destruct Hl as (-> & _). }
    cbn [obind pair].
    destruct (IH fl h0 (h ++ [(f x, result)]) t cs (OList (length h)) (f x :: ys) (length h :: ds))
      as (o & h' & ds' & Hp & Hs & Hu' & Hf').
    + eapply unchanged_0; [apply unchanged_pair|done].
    + by apply seg_alloc.
    + by apply pair_seg.
    + eapply unchanged_trans; [done|apply unchanged_pair].
    + by apply fresh_cons.
    + cbn in Hfu. lia.
    + exists o, h', ds'. split; [exact Hp|]. cbn [map rev]. rewrite <- app_assoc. split; [exact Hs|].
      split; [|done]. eapply unchanged_trans; [apply unchanged_pair|done].
Qed.

(** [reverse!] of fresh pairs. *)
Lemma reverse_fresh fuel h0 h l xs cs :
  unchanged h0 h -> lst h l xs cs -> fresh h0 cs -> (length xs < fuel)%nat ->
  exists o h' ds, reverse_bang fuel h l = Val (o, h') /\ lst h' o (rev xs) ds /\
    unchanged h0 h' /\ fresh h0 ds.
Proof.
  intros Hu Hl Hf Hfu. unfold reverse_bang.
  destruct (reverse_bang_loop_ok xs fuel h l cs nil nil [] []) as (o & h' & Hr & Hs & Ho & _); try done.
  { intros a _ Ha. by apply elem_of_nil in Ha. }
  exists o, h', (rev cs ++ []). rewrite Hr. rewrite app_nil_r in Hs. split; [done|]. split; [done|].
  split; [by eapply only_tails_fresh|]. rewrite app_nil_r. unfold fresh in *.
  rewrite Forall_forall in *. intros a Ha. apply Hf. by apply elem_of_list_In, in_rev, elem_of_list_In.
Qed.

Lemma map_list_ok f fuel h l xs cs :
  h !! 0%nat <> None -> lst h l xs cs -> (length xs < fuel)%nat ->
  exists o h' ds, map_list fuel h f l = Val (o, h') /\ lst h' o (map f xs) ds /\
    unchanged h h' /\ fresh h ds.
Proof.
  intros H0 Hl Hfu. unfold map_list.
  destruct (push_all_ok f xs fuel h h l cs nil [] []) as (o & h' & ds & -> & Hs & Hu & Hf); try done.
  { constructor. }
  rewrite app_nil_r in Hs. cbn [obind].
  destruct (reverse_fresh fuel h h' o _ ds Hu Hs Hf) as (o' & h'' & ds' & Hr & Hs' & Hu' & Hf').
  { by rewrite rev_length, map_length. }
  rewrite rev_involutive in Hs'. exists o', h'', ds'. eauto.
Qed.

Lemma reverse_loop_ok xs : forall fuel h0 h l cs e result ys ds,
  h !! 0%nat <> None -> is_pair e = false -> seg h l xs cs e -> lst h result ys ds ->
  unchanged h0 h -> fresh h0 ds -> (length xs < fuel)%nat ->
  exists o h' ds', reverse_loop fuel h l result = Val (o, h') /\
    lst h' o (rev xs ++ ys) ds' /\ unchanged h h' /\ fresh h0 ds'.
Proof.
  induction xs as [|x xs IH]; intros fuel h0 h l cs e result ys ds H0 He Hl Hr Hu Hf Hfu;
    destruct fuel as [|fl]; [cbn in Hfu; lia| |cbn in Hfu; lia|].
  - seg_inv Hl. cbn. rewrite He. exists result, h, ds. repeat split; try done.
  - seg_inv Hl. cbn [reverse_loop]. rewrite is_pair_S by done.
    rewrite (head_val _ _ _ _ Ht), (tail_val _ _ _ _ Ht). cbn [obind pair].
    destruct (IH fl h0 (h ++ [(x, result)]) t cs e (OList (length h)) (x :: ys) (length h :: ds))
      as (o & h' & ds' & Hp & Hs & Hu' & Hf').
    + eapply unchanged_0; [apply unchanged_pair|done].
    + done.
    + by apply seg_alloc.
    + by apply pair_seg.
    + eapply unchanged_trans; [done|apply unchanged_pair].
    + by apply fresh_cons.
    + cbn in Hfu. lia.
    + exists o, h', ds'. split; [exact Hp|]. cbn [rev]. rewrite <- app_assoc. split; [exact Hs|].
      split; [|done]. eapply unchanged_trans; [apply unchanged_pair|done].
Qed.

Lemma list_loop_ok xs : forall h0 h result ys ds,
  h !! 0%nat <> None -> lst h result ys ds -> unchanged h0 h -> fresh h0 ds ->
  exists o h' ds', list_loop h xs result = (o, h') /\ lst h' o (rev xs ++ ys) ds' /\
    unchanged h0 h' /\ fresh h0 ds'.
Proof.
  induction xs as [|x xs IH]; intros h0 h result ys ds H0 Hr Hu Hf.
  - exists result, h, ds. done.
  - cbn [list_loop pair].
    destruct (IH h0 (h ++ [(x, result)]) (OList (length h)) (x :: ys) (length h :: ds))
      as (o & h' & ds' & Hp & Hs & Hu' & Hf').
    + eapply unchanged_0; [apply unchanged_pair|done].
    + by apply pair_seg.
    + eapply unchanged_trans; [done|apply unchanged_pair].
    + by apply fresh_cons.
    + exists o, h', ds'. split; [done|]. cbn [rev]. rewrite <- app_assoc. done.
Qed.

Lemma make_list_ok h xs :
  h !! 0%nat <> None ->
  exists o h' ds, make_list h xs = (o, h') /\ lst h' o xs ds /\ unchanged h h' /\ fresh h ds.
Proof.
  intros H0. destruct (list_loop_ok (rev xs) h h nil [] []) as (o & h' & ds & Hl & Hs & Hu & Hf); try done.
  { constructor. }
  rewrite rev_involutive, app_nil_r in Hs. eexists _, _, _. eauto.
Qed.

Lemma fill_loop_ok n x : forall h0 h result ys ds,
  h !! 0%nat <> None -> lst h result ys ds -> unchanged h0 h -> fresh h0 ds ->
  exists o h' ds', fill_loop n h x result = (o, h') /\ lst h' o (replicate n x ++ ys) ds' /\
    unchanged h0 h' /\ fresh h0 ds'.
Proof.
  induction n as [|n IH]; intros h0 h result ys ds H0 Hr Hu Hf.
  - exists result, h, ds. done.
  - cbn [fill_loop pair].
    destruct (IH h0 (h ++ [(x, result)]) (OList (length h)) (x :: ys) (length h :: ds))
      as (o & h' & ds' & Hp & Hs & Hu' & Hf').
    + eapply unchanged_0; [apply unchanged_pair|done].
    + by apply pair_seg.
    + eapply unchanged_trans; [done|apply unchanged_pair].
    + by apply fresh_cons.
    + exists o, h', ds'. split; [done|]. split; [|done].
      rewrite replicate_S_end, <- app_assoc. exact Hs.
Qed.

(** ** Traversals *)

Lemma check_list_seg h t xs cs : seg h t xs cs nil -> check_list t = Val t.
Proof. destruct xs, cs; cbn; try done; [by intros ->|by intros (-> & _)]. Qed.

Lemma reduce_ok {R} (g : R -> obj -> R) xs : forall fuel h r l cs,
  lst h l xs cs -> (length xs < fuel)%nat -> reduce fuel h g r l = Val (fold_left g xs r).
Proof.
  induction xs as [|x xs IH]; intros [|f] h r l cs Hl Hf; cbn in Hf; try lia; unfold lst in Hl; seg_inv Hl; [done|].
  cbn [reduce]. rewrite is_nil_S by done. rewrite (head_val _ _ _ _ Ht), (tail_val _ _ _ _ Ht). cbn [obind].
  rewrite (check_list_seg _ _ _ _ Hl). cbn [obind fold_left]. eapply IH; [done|lia].
Qed.

Lemma element_loop_ok xs : forall fuel h l cs e key d i,
  is_pair e = false -> seg h l xs cs e -> (length xs < fuel)%nat -> i <= key ->
  element_loop fuel h key d l i =
    match xs !! Z.to_nat (key - i) with
    | Some x => Val x
    | None => match d with None => range_error | Some d => Val d end
    end.
Proof.
  induction xs as [|x xs IH]; intros [|f] h l cs e key d i He Hl Hf Hi; cbn in Hf; try lia; seg_inv Hl.
  - cbn. by rewrite He.
  - cbn [element_loop]. rewrite is_pair_S by done. destruct (Z.eqb_spec i key) as [-> |Hne].
    + rewrite Z.sub_diag. cbn. apply (head_val _ _ _ _ Ht).
    + rewrite (tail_val _ _ _ _ Ht). cbn [obind]. erewrite IH; [|done|done|lia|lia].
      replace (Z.to_nat (key - i)) with (S (Z.to_nat (key - (i + 1)))) by lia. done.
Qed.

Lemma element_setter_loop_ok xs : forall fuel h l cs e key v i,
  is_pair e = false -> seg h l xs cs e -> (length xs < fuel)%nat -> i <= key ->
  element_setter_loop fuel h v key l i =
    match cs !! Z.to_nat (key - i) with
    | Some c => set_head h (OList c) v
    | None => range_error
    end.
Proof.
  induction xs as [|x xs IH]; intros [|f] h l cs e key v i He Hl Hf Hi; cbn in Hf; try lia; seg_inv Hl.
  - cbn. by rewrite He.
  - cbn [element_setter_loop]. rewrite is_pair_S by done. destruct (Z.eqb_spec i key) as [-> |Hne].
    + by rewrite Z.sub_diag.
    + rewrite (tail_val _ _ _ _ Ht). cbn [obind]. erewrite IH; [|done|done|lia|lia].
      replace (Z.to_nat (key - i)) with (S (Z.to_nat (key - (i + 1)))) by lia. done.
Qed.

Lemma element_setter_negative xs : forall fuel h l cs e key v i,
  is_pair e = false -> seg h l xs cs e -> (length xs < fuel)%nat -> key < i ->
  element_setter_loop fuel h v key l i = range_error.
Proof.
  induction xs as [|x xs IH]; intros [|f] h l cs e key v i He Hl Hf Hi; cbn in Hf; try lia; seg_inv Hl.
  - cbn. by rewrite He.
  - cbn [element_setter_loop]. rewrite is_pair_S by done. destruct (Z.eqb_spec i key); [lia|].
    rewrite (tail_val _ _ _ _ Ht). cbn [obind]. eapply IH; [done|done|lia|lia].
Qed.

(** The pair at a position. *)
Lemma seg_lookup h l xs cs e i x : seg h l xs cs e -> xs !! i = Some x ->
  exists c t, cs !! i = Some c /\ h !! c = Some (x, t).
Proof.
  revert l cs i. induction xs as [|y xs IH]; intros l cs i Hl Hi; [done|]. seg_inv Hl.
  destruct i as [|i]; [|apply (IH t cs i Hl Hi)]. cbn in Hi. injection Hi as ->. eauto.
Qed.

(** The head of a pair replaced. *)
Lemma seg_set_head h l xs cs e i c x t v :
  NoDup cs -> seg h l xs cs e -> cs !! i = Some c -> h !! c = Some (x, t) ->
  seg (<[c := (v, t)]> h) l (<[i := v]> xs) cs e.
Proof.
  revert l cs i. induction xs as [|y xs IH]; intros l cs i Hn Hl Hi Hc; [seg_inv Hl; by rewrite lookup_nil in Hi|].
  seg_inv Hl. apply NoDup_cons in Hn as [Hni Hn]. destruct i as [|i]; cbn in Hi |- *.
  - injection Hi as ->. assert (t = t0) as -> by congruence.
    split; [done|]. split; [done|]. exists t0.
    split; [apply list_lookup_insert; by apply lookup_lt_Some in Hc|]. by apply seg_update.
  - assert (c <> c0) by (intros ->; apply Hni; by eapply elem_of_list_lookup_2).
    split; [done|]. split; [done|]. exists t0.
    split; [by rewrite list_lookup_insert_ne|]. by apply IH.
Qed.

Lemma xmember_ok test v xs : forall fuel h l cs e,
  is_pair e = false -> seg h l xs cs e -> (length xs < fuel)%nat ->
  xmember fuel h l v test = Val (existsb (test v) xs).
Proof.
  induction xs as [|x xs IH]; intros [|f] h l cs e He Hl Hf; cbn in Hf; try lia; seg_inv Hl.
  - cbn. by rewrite He.
  - cbn [xmember existsb]. rewrite is_pair_S by done. rewrite (head_val _ _ _ _ Ht). cbn [obind].
    destruct (test v x); [done|]. rewrite (tail_val _ _ _ _ Ht). cbn [obind orb]. eapply IH; [done|done|lia].
Qed.

Lemma member_eql_ok v xs : forall fuel h l cs,
  lst h l xs cs -> (length xs < fuel)%nat -> member_eql fuel h v l = Val (existsb (same v) xs).
Proof.
  induction xs as [|x xs IH]; intros [|f] h l cs Hl Hf; cbn in Hf; try lia; unfold lst in Hl; seg_inv Hl; [done|].
  cbn [member_eql existsb]. rewrite is_nil_S by done. rewrite (head_val _ _ _ _ Ht). cbn [obind].
  destruct (same v x); [done|]. rewrite (tail_val _ _ _ _ Ht). cbn [obind orb].
  rewrite (check_list_seg _ _ _ _ Hl). cbn [obind]. eapply IH; [done|lia].
Qed.

Lemma there_loop_ok test v xs : forall fuel h x l cs,
  lst h l xs cs -> (length xs < fuel)%nat ->
  there_loop fuel h test v x l = Val (existsb (test v) (x :: xs)).
Proof.
  induction xs as [|y xs IH]; intros [|f] h x l cs Hl Hf; cbn in Hf; try lia; unfold lst in Hl; seg_inv Hl.
  - cbn. by destruct (test v x).
  - cbn [there_loop]. cbn [existsb]. destruct (test v x); [done|]. rewrite is_nil_S by done.
    rewrite (head_val _ _ _ _ Ht), (tail_val _ _ _ _ Ht). cbn [obind].
    rewrite (check_list_seg _ _ _ _ Hl). cbn [obind]. rewrite (IH f h y t cs) by (done || lia). done.
Qed.

Lemma member_ok test v fuel h l xs cs :
  lst h l xs cs -> (length xs < fuel)%nat ->
  member fuel h v l test = Val (existsb (apply_test test v) xs).
Proof.
  intros Hl Hf. destruct test as [test|]; cbn [member apply_test default]; [|by eapply member_eql_ok].
  unfold member_test. destruct xs as [|x xs]; unfold lst in Hl; seg_inv Hl; [done|].
  rewrite is_nil_S by done. rewrite (head_val _ _ _ _ Ht), (tail_val _ _ _ _ Ht). cbn [obind].
  rewrite (check_list_seg _ _ _ _ Hl). cbn [obind]. eapply there_loop_ok; [done|]. cbn in Hf. lia.
Qed.

Lemma last_loop_ok xs : forall fuel h l cs e,
  is_pair e = false -> seg h l xs cs e -> xs <> [] -> (length xs <= fuel)%nat ->
  exists x, list.last xs = Some x /\ last_loop fuel h l = Val x.
Proof.
  induction xs as [|x xs IH]; intros [|f] h l cs e He Hl Hn Hf; cbn in Hf; try lia; try done.
  seg_inv Hl. cbn [last_loop]. rewrite (tail_val _ _ _ _ Ht). cbn [obind].
  destruct xs as [|y xs].
  - seg_inv Hl. rewrite He. exists x. split; [done|]. apply (head_val _ _ _ _ Ht).
  - assert (is_pair t = true) as ->.
    { destruct cs; [by destruct Hl|]. cbn in Hl. destruct Hl as (-> & Hc' & _). by apply is_pair_S. }
    destruct (IH f h t cs e He Hl) as (z & Hz & Hv); [done|cbn in *; lia|]. exists z. split; [|done].
    cbn in Hz |- *. done.
Qed.

Lemma last_setter_loop_ok v xs : forall fuel h l cs,
  lst h l xs cs -> xs <> [] -> (length xs <= fuel)%nat ->
  exists c, list.last cs = Some c /\ last_setter_loop fuel h v l = set_head h (OList c) v.
Proof.
  induction xs as [|x xs IH]; intros [|f] h l cs Hl Hn Hf; cbn in Hf; try lia; try done.
  unfold lst in Hl. seg_inv Hl. cbn [last_setter_loop]. rewrite (tail_val _ _ _ _ Ht). cbn [obind].
  destruct xs as [|y xs].
  - seg_inv Hl. exists c. done.
  - assert (exists c' cs', cs = c' :: cs' /\ t = OList c' /\ c' <> 0%nat) as (c' & cs' & -> & -> & Hc').
    { destruct cs; [by destruct Hl|]. cbn in Hl. destruct Hl as (-> & Hc' & _). eauto. }
    rewrite is_nil_S by done. cbn [is_list].
    destruct (IH f h (OList c') (c' :: cs') Hl) as (z & Hz & Hv); [done|cbn in *; lia|]. exists z. split; [|done].
    cbn in Hz |- *. done.
Qed.

Lemma current_key_ok xs : forall fuel h l cs i c k,
  lst h l xs cs -> cs !! i = Some c -> (length xs < fuel)%nat ->
  current_key fuel h (OList c) l k = Val (k + Z.of_nat i).
Proof.
  induction xs as [|x xs IH]; intros [|f] h l cs i c k Hl Hi Hf; cbn in Hf; try lia.
  - unfold lst in Hl. seg_inv Hl. by rewrite lookup_nil in Hi.
  - pose proof (seg_nodup _ _ _ _ _ (eq_refl : is_pair nil = false) Hl) as Hn.
    unfold lst in Hl. seg_inv Hl. apply NoDup_cons in Hn as [Hni Hn]. cbn [current_key]. unfold same.
    destruct i as [|i]; cbn in Hi.
    + injection Hi as ->. rewrite bool_decide_eq_true_2 by done. f_equal. lia.
    + rewrite bool_decide_eq_false_2.
      2: { intros [= ->]. apply Hni. by eapply elem_of_list_lookup_2. }
      rewrite (tail_val _ _ _ _ Ht). cbn [obind]. rewrite (check_list_seg _ _ _ _ Hl). cbn [obind].
      erewrite IH; [|done|done|lia]. f_equal. lia.
Qed.
