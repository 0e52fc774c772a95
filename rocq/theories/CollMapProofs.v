(** map-into: storing one element, and the loops. *)
From Verif Require Import Base CollModel CollSpec CollProofs CollAgree CollIterProofs CollAlignProofs CollSourceProofs.
From Coq Require Import ZArith ZifyBool ZifyNat.
Local Open Scope outcome_scope.
Local Open Scope Z_scope.

Definition storable_in (c : coll) (v : value) : Prop := match c with CVec k _ => storable k v = true | _ => True end.

Definition grown (l : list value) (n : nat) : list value := take n l ++ replicate (n - length l) VFalse.

Lemma grown_length l n : (length l <= n)%nat -> length (grown l n) = n.
Proof. intros H. unfold grown. rewrite app_length, take_length, replicate_length. lia. Qed.

Lemma grown_lookup l n i : (length l <= n)%nat ->
  grown l n !! i = if decide (i < length l)%nat then l !! i else if decide (i < n)%nat then Some VFalse else None.
Proof.
  intros H. unfold grown. rewrite take_ge by lia. destruct (decide (i < length l)%nat).
  - by rewrite lookup_app_l.
  - rewrite lookup_app_r by lia. destruct (decide (i < n)%nat).
    + apply lookup_replicate_2. lia.
    + apply lookup_ge_None. rewrite replicate_length. lia.
Qed.

(** The elements of a sequence after its element [z] is set. *)
Definition set_list (l : list value) (z : nat) (v : value) : list value :=
  <[z := v]> (if decide (length l <= z)%nat then grown l (z + 1) else l).

Lemma set_list_at l z v : set_list l z v !! z = Some v.
Proof. unfold set_list. destruct (decide _); apply list_lookup_insert; [rewrite grown_length|]; lia. Qed.

Lemma set_list_other l z v i : i <> z ->
  set_list l z v !! i = l !! i \/ (l !! i = None /\ set_list l z v !! i = Some VFalse /\ (i < z)%nat).
Proof.
  intros Hi. unfold set_list. rewrite list_lookup_insert_ne by done. destruct (decide (length l <= z)%nat); [|by left].
  rewrite grown_lookup by lia. destruct (decide (i < length l)%nat); [by left|]. destruct (decide (i < z + 1)%nat).
  - right. split; [apply lookup_ge_None; lia|]. split; [done|lia].
  - left. symmetry. apply lookup_ge_None. lia.
Qed.

Lemma set_list_in l z v : (z < length l)%nat -> set_list l z v = <[z := v]> l.
Proof. intros H. unfold set_list. by rewrite decide_False by lia. Qed.

Definition list_of (c : coll) : list value := match c with CVec _ l | CDeq _ l | CList l => l | _ => [] end.
Definition with_list (c : coll) (first : Z) (l : list value) : coll :=
  match c with CVec k _ => CVec k l | CDeq _ _ => CDeq first l | CList _ => CList l | c => c end.

Lemma element_set_seq place v c z : is_mutable c = true -> is_sequence c = true -> accepts c (KInt z) -> storable_in c v ->
  exists first, element_set place v c (KInt z) = Val (with_list c first (set_list (list_of c) (Z.to_nat z) v)) /\ 0 <= z /\
    (is_stretchy c = false -> z < Z.of_nat (length (list_of c))) /\
    (z < Z.of_nat (length (list_of c)) -> forall f l, c = CDeq f l -> first = f).
Proof.
  intros Hm Hs Ha Hst. unfold accepts in Ha. rewrite Hs in Ha.
  assert (Hr : forall l, (if decide (0 <= z) then l !! Z.to_nat z else None) <> (None : option value) -> 0 <= z < Z.of_nat (length l)).
  { intros l H. destruct (decide (0 <= z)); [|done]. apply not_eq_None_Some in H. apply lookup_lt_is_Some in H. lia. }
  assert (Hg : forall l, Z.of_nat (length l) <= z -> length (take (Z.to_nat z + 1) l ++ replicate (Z.to_nat z + 1 - length l) VFalse) = (Z.to_nat z + 1)%nat).
  { intros l Hl. apply (grown_length l (Z.to_nat z + 1)). lia. }
  destruct c as [vk l|first l|l| | |]; try done; cbn in Ha; cbn [list_of with_list].
  - destruct vk; cbn in Ha.
    + apply Hr in Ha. exists 0. cbn. rewrite (proj2 (Z.leb_le 0 z)), (proj2 (Z.ltb_lt _ _)) by lia. cbn.
      rewrite set_list_in by lia. repeat split; try done; lia.
    + apply Hr in Ha. exists 0. cbn in *. rewrite Hst. rewrite (proj2 (Z.leb_le 0 z)), (proj2 (Z.ltb_lt _ _)) by lia. cbn.
      rewrite set_list_in by lia. repeat split; try done; lia.
    + destruct Ha as (z' & [= <-] & Hz). exists 0. cbn. rewrite (proj2 (Z.ltb_ge z 0)) by lia.
      destruct (Z.of_nat (length l) <=? z) eqn:E; cbn.
      * rewrite zwrite_val by (rewrite Hg by lia; lia). cbn. unfold set_list. rewrite decide_True by lia. repeat split; try done.
      * rewrite zwrite_val by lia. cbn. rewrite set_list_in by lia. repeat split; try done.
  - destruct Ha as (z' & [= <-] & Hz). cbn. rewrite (proj2 (Z.ltb_ge z 0)) by lia.
    destruct (Z.of_nat (length l) <=? z) eqn:E; cbn.
    + eexists. rewrite zwrite_val by (rewrite Hg by lia; lia). cbn. unfold set_list. rewrite decide_True by lia. repeat split; try done. intros; lia.
    + eexists. rewrite zwrite_val by lia. cbn. rewrite set_list_in by lia. repeat split; try done. intros _ f l' [= -> _]. done.
  - apply Hr in Ha. exists 0. cbn. rewrite (proj2 (Z.leb_le 0 z)), (proj2 (Z.ltb_lt _ _)) by lia. cbn.
    rewrite set_list_in by lia. repeat split; try done; lia.
Qed.

Lemma store_key_keys k v t : (exists w, (k, w) ∈ t) -> (store_key k v t).*1 = t.*1.
Proof.
  induction t as [|[x w] t IH]; intros [w' Hin]; [by apply elem_of_nil in Hin|]. cbn. destruct (decide (x = k)) as [E|E].
  - by rewrite (bool_decide_true (x = k)).
  - rewrite (bool_decide_false (x = k)) by done. cbn. rewrite IH; [done|]. apply elem_of_cons in Hin as [[= ->]|Hin]; [done|by eexists].
Qed.

Lemma store_key_in k v t x w : (x, w) ∈ store_key k v t -> x = k \/ (x, w) ∈ t.
Proof.
  induction t as [|[y u] t IH]; cbn.
  - intros [[= -> ->]|H]%elem_of_cons; [by left|]. by apply elem_of_nil in H.
  - destruct (decide (y = k)) as [E|E].
    + rewrite (bool_decide_true (y = k)) by done. subst. intros [[= -> ->]|H]%elem_of_cons; [by left|]. right. by right.
    + rewrite (bool_decide_false (y = k)) by done. intros [[= -> ->]|H]%elem_of_cons; [right; left|]. destruct (IH H); [by left|right; by right].
Qed.

Lemma store_key_nodup k v t : NoDup t.*1 -> NoDup (store_key k v t).*1.
Proof.
  induction t as [|[y u] t IH]; intros Hnd; cbn.
  - apply NoDup_cons. split; [apply not_elem_of_nil|constructor].
  - apply NoDup_cons in Hnd as [Hy Hnd]. cbn in Hy. destruct (decide (y = k)) as [E|E].
    + rewrite (bool_decide_true (y = k)) by done. by apply NoDup_cons.
    + rewrite (bool_decide_false (y = k)) by done. cbn. apply NoDup_cons. split; [|auto]. intros Hin.
      apply elem_of_list_fmap in Hin as ([y' w] & Ey & Hin). cbn in Ey. subst y'. apply store_key_in in Hin as [->|Hin]; [done|].
      apply Hy. apply elem_of_list_fmap. by exists (y, w).
Qed.

Lemma lookup_store_key k v t x : lookup_key x (store_key k v t) = if decide (x = k) then Some v else lookup_key x t.
Proof.
  induction t as [|[y u] t IH]; cbn.
  - destruct (decide (x = k)) as [->|E]; [by rewrite (bool_decide_true (k = k))|by rewrite (bool_decide_false (k = x)) by congruence].
  - destruct (decide (y = k)) as [->|E].
    + rewrite (bool_decide_true (k = k)) by done. cbn. destruct (decide (x = k)) as [->|E].
      * by rewrite (bool_decide_true (k = k)).
      * by rewrite (bool_decide_false (k = x)) by congruence.
    + rewrite (bool_decide_false (y = k)) by done. cbn. rewrite IH. destruct (decide (y = x)) as [->|E'].
      * rewrite (bool_decide_true (x = x)) by done. by rewrite decide_False by done.
      * by rewrite (bool_decide_false (y = x)) by done.
Qed.

Lemma store_key_lookup k v t : forall i x w, t !! i = Some (x, w) -> x <> k -> store_key k v t !! i = Some (x, w).
Proof.
  induction t as [|[y u] t IH]; intros i x w Hi Hx; [done|]. cbn. destruct (decide (y = k)) as [->|E].
  - rewrite (bool_decide_true (k = k)) by done. destruct i as [|i]; [|done]. cbn in Hi. congruence.
  - rewrite (bool_decide_false (y = k)) by done. destruct i as [|i]; [done|]. cbn in *. by apply IH.
Qed.

Lemma value_at_list c z : is_mutable c = true -> is_sequence c = true -> 0 <= z -> value_at c (KInt z) = list_of c !! Z.to_nat z.
Proof. intros Hm Hs Hz. destruct c; try done; cbn; by rewrite decide_True by done. Qed.

Lemma with_list_mut c f l : is_mutable c = true -> is_sequence c = true ->
  is_mutable (with_list c f l) = true /\ is_sequence (with_list c f l) = true /\ list_of (with_list c f l) = l /\ same_class c (with_list c f l).
Proof. by destruct c. Qed.

Lemma value_at_nonint c k v : is_mutable c = true -> is_sequence c = true -> value_at c k = Some v -> exists z, k = KInt z /\ 0 <= z.
Proof. intros Hm Hs H. destruct c, k; cbn in H; try done; destruct (decide (0 <= z)); try done; by eexists. Qed.

Lemma element_set_ok place v c k : wf_coll c -> is_mutable c = true -> accepts c k -> storable_in c v ->
  exists c', element_set place v c k = Val c' /\ same_class c c' /\ wf_coll c' /\ value_at c' k = Some v /\
    (forall k', k' <> k -> value_at c' k' = value_at c k' \/
       (value_at c k' = None /\ value_at c' k' = Some VFalse /\ is_stretchy c = true /\ is_sequence c = true /\
        exists z' z, k' = KInt z' /\ k = KInt z /\ 0 <= z' < z)) /\
    (value_at c k <> None -> agree [k] c c').
Proof.
  intros Hwf Hm Ha Hst. destruct (is_sequence c) eqn:Hs.
  - assert (exists z, k = KInt z) as [z ->].
    { unfold accepts in Ha. rewrite Hs in Ha. destruct (is_stretchy c).
      - destruct Ha as (z & -> & _). by eexists.
      - destruct (value_at c k) as [w|] eqn:E; [|done]. destruct (value_at_nonint _ _ _ Hm Hs E) as (z & -> & _). by eexists. }
    destruct (element_set_seq place v c z Hm Hs Ha Hst) as (first & He & Hz & Hrig & Hfirst).
    destruct (with_list_mut c first (set_list (list_of c) (Z.to_nat z) v) Hm Hs) as (M1 & M2 & M3 & M4).
    eexists. split; [exact He|]. split; [done|]. split; [|split; [|split]].
    + destruct c as [[]| | | | |]; try done. cbn in Hwf, Hst |- *. rewrite set_list_in by (specialize (Hrig eq_refl); cbn in Hrig; lia).
      apply Forall_insert; [done|]. done.
    + rewrite value_at_list by done. rewrite M3. apply set_list_at.
    + intros k' Hk'. assert ((exists z', k' = KInt z' /\ 0 <= z') \/ (value_at c k' = None /\ value_at (with_list c first (set_list (list_of c) (Z.to_nat z) v)) k' = None)) as [(z' & -> & Hz')|[-> ->]]; [|..|by left].
      { destruct k' as [z'| |]; [destruct (decide (0 <= z')) as [H|H]; [left; by eexists|right]|right|right]; destruct c; cbn; rewrite ?decide_False by done; done. }
      rewrite !value_at_list by done. rewrite M3.
      assert (Hne : Z.to_nat z' <> Z.to_nat z) by (intros E; apply Hk'; f_equal; lia).
      destruct (set_list_other (list_of c) (Z.to_nat z) v (Z.to_nat z') Hne) as [E|(E1 & E2 & E3)]; [by left|].
      right. split; [done|]. split; [done|]. split; [|split; [done|exists z', z; repeat split; try done; lia]].
      destruct (is_stretchy c) eqn:Estr; [done|]. specialize (Hrig eq_refl).
      rewrite set_list_in in E2 by lia. rewrite list_lookup_insert_ne in E2 by done. congruence.
    + intros Hv. rewrite value_at_list in Hv by done. apply not_eq_None_Some, lookup_lt_is_Some in Hv.
      specialize (Hfirst ltac:(lia)). rewrite set_list_in by done.
      assert (Hlk : forall i : nat, KInt (Z.of_nat i) ∉ [KInt z] -> <[Z.to_nat z := v]> (list_of c) !! i = list_of c !! i).
      { intros i Hi. rewrite list_lookup_insert_ne; [done|]. intros <-. apply Hi. rewrite Z2Nat.id by done. left. }
      destruct c as [vk l|f l|l| | |]; try done; cbn in *; rewrite insert_length; auto. rewrite (Hfirst f l) by done. auto.
  - destruct c as [| | | | |kt t]; try done. cbn. eexists. split; [done|]. split; [done|]. split; [by apply store_key_nodup|]. split; [|split].
    + change (value_at (CTab kt (store_key k v t)) k = Some v). rewrite <- lookup_key_value, lookup_store_key. by rewrite decide_True.
    + intros k' Hk'. left. change (value_at (CTab kt (store_key k v t)) k' = value_at (CTab kt t) k'). rewrite <- !lookup_key_value, lookup_store_key.
      by rewrite decide_False.
    + intros Hv. assert (exists w, (k, w) ∈ t) as Hin.
      { change (value_at (CTab kt t) k <> None) in Hv. destruct (value_at (CTab kt t) k) as [w|] eqn:E; [|done]. apply value_at_tab in E; [|done]. by exists w. }
      split; [done|]. split; [by apply store_key_keys|]. intros i x w Hi Hx. apply store_key_lookup; [done|]. intros ->. apply Hx. left.
Qed.

(** ** The invariant of the loops *)

(** [c'] is the target [c] after the entries [pre] have been visited. *)
Record stored (fn : value -> value) (c : coll) (pre : list (key * value)) (c' : coll) : Prop := {
  stored_class : same_class c c';
  stored_wf : wf_coll c';
  stored_in : forall k v, (k, v) ∈ pre -> accepts c k -> value_at c' k = Some (fn v);
  stored_out : forall k, k ∉ pre.*1 \/ ~ accepts c k ->
    value_at c' k = value_at c k \/
    (value_at c k = None /\ value_at c' k = Some VFalse /\ is_stretchy c = true /\ is_sequence c = true /\
     exists z z', k = KInt z /\ 0 <= z < z' /\ KInt z' ∈ pre.*1)
}.

Lemma same_class_facts c c' : same_class c c' -> is_mutable c' = true /\ is_stretchy c' = is_stretchy c /\ is_sequence c' = is_sequence c /\
  (forall v, storable_in c' v <-> storable_in c v).
Proof. destruct c, c'; cbn; try done; intros ->; repeat split; try done; by destruct k0. Qed.

Lemma same_class_refl c : is_mutable c = true -> same_class c c.
Proof. by destruct c. Qed.

Lemma same_class_trans c1 c2 c3 : same_class c1 c2 -> same_class c2 c3 -> same_class c1 c3.
Proof. destruct c1, c2, c3; cbn; try done; congruence. Qed.

Lemma stored_nil fn c : is_mutable c = true -> wf_coll c -> stored fn c [] c.
Proof. intros Hm Hwf. split; [by apply same_class_refl|done| |by left]. by intros k v ?%elem_of_nil. Qed.

Lemma stored_accepts fn c pre c' k : stored fn c pre c' -> accepts c k -> accepts c' k.
Proof.
  intros H. destruct (same_class_facts _ _ (stored_class _ _ _ _ H)) as (_ & E1 & E2 & _). unfold accepts. rewrite E1, E2.
  destruct (is_stretchy c) eqn:Estr; [done|]. intros Hk.
  destruct (decide (k ∈ pre.*1)) as [Hin|Hin].
  - apply elem_of_list_fmap in Hin as ([k' v] & -> & Hin). cbn [fst] in *. rewrite (stored_in _ _ _ _ H k' v); [done|done|].
    unfold accepts. by rewrite Estr.
  - destruct (stored_out _ _ _ _ H k) as [->|(_ & _ & E & _)]; [by left|done|congruence].
Qed.

Lemma stored_skip fn c pre c' k v : stored fn c pre c' -> ~ accepts c k -> stored fn c ((k, v) :: pre) c'.
Proof.
  intros H Hk. split; [apply H|apply H| |].
  - intros k' v' [[= -> ->]|Hin]%elem_of_cons Ha; [done|]. by apply H.
  - intros k' Hk'. destruct (stored_out _ _ _ _ H k') as [E|(H1 & H2 & H3 & H4 & z & z' & H5 & H6 & H7)]; [|by left|].
    + destruct Hk' as [Hk'|Hk']; [left|by right]. intros Hin. apply Hk'. by right.
    + right. repeat (split; [done|]). exists z, z'. split; [done|]. split; [done|]. by right.
Qed.

Lemma stored_step place fn c pre c' k v : is_mutable c = true -> stored fn c pre c' -> k ∉ pre.*1 -> accepts c k -> storable_in c (fn v) ->
  exists c'', element_set place (fn v) c' k = Val c'' /\ stored fn c ((k, v) :: pre) c'' /\
    (value_at c k <> None -> agree [k] c' c'').
Proof.
  intros Hm H Hk Ha Hst. destruct (same_class_facts _ _ (stored_class _ _ _ _ H)) as (F1 & F2 & F3 & F4).
  destruct (element_set_ok place (fn v) c' k) as (c'' & He & E1 & E2 & E3 & E4 & E5).
  { apply H. } { done. } { by eapply stored_accepts. } { by apply F4. }
  exists c''. split; [done|]. split; [|].
  - split.
    + eapply same_class_trans; [apply H|done].
    + done.
    + intros k' v' [[= -> ->]|Hin]%elem_of_cons Ha'; [done|]. destruct (E4 k') as [->|(E & _)].
      * intros ->. apply Hk. apply elem_of_list_fmap. by exists (k, v').
      * by apply H.
      * rewrite (stored_in _ _ _ _ H _ _ Hin Ha') in E. done.
    + intros k' Hk'. assert (k' <> k). { intros ->. destruct Hk' as [Hk'|Hk']; [|done]. apply Hk'. left. }
      assert (k' ∉ pre.*1 \/ ~ accepts c k') as Hk2. { destruct Hk' as [Hk'|Hk']; [left|by right]. intros Hin. apply Hk'. by right. }
      destruct (E4 k') as [->|(G1 & G2 & G3 & G4 & z' & z & -> & -> & G5)]; [done|..].
      * destruct (stored_out _ _ _ _ H k' Hk2) as [E|(H1 & H2 & H3 & H4 & z & z' & H5 & H6 & H7)]; [by left|].
        right. repeat (split; [done|]). exists z, z'. split; [done|]. split; [done|]. by right.
      * right. destruct (stored_out _ _ _ _ H (KInt z') Hk2) as [E|(H1 & H2 & _)]; [|congruence].
        rewrite G1 in E. split; [done|]. split; [done|]. rewrite F2 in G3. rewrite F3 in G4. repeat (split; [done|]). exists z', z. split; [done|]. split; [done|]. left.
  - intros Hv. apply E5. destruct (stored_out _ _ _ _ H k) as [E|(E & _)]; [by left|by rewrite E|done].
Qed.

(** The state of the heap during the loop.  [keep] when the target is one of the sources, or is not
    to change its keys. *)
Record midway (keep : Prop) (fn : value -> value) (h : heap) (t : nat) (c : coll) (pre : list (key * value)) (h' : heap) (c' : coll) : Prop := {
  mid_heap : h' = <[t := c']> h;
  mid_stored : stored fn c pre c';
  mid_agree : keep -> agree pre.*1 c c'
}.

Lemma mid_similar (keep : Prop) fn h as_ t c pre h' c' : (t ∈ as_ -> keep) -> h !! t = Some c -> midway keep fn h t c pre h' c' -> similar as_ h pre.*1 h'.
Proof.
  intros Hkeep Ht [-> _ Hag] a d Ha Hd. destruct (decide (a = t)) as [->|Hne].
  - exists c'. split; [apply list_lookup_insert; by eapply lookup_lt_Some|]. rewrite Ht in Hd. injection Hd as <-. auto.
  - exists d. split; [|apply agree_refl]. etrans; [by apply (list_lookup_insert_ne (A:=coll))|done].
Qed.

Lemma mid_at keep fn h t c pre h' c' : h !! t = Some c -> midway keep fn h t c pre h' c' -> at_ h' t = Val c'.
Proof. intros Ht [-> _ _]. apply at_val, list_lookup_insert. by eapply lookup_lt_Some. Qed.

Lemma mid_start keep fn h t c : h !! t = Some c -> is_mutable c = true -> wf_coll c -> midway keep fn h t c [] h c.
Proof. intros Ht Hm Hwf. split; [symmetry; by apply (list_insert_id (A:=coll))|by apply stored_nil|intros _; apply agree_refl]. Qed.

Lemma mid_skip keep fn h t c pre h' c' k v : midway keep fn h t c pre h' c' -> ~ accepts c k -> midway keep fn h t c ((k, v) :: pre) h' c'.
Proof.
  intros [H1 H2 H3] Hk. split; [done|by apply stored_skip|]. intros Ha. eapply agree_mono; [|by apply H3]. intros x Hx. by right.
Qed.

Lemma mid_step place (keep : Prop) fn h t c pre h' c' k v : is_mutable c = true -> midway keep fn h t c pre h' c' ->
  k ∉ pre.*1 -> accepts c k -> storable_in c (fn v) -> (keep -> value_at c k <> None) ->
  exists c'', element_set place (fn v) c' k = Val c'' /\ midway keep fn h t c ((k, v) :: pre) (upd h' t c'') c''.
Proof.
  intros Hm [H1 H2 H3] Hk Ha Hst Hal. destruct (stored_step place fn c pre c' k v Hm H2 Hk Ha Hst) as (c'' & E1 & E2 & E3).
  exists c''. split; [done|]. split; [|done|].
  - unfold upd. rewrite H1. apply (list_insert_insert (A:=coll)).
  - intros Hin. eapply agree_mono; [|eapply agree_trans; [by apply H3|apply E3; auto]]. cbn. intros x. rewrite elem_of_app, elem_of_list_singleton. intros [Hx| ->]; [by right|left].
Qed.

Lemma mid_skip_all keep fn h t c h' c' out : forall pre, midway keep fn h t c pre h' c' -> (forall k v, (k, v) ∈ out -> ~ accepts c k) ->
  midway keep fn h t c (rev out ++ pre) h' c'.
Proof.
  induction out as [|[k v] out IH]; intros pre Hmid Hn; [done|]. cbn. rewrite <- app_assoc. apply (IH ((k, v) :: pre)).
  - apply mid_skip; [done|]. apply (Hn k v). left.
  - intros k' v' Hin. apply (Hn k' v'). by right.
Qed.

(** What the loops need of the entries to come. *)
Record fits (keep : Prop) (fn : value -> value) (c : coll) (pre out : list (key * value)) : Prop := {
  fits_nodup : NoDup out.*1;
  fits_new : forall k, k ∈ out.*1 -> k ∉ pre.*1;
  fits_storable : forall k v, (k, v) ∈ out -> storable_in c (fn v);
  fits_keep : keep -> forall k, k ∈ out.*1 -> accepts c k -> value_at c k <> None
}.

Lemma fits_cons keep fn c pre k v out : fits keep fn c pre ((k, v) :: out) ->
  k ∉ pre.*1 /\ storable_in c (fn v) /\ (keep -> accepts c k -> value_at c k <> None) /\ fits keep fn c ((k, v) :: pre) out.
Proof.
  intros [H1 H2 H3 H4]. rewrite fmap_cons in *. cbn [fst] in *. apply NoDup_cons in H1 as [H1 H1'].
  split; [apply H2; left|]. split; [apply (H3 k); left|]. split; [intros Hk; apply H4; [done|left]|]. split.
  - done.
  - intros k' Hk'. rewrite fmap_cons. cbn [fst]. apply not_elem_of_cons. split; [by intros ->|]. apply H2. by right.
  - intros k' v' Hin. apply (H3 k'). by right.
  - intros Hk k' Hin. apply H4; [done|]. by right.
Qed.

(** The entries of a sequence from position [i] on. *)
Definition keys_from (i : nat) (out : list (key * value)) : Prop := forall j k v, out !! j = Some (k, v) -> k = KInt (Z.of_nat (i + j)).

Lemma keys_from_cons i k v out : keys_from i ((k, v) :: out) -> k = KInt (Z.of_nat i) /\ keys_from (S i) out.
Proof.
  intros H. split; [rewrite (H 0%nat k v eq_refl); do 2 f_equal; lia|]. intros j k' v' Hj. rewrite (H (S j) k' v' Hj). do 2 f_equal. lia.
Qed.

Section Loops.
  Context (place : Z -> nat -> Z) (keep : Prop) (fn : value -> value) (h : heap) (as_ : list nat) (t : nat) (c : coll) (src : source) (f : sfip) (B : nat).
  Context (Hkeep : t ∈ as_ -> keep) (Ht : h !! t = Some c) (Hm : is_mutable c = true).

  Lemma stretchy_default_ok pre st out : (forall k, accepts c k) -> yields B h as_ src f pre st out ->
    forall h' c' fuel, midway keep fn h t c pre h' c' -> fits keep fn c pre out -> (B + length out < fuel)%nat ->
    exists h'' c'', stretchy_default fuel place fn h' t src f st = Val h'' /\ midway keep fn h t c (rev out ++ pre) h'' c''.
  Proof.
    intros Hacc Hy. induction Hy as [pre st Hf|pre st st' k v out He Hn _ IH]; intros h' c' fuel Hmid Hfit Hfuel; destruct fuel as [|fuel]; try lia; cbn [stretchy_default].
    - rewrite Hf by (by eapply mid_similar). by exists h', c'.
    - destruct (He h') as (H1 & H2 & H3); [by eapply mid_similar|]. rewrite H1. cbn [obind]. rewrite H2. cbn [obind]. rewrite H3. cbn [obind].
      rewrite (mid_at _ _ _ _ _ _ _ _ Ht Hmid). cbn [obind]. destruct (fits_cons _ _ _ _ _ _ _ Hfit) as (F1 & F2 & F3 & F4).
      destruct (mid_step place keep fn h t c pre h' c' k v) as (c'' & E1 & E2); [done..|by auto|]. rewrite E1. cbn [obind].
      rewrite Hn; [|by eapply (mid_similar _ _ _ _ _ _ ((k, v) :: pre))|lia]. cbn [obind].
      destruct (IH _ c'' fuel E2 F4) as (h2 & c2 & G1 & G2); [cbn in Hfuel; lia|]. exists h2, c2. split; [done|]. cbn. by rewrite <- app_assoc.
  Qed.

  Lemma stretchy_array_coll_ok pre st out : (forall k, accepts c k <-> exists z, k = KInt z /\ 0 <= z) -> yields B h as_ src f pre st out ->
    forall h' c' fuel, midway keep fn h t c pre h' c' -> fits keep fn c pre out -> (B + length out < fuel)%nat ->
    exists h'' c'', stretchy_array_coll fuel place fn h' t src f st = Val h'' /\ midway keep fn h t c (rev out ++ pre) h'' c''.
  Proof.
    intros Hacc Hy. induction Hy as [pre st Hf|pre st st' k v out He Hn _ IH]; intros h' c' fuel Hmid Hfit Hfuel; destruct fuel as [|fuel]; try lia; cbn [stretchy_array_coll].
    - rewrite Hf by (by eapply mid_similar). by exists h', c'.
    - destruct (He h') as (H1 & H2 & H3); [by eapply mid_similar|]. rewrite H1. cbn [obind]. rewrite H2. cbn [obind]. rewrite H3. cbn [obind].
      destruct (fits_cons _ _ _ _ _ _ _ Hfit) as (F1 & F2 & F3 & F4).
      assert (Hstep : exists h1 c1, match k with
                | KInt z => if z <? 0 then Val h' else do c <- at_ h' t ; do c <- element_set place (fn v) c k ; Val (upd h' t c)
                | _ => Val h' end = Val h1 /\ midway keep fn h t c ((k, v) :: pre) h1 c1).
      { destruct k as [z| |]; try (exists h', c'; split; [done|]; apply mid_skip; [done|]; rewrite Hacc; by intros (? & ? & ?)).
        destruct (z <? 0) eqn:Ez.
        - exists h', c'. split; [done|]. apply mid_skip; [done|]. rewrite Hacc. intros (? & [= <-] & ?). lia.
        - rewrite (mid_at _ _ _ _ _ _ _ _ Ht Hmid). cbn [obind].
          assert (accepts c (KInt z)) as Hac. { apply Hacc. exists z. split; [done|lia]. }
          destruct (mid_step place keep fn h t c pre h' c' (KInt z) v) as (c'' & E1 & E2); [done..|by auto|]. rewrite E1. cbn [obind]. by exists (upd h' t c''), c''. }
      destruct Hstep as (h1 & c1 & E1 & E2). rewrite E1. cbn [obind].
      rewrite Hn; [|by eapply (mid_similar _ _ _ _ _ _ ((k, v) :: pre))|lia]. cbn [obind].
      destruct (IH _ c1 fuel E2 F4) as (h2 & c2 & G1 & G2); [cbn in Hfuel; lia|]. exists h2, c2. split; [done|]. cbn. by rewrite <- app_assoc.
  Qed.

  Lemma rigid_array_coll_ok pre st out end_key : (forall k, accepts c k <-> exists z, k = KInt z /\ 0 <= z < end_key) -> yields B h as_ src f pre st out ->
    forall h' c' fuel, midway keep fn h t c pre h' c' -> fits keep fn c pre out -> (B + length out < fuel)%nat ->
    exists h'' c'', rigid_array_coll fuel place fn h' t src f st end_key = Val h'' /\ midway keep fn h t c (rev out ++ pre) h'' c''.
  Proof.
    intros Hacc Hy. induction Hy as [pre st Hf|pre st st' k v out He Hn _ IH]; intros h' c' fuel Hmid Hfit Hfuel; destruct fuel as [|fuel]; try lia; cbn [rigid_array_coll].
    - rewrite Hf by (by eapply mid_similar). by exists h', c'.
    - destruct (He h') as (H1 & H2 & H3); [by eapply mid_similar|]. rewrite H1. cbn [obind]. rewrite H2. cbn [obind]. rewrite H3. cbn [obind].
      destruct (fits_cons _ _ _ _ _ _ _ Hfit) as (F1 & F2 & F3 & F4).
      assert (Hstep : exists h1 c1, match k with
                | KInt z => if (z <? 0) || (end_key <=? z) then Val h' else do c <- at_ h' t ; do c <- element_set place (fn v) c k ; Val (upd h' t c)
                | _ => Val h' end = Val h1 /\ midway keep fn h t c ((k, v) :: pre) h1 c1).
      { destruct k as [z| |]; try (exists h', c'; split; [done|]; apply mid_skip; [done|]; rewrite Hacc; by intros (? & ? & ?)).
        destruct ((z <? 0) || (end_key <=? z)) eqn:Ez.
        - exists h', c'. split; [done|]. apply mid_skip; [done|]. rewrite Hacc. intros (? & [= <-] & ?). lia.
        - rewrite (mid_at _ _ _ _ _ _ _ _ Ht Hmid). cbn [obind].
          assert (accepts c (KInt z)) as Hac. { apply Hacc. exists z. split; [done|lia]. }
          destruct (mid_step place keep fn h t c pre h' c' (KInt z) v) as (c'' & E1 & E2); [done..|by auto|]. rewrite E1. cbn [obind]. by exists (upd h' t c''), c''. }
      destruct Hstep as (h1 & c1 & E1 & E2). rewrite E1. cbn [obind].
      rewrite Hn; [|by eapply (mid_similar _ _ _ _ _ _ ((k, v) :: pre))|lia]. cbn [obind].
      destruct (IH _ c1 fuel E2 F4) as (h2 & c2 & G1 & G2); [cbn in Hfuel; lia|]. exists h2, c2. split; [done|]. cbn. by rewrite <- app_assoc.
  Qed.

  Lemma stretchy_array_seq_ok pre st out : (forall k, accepts c k <-> exists z, k = KInt z /\ 0 <= z) -> yields B h as_ src f pre st out ->
    forall h' c' fuel i, keys_from i out -> midway keep fn h t c pre h' c' -> fits keep fn c pre out -> (B + length out < fuel)%nat ->
    exists h'' c'', stretchy_array_seq fuel place fn h' t src f st (Z.of_nat i) = Val h'' /\ midway keep fn h t c (rev out ++ pre) h'' c''.
  Proof.
    intros Hacc Hy. induction Hy as [pre st Hf|pre st st' k v out He Hn _ IH]; intros h' c' fuel i Hkf Hmid Hfit Hfuel; destruct fuel as [|fuel]; try lia; cbn [stretchy_array_seq].
    - rewrite Hf by (by eapply mid_similar). by exists h', c'.
    - destruct (He h') as (H1 & H2 & H3); [by eapply mid_similar|]. rewrite H1. cbn [obind]. rewrite H2. cbn [obind].
      rewrite (mid_at _ _ _ _ _ _ _ _ Ht Hmid). cbn [obind]. destruct (fits_cons _ _ _ _ _ _ _ Hfit) as (F1 & F2 & F3 & F4).
      destruct (keys_from_cons _ _ _ _ Hkf) as [-> Hkf'].
      assert (accepts c (KInt (Z.of_nat i))) as Hac. { apply Hacc. eexists. split; [done|lia]. }
      destruct (mid_step place keep fn h t c pre h' c' (KInt (Z.of_nat i)) v) as (c'' & E1 & E2); [done..|by auto|]. rewrite E1. cbn [obind].
      rewrite Hn; [|by eapply (mid_similar _ _ _ _ _ _ ((KInt (Z.of_nat i), v) :: pre))|lia]. cbn [obind].
      destruct (IH _ c'' fuel (S i) Hkf' E2 F4) as (h2 & c2 & G1 & G2); [cbn in Hfuel; lia|]. exists h2, c2.
      split; [by replace (Z.of_nat i + 1) with (Z.of_nat (S i)) by lia|]. cbn. by rewrite <- app_assoc.
  Qed.

  Lemma rigid_array_seq_ok pre st out bound : (forall k, accepts c k <-> exists z, k = KInt z /\ 0 <= z < bound) -> yields B h as_ src f pre st out ->
    forall h' c' fuel i, keys_from i out -> midway keep fn h t c pre h' c' -> fits keep fn c pre out -> (B + length out < fuel)%nat ->
    exists h'' c'', rigid_array_seq fuel place fn h' t src f st (Z.of_nat i) bound = Val h'' /\ midway keep fn h t c (rev out ++ pre) h'' c''.
  Proof.
    intros Hacc Hy. induction Hy as [pre st Hf|pre st st' k v out He Hn _ IH]; intros h' c' fuel i Hkf Hmid Hfit Hfuel; destruct fuel as [|fuel]; try lia; cbn [rigid_array_seq].
    - rewrite Hf by (by eapply mid_similar). by exists h', c'.
    - destruct (He h') as (H1 & H2 & H3); [by eapply mid_similar|]. rewrite H1. cbn [obind]. destruct (bound <=? Z.of_nat i) eqn:Eb.
      { exists h', c'. split; [done|]. apply mid_skip_all; [done|]. intros k' v' Hin. apply elem_of_list_lookup in Hin as [j Hj]. rewrite (Hkf _ _ _ Hj).
        rewrite Hacc. intros (z & [= <-] & ?). lia. }
      rewrite H2. cbn [obind].
      rewrite (mid_at _ _ _ _ _ _ _ _ Ht Hmid). cbn [obind]. destruct (fits_cons _ _ _ _ _ _ _ Hfit) as (F1 & F2 & F3 & F4).
      destruct (keys_from_cons _ _ _ _ Hkf) as [-> Hkf'].
      assert (accepts c (KInt (Z.of_nat i))) as Hac. { apply Hacc. eexists. split; [done|lia]. }
      destruct (mid_step place keep fn h t c pre h' c' (KInt (Z.of_nat i)) v) as (c'' & E1 & E2); [done..|by auto|]. rewrite E1. cbn [obind].
      rewrite Hn; [|by eapply (mid_similar _ _ _ _ _ _ ((KInt (Z.of_nat i), v) :: pre))|lia]. cbn [obind].
      destruct (IH _ c'' fuel (S i) Hkf' E2 F4) as (h2 & c2 & G1 & G2); [cbn in Hfuel; lia|]. exists h2, c2.
      split; [by replace (Z.of_nat i + 1) with (Z.of_nat (S i)) by lia|]. cbn. by rewrite <- app_assoc.
  Qed.

  Lemma set_pos v c' i : is_mutable c' = true -> is_sequence c' = true -> (i < length (list_of c'))%nat -> storable_in c' v ->
    run_set (f_set (fip_of c')) v c' (pos_state c' i) = element_set place v c' (KInt (Z.of_nat i)).
  Proof.
    intros Hm' Hs' Hi Hst. destruct c' as [vk l|first l|l| | |]; try done; cbn in *.
    - rewrite bool_decide_true by done. rewrite Hst. cbn. rewrite zwrite_val by lia. cbn. rewrite Nat2Z.id.
      destruct vk; cbn; rewrite ?(proj2 (Z.leb_le 0 _)), ?(proj2 (Z.ltb_lt _ _)) by lia; try done.
      rewrite (proj2 (Z.ltb_ge _ 0)) by lia. rewrite (proj2 (Z.leb_gt _ _)) by lia. cbn. rewrite zwrite_val by lia. cbn. by rewrite Nat2Z.id.
    - rewrite (proj2 (Z.ltb_ge _ 0)) by lia. rewrite (proj2 (Z.leb_gt _ _)) by lia. cbn. replace (first + Z.of_nat i - first) with (Z.of_nat i) by lia.
      rewrite !zwrite_val by lia. done.
    - rewrite vwrite_val by done. cbn. rewrite (proj2 (Z.leb_le 0 _)), (proj2 (Z.ltb_lt _ _)) by lia. cbn. by rewrite Nat2Z.id.
  Qed.

  (** The target, stepped in parallel, as long as it keeps its keys. *)
  Lemma target_pos pre h' c' i : keep -> wf_coll c -> is_sequence c = true -> midway keep fn h t c pre h' c' ->
    is_mutable c' = true /\ is_sequence c' = true /\ length (list_of c') = length (list_of c) /\ fip_of c' = fip_of c /\ pos_state c' i = pos_state c i /\ wf_keys c'.
  Proof.
    intros Hk Hwf Hs [_ Hst Hag]. specialize (Hag Hk). split; [|split; [by rewrite (agree_seq _ _ _ Hag)|split; [|split; [by eapply agree_fip|split; [by eapply agree_pos|]]]]].
    - by destruct (same_class_facts _ _ (stored_class _ _ _ _ Hst)).
    - pose proof (agree_len _ _ _ Hag) as E. destruct c, c'; try done; cbn in *; congruence.
    - eapply agree_wf_keys; [done|]. by apply wf_wf_keys.
  Qed.

  Lemma slen_list c' : is_mutable c' = true -> is_sequence c' = true -> slen c' = Some (length (list_of c')).
  Proof. by destruct c'. Qed.

  Lemma rigid_seq_seq_ok pre st out : keep -> wf_coll c -> is_sequence c = true -> is_stretchy c = false -> yields B h as_ src f pre st out ->
    forall h' c' fuel i, (i <= length (list_of c))%nat -> keys_from i out -> midway keep fn h t c pre h' c' -> fits keep fn c pre out -> (B + length out < fuel)%nat ->
    exists h'' c'', rigid_seq_seq fuel fn h' t (fip_of c) (pos_state c i) src f st = Val h'' /\ midway keep fn h t c (rev out ++ pre) h'' c''.
  Proof.
    intros Hk Hwf Hs Hrig Hy. induction Hy as [pre st Hf|pre st st' k v out He Hn _ IH]; intros h' c' fuel i Hi Hkf Hmid Hfit Hfuel; destruct fuel as [|fuel]; try lia; cbn [rigid_seq_seq].
    - rewrite Hf by (by eapply mid_similar). by exists h', c'.
    - destruct (He h') as (H1 & H2 & H3); [by eapply mid_similar|]. rewrite H1. cbn [obind]. rewrite H2. cbn [obind].
      rewrite (mid_at _ _ _ _ _ _ _ _ Ht Hmid). cbn [obind].
      destruct (target_pos pre h' c' i Hk Hwf Hs Hmid) as (P1 & P2 & P3 & P4 & P5 & P6). rewrite <- P4, <- P5.
      rewrite pos_fin; [|done|rewrite slen_list by done; cbn; lia]. cbn [obind]. rewrite slen_list by done. rewrite P3.
      destruct (decide (i = length (list_of c))) as [Ei|Ei].
      { rewrite bool_decide_true by congruence. exists h', c'. split; [done|]. apply mid_skip_all; [done|]. intros k' v' Hin. apply elem_of_list_lookup in Hin as [j Hj]. rewrite (Hkf _ _ _ Hj).
        unfold accepts. rewrite Hrig. rewrite value_at_list by (try done; lia). rewrite lookup_ge_None_2 by lia. auto. }
      rewrite bool_decide_false by congruence.
      destruct (fits_cons _ _ _ _ _ _ _ Hfit) as (F1 & F2 & F3 & F4).
      destruct (keys_from_cons _ _ _ _ Hkf) as [-> Hkf'].
      assert (accepts c (KInt (Z.of_nat i))) as Hac.
      { unfold accepts. rewrite Hrig. rewrite value_at_list by (try done; lia). rewrite Nat2Z.id. apply not_eq_None_Some, lookup_lt_is_Some. lia. }
      destruct (mid_step place keep fn h t c pre h' c' (KInt (Z.of_nat i)) v) as (c'' & E1 & E2); [done..|by auto|].
      rewrite set_pos; [|done|done|lia|].
      2:{ destruct (same_class_facts _ _ (stored_class _ _ _ _ (mid_stored _ _ _ _ _ _ _ _ Hmid))) as (_ & _ & _ & Hss). by apply Hss. }
      rewrite E1. cbn [obind].
      destruct (target_pos _ _ c'' i Hk Hwf Hs E2) as (Q1 & Q2 & Q3 & Q4 & Q5 & Q6). rewrite P4, P5, <- Q4, <- Q5.
      rewrite pos_next by (rewrite slen_list by done; cbn; lia). cbn [obind].
      rewrite Hn; [|by eapply (mid_similar _ _ _ _ _ _ ((KInt (Z.of_nat i), v) :: pre))|lia]. cbn [obind].
      destruct (target_pos _ _ c'' (S i) Hk Hwf Hs E2) as (_ & _ & _ & _ & Q5' & _). rewrite Q4, Q5'.
      destruct (IH _ c'' fuel (S i) ltac:(lia) Hkf' E2 F4) as (h2 & c2 & G1 & G2); [cbn in Hfuel; lia|]. exists h2, c2.
      split; [done|]. cbn. by rewrite <- app_assoc.
  Qed.

  (** The same loop in the stretchy case, when the target is long enough. *)
  Lemma stretchy_seq_seq_ok pre st out : keep -> wf_coll c -> is_sequence c = true -> yields B h as_ src f pre st out ->
    forall h' c' fuel i, (i + length out <= length (list_of c))%nat -> keys_from i out -> midway keep fn h t c pre h' c' -> fits keep fn c pre out -> (B + length out < fuel)%nat ->
    exists h'' c'', stretchy_seq_seq fuel place fn h' t (fip_of c) (pos_state c i) src f st i = Val h'' /\ midway keep fn h t c (rev out ++ pre) h'' c''.
  Proof.
    intros Hk Hwf Hs Hy. induction Hy as [pre st Hf|pre st st' k v out He Hn _ IH]; intros h' c' fuel i Hi Hkf Hmid Hfit Hfuel; destruct fuel as [|fuel]; try lia; cbn [stretchy_seq_seq].
    - rewrite Hf by (by eapply mid_similar). by exists h', c'.
    - destruct (He h') as (H1 & H2 & H3); [by eapply mid_similar|]. rewrite H1. cbn [obind]. cbn [length] in Hi.
      rewrite (mid_at _ _ _ _ _ _ _ _ Ht Hmid). cbn [obind].
      destruct (target_pos pre h' c' i Hk Hwf Hs Hmid) as (P1 & P2 & P3 & P4 & P5 & P6). rewrite <- P4, <- P5.
      rewrite pos_fin; [|done|rewrite slen_list by done; cbn; lia]. cbn [obind]. rewrite slen_list by done. rewrite P3.
      rewrite bool_decide_false by (intros [= ?]; lia). rewrite H2. cbn [obind].
      destruct (fits_cons _ _ _ _ _ _ _ Hfit) as (F1 & F2 & F3 & F4).
      destruct (keys_from_cons _ _ _ _ Hkf) as [-> Hkf'].
      assert (Hv : value_at c (KInt (Z.of_nat i)) <> None).
      { rewrite value_at_list by (try done; lia). rewrite Nat2Z.id. apply not_eq_None_Some, lookup_lt_is_Some. lia. }
      assert (accepts c (KInt (Z.of_nat i))) as Hac.
      { unfold accepts. rewrite Hs. destruct (is_stretchy c); [eexists; split; [done|lia]|done]. }
      destruct (mid_step place keep fn h t c pre h' c' (KInt (Z.of_nat i)) v) as (c'' & E1 & E2); [done..|].
      rewrite set_pos; [|done|done|lia|].
      2:{ destruct (same_class_facts _ _ (stored_class _ _ _ _ (mid_stored _ _ _ _ _ _ _ _ Hmid))) as (_ & _ & _ & Hss). by apply Hss. }
      rewrite E1. cbn [obind].
      destruct (target_pos _ _ c'' i Hk Hwf Hs E2) as (Q1 & Q2 & Q3 & Q4 & Q5 & Q6). rewrite P4, P5, <- Q4, <- Q5.
      rewrite pos_next by (rewrite slen_list by done; cbn; lia). cbn [obind].
      rewrite Hn; [|by eapply (mid_similar _ _ _ _ _ _ ((KInt (Z.of_nat i), v) :: pre))|lia]. cbn [obind].
      destruct (target_pos _ _ c'' (S i) Hk Hwf Hs E2) as (_ & _ & _ & _ & Q5' & _). rewrite Q4, Q5'.
      destruct (IH _ c'' fuel (S i) ltac:(lia) Hkf' E2 F4) as (h2 & c2 & G1 & G2); [cbn in Hfuel; lia|]. exists h2, c2.
      split; [done|]. cbn. by rewrite <- app_assoc.
  Qed.
End Loops.
