(** map-into a deque from one list, range or table; map-into a vector from one vector. *)
From stdpp Require Import list_numbers.
From Verif Require Import Base CollModel CollSpec CollProofs CollAgree CollIterProofs CollSourceProofs CollMapProofs.
From Coq Require Import ZArith ZifyBool ZifyNat.
Local Open Scope outcome_scope.
Local Open Scope Z_scope.

(** ** Vector into vector *)

Lemma rigid_array_array_ok (place : Z -> nat -> Z) (keep : Prop) fn (h : heap) t s vk l vk' ls : (t ∈ [s] -> keep) -> h !! t = Some (CVec vk l) -> is_stretchy (CVec vk l) = false -> h !! s = Some (CVec vk' ls) ->
  forall n i pre out h' c', keys_from i out -> (forall j e, out !! j = Some e -> ls !! (i + j)%nat = Some e.2) ->
    (n <= length out)%nat -> (i + n <= length l)%nat -> ((n < length out)%nat -> (i + n)%nat = length l) ->
    midway keep fn h t (CVec vk l) pre h' c' -> fits keep fn (CVec vk l) pre out ->
  exists h'' c'', rigid_array_array n fn h' t s (Z.of_nat i) = Val h'' /\ midway keep fn h t (CVec vk l) (rev out ++ pre) h'' c''.
Proof.
  intros Hkeep Ht Hrig Hs. induction n as [|n IH]; intros i pre out h' c' Hkf Hls Hn Hl Hend Hmid Hfit; cbn [rigid_array_array].
  - exists h', c'. split; [done|]. apply mid_skip_all; [done|]. intros k v Hin. apply elem_of_list_lookup in Hin as [j Hj]. rewrite (Hkf _ _ _ Hj).
    assert ((j < length out)%nat) by (by eapply lookup_lt_Some). unfold accepts. rewrite Hrig. rewrite value_at_list by (try done; lia).
    rewrite Nat2Z.id. rewrite lookup_ge_None_2 by (cbn; lia). auto.
  - destruct out as [|[k v] out]; [cbn in Hn; lia|]. destruct (keys_from_cons _ _ _ _ Hkf) as [-> Hkf'].
    destruct (fits_cons _ _ _ _ _ _ _ Hfit) as (F1 & F2 & F3 & F4).
    destruct (mid_similar keep fn h [s] t _ pre h' c' Hkeep Ht Hmid s _ ltac:(left) Hs) as (cs' & Hcs' & Hag).
    rewrite (at_val _ _ _ Hcs'). cbn [obind].
    pose proof (Hls 0%nat _ eq_refl) as Hv. cbn [snd] in Hv. rewrite Nat.add_0_r in Hv.
    assert (Hr : array_read cs' (Z.of_nat i) = Val v).
    { destruct cs' as [vk2 ls2| | | | |]; try done. destruct Hag as (_ & _ & Hag). cbn. apply zread_val; [lia|]. rewrite Nat2Z.id. by rewrite Hag. }
    rewrite Hr. cbn [obind]. rewrite (mid_at _ _ _ _ _ _ _ _ Ht Hmid). cbn [obind].
    assert (accepts (CVec vk l) (KInt (Z.of_nat i))) as Hac.
    { unfold accepts. rewrite Hrig. rewrite value_at_list by (try done; lia). rewrite Nat2Z.id. apply not_eq_None_Some, lookup_lt_is_Some. cbn. lia. }
    destruct (mid_step place keep fn h t (CVec vk l) pre h' c' (KInt (Z.of_nat i)) v eq_refl Hmid F1 Hac F2 ltac:(auto)) as (c'' & E1 & E2).
    assert (Hw : array_write (fn v) c' (Z.of_nat i) = Val c'').
    { destruct (same_class_facts _ _ (stored_class _ _ _ _ (mid_stored _ _ _ _ _ _ _ _ Hmid))) as (_ & Hst & _ & Hss).
      pose proof (stored_class _ _ _ _ (mid_stored _ _ _ _ _ _ _ _ Hmid)) as Hcl.
      destruct c' as [vk2 l2| | | | |]; try done. cbn in Hcl. subst vk2. apply Hss in F2 as F2'. clear Hss. rename F2' into Hss. cbn in Hss, Hst, Hrig. cbn. rewrite Hss.
      assert (Hl2 : (i < length l2)%nat).
      { pose proof (stored_out _ _ _ _ (mid_stored _ _ _ _ _ _ _ _ Hmid) (KInt (Z.of_nat i)) (or_introl F1)) as Ho.
        cbn in Ho. rewrite decide_True in Ho by lia. rewrite decide_True in Ho by lia. rewrite Nat2Z.id in Ho.
        destruct (lookup_lt_is_Some_2 l i) as [x Hx]; [lia|]. rewrite Hx in Ho. destruct Ho as [Ho|(? & ?)]; [|done]. by eapply lookup_lt_Some. }
      rewrite <- E1. rewrite zwrite_val by lia. cbn [obind].
      destruct vk; try done; cbn; cbn in Hss; rewrite ?Hss; rewrite (proj2 (Z.leb_le 0 _)), (proj2 (Z.ltb_lt _ _)) by lia; done. }
    rewrite Hw. cbn [obind]. replace (Z.of_nat i + 1) with (Z.of_nat (S i)) by lia.
    destruct (IH (S i) ((KInt (Z.of_nat i), v) :: pre) out (upd h' t c'') c'') as (h2 & c2 & G1 & G2); [done|..|done|done|].
    + intros j e Hj. specialize (Hls (S j) e Hj). by replace (S i + j)%nat with (i + S j)%nat by lia.
    + cbn in Hn. lia.
    + lia.
    + intros Hlt. cbn in Hend. lia.
    + exists h2, c2. split; [done|]. cbn. by rewrite <- app_assoc.
Qed.

(** ** Deques: the result as a list *)

Lemma upd_upd (h : heap) t c c' : upd (upd h t c) t c' = upd h t c'.
Proof. apply (list_insert_insert (A:=coll)). Qed.
Lemma at_upd (h : heap) t c : (t < length h)%nat -> at_ (upd h t c) t = Val c.
Proof. intros H. apply at_val. by apply list_lookup_insert. Qed.
Lemma at_upd_ne (h : heap) t s c cs : s <> t -> h !! s = Some cs -> at_ (upd h t c) s = Val cs.
Proof. intros Hne H. apply at_val. etrans; [by apply (list_lookup_insert_ne (A:=coll))|done]. Qed.

Lemma skip_deq first l n : forall m, skip_states n (fip_of (CDeq first l)) (CDeq first l) (SInt (first + Z.of_nat m)) = Val (SInt (first + Z.of_nat (m + n))).
Proof.
  induction n as [|n IH]; intros m; cbn; [by rewrite Nat.add_0_r|]. replace (first + Z.of_nat m + 1) with (first + Z.of_nat (S m)) by lia.
  cbn in IH. rewrite IH. do 3 f_equal. lia.
Qed.

(** *** From one list or range *)

Section FromSequence.
  Context (place : Z -> nat -> Z) (fn : value -> value) (h : heap) (t s : nat) (cs : coll) (vals : list value).
  Context (Ht : (t < length h)%nat) (Hne : s <> t) (Hs : h !! s = Some cs) (Hwf : wf_coll cs) (Hlen : slen cs = Some (length vals)).
  Context (Hvals : forall i v, vals !! i = Some v -> exists k, entry_at cs i = Some (k, v)).
  Context (Hsrc : match cs with CList _ | CRange _ _ _ => True | _ => False end).

  Lemma grim_fill_ok first : forall r j l fuel, (j + r)%nat = length vals -> length l = length vals -> (r < fuel)%nat ->
    grim_fill fuel fn (upd h t (CDeq first l)) t (Fip (SInt first) (first + Z.of_nat (length vals)) NSeq FSeq KDeq EDeq SetDeq) (SInt (first + Z.of_nat j)) (One s) (F1 (fip_of cs)) (St1 (pos_state cs j)) =
    Val (upd h t (CDeq first (take j l ++ map fn (drop j vals))), St1 (pos_state cs (length vals))).
  Proof.
    induction r as [|r IH]; intros j l fuel Hj Hl Hf; destruct fuel as [|fuel]; try lia; cbn [grim_fill]; rewrite at_upd by done; cbn [obind f_fin f_limit f_set f_next run_fin is_sequence].
    - rewrite (proj2 (Z.eqb_eq _ _)) by lia. rewrite take_ge, drop_ge by lia. cbn. rewrite app_nil_r. by replace j with (length vals) by lia.
    - rewrite (proj2 (Z.eqb_neq _ _)) by lia. destruct (lookup_lt_is_Some_2 vals j) as [v Hv]; [lia|].
      destruct (Hvals _ _ Hv) as [k Hk]. cbn [src_elt]. rewrite (at_upd_ne _ _ _ _ _ Hne Hs). cbn [obind]. rewrite (pos_elt _ _ _ _ Hk). cbn [obind run_set].
      replace (first + Z.of_nat j - first) with (Z.of_nat j) by lia. rewrite zwrite_val by lia. cbn [obind]. rewrite Nat2Z.id.
      rewrite upd_upd. cbn [src_next]. rewrite (at_upd_ne _ _ _ _ _ Hne Hs). cbn [obind]. rewrite pos_next by (rewrite Hlen; cbn; lia). cbn [obind run_next is_sequence].
      replace (first + Z.of_nat j + 1) with (first + Z.of_nat (S j)) by lia.
      rewrite IH; [|lia|by rewrite insert_length|lia]. do 4 f_equal.
      rewrite (take_S_r _ _ (fn v)) by (apply list_lookup_insert; lia). rewrite take_insert by lia. rewrite <- app_assoc. f_equal. cbn.
      rewrite (drop_S vals v j) by done. done.
  Qed.

  Lemma past_end (h' : heap) : at_ h' s = Val cs -> (0 < length vals)%nat -> forall fuel, exists st, src_next fuel h' (One s) (F1 (fip_of cs)) (St1 (pos_state cs (length vals))) = Val st /\
    src_fin h' (One s) (F1 (fip_of cs)) st = Val true.
  Proof.
    intros Hat Hpos fuel. cbn [src_next src_fin]. rewrite Hat. cbn [obind]. destruct cs as [| |l|f b n| |]; try done; cbn [slen fip_of pos_state f_next f_fin f_limit run_next] in *.
    - injection Hlen as Hl. rewrite <- Hl in *. eexists. split; [reflexivity|]. cbn [obind run_fin]. f_equal. apply Nat.eqb_eq. lia.
    - injection Hlen as Hl. rewrite <- Hl in *. destruct n as [|n]; [lia|]. eexists. split; [reflexivity|].
      cbn [obind f_fin f_limit run_fin]. cbn [wf_coll] in Hwf. destruct (0 <? b) eqn:Eb; cbn [run_fin range_by]; f_equal; [apply Z.ltb_lt|apply Z.ltb_lt]; nia.
  Qed.

  (** The target after [i] elements, while it still has room. *)
  Lemma stretchy_seq_one_ok first l : forall r i fuel, (i + r)%nat = length vals -> (i <= length l)%nat -> (r + length vals + 2 < fuel)%nat ->
    exists first', stretchy_seq_seq fuel place fn (upd h t (CDeq first (map fn (take i vals) ++ drop i l))) t
        (Fip (SInt first) (first + Z.of_nat (length l)) NSeq FSeq KDeq EDeq SetDeq) (SInt (first + Z.of_nat i)) (One s) (F1 (fip_of cs)) (St1 (pos_state cs i)) i =
      Val (upd h t (CDeq first' (map fn vals ++ drop (length vals) l))).
  Proof.
    induction r as [|r IH]; intros i fuel Hi Hil Hf; destruct fuel as [|fuel]; try lia; cbn [stretchy_seq_seq src_fin]; rewrite (at_upd_ne _ _ _ _ _ Hne Hs); cbn [obind];
      (rewrite pos_fin; [|by apply wf_wf_keys|rewrite Hlen; cbn; lia]); cbn [obind]; rewrite Hlen.
    - rewrite bool_decide_true by (f_equal; lia). exists first. replace i with (length vals) by lia. by rewrite firstn_all.
    - rewrite bool_decide_false by (intros [= ?]; lia). rewrite at_upd by done. cbn [obind f_fin f_limit f_set f_next run_fin is_sequence].
      assert (Hln : length (map fn (take i vals) ++ drop i l) = length l).
      { rewrite app_length, map_length, take_length, drop_length. lia. }
      destruct (decide (i = length l)) as [E|E].
      + rewrite (proj2 (Z.eqb_eq _ _)) by lia. cbn [src_size]. rewrite (at_upd_ne _ _ _ _ _ Hne Hs). cbn [obind].
        assert (coll_size cs = Val (length vals)) as ->. { destruct cs; try done; cbn in *; congruence. }
        cbn [obind resize]. rewrite Hln. rewrite upd_upd. cbn [f_init fip_of].
        pose proof (skip_deq (place first (length vals)) (take (length vals) (map fn (take i vals) ++ drop i l) ++ replicate (length vals - length l) VFalse) i 0) as Hsk.
        rewrite Nat.add_0_l, Z.add_0_r in Hsk. cbn [fip_of] in Hsk. rewrite Hsk. cbn [obind].
        assert (Hlg : length (take (length vals) (map fn (take i vals) ++ drop i l) ++ replicate (length vals - length l) VFalse) = length vals).
        { rewrite app_length, take_length, replicate_length, Hln. lia. }
        rewrite Hlg. rewrite (grim_fill_ok _ (S r)) by (rewrite ?Hlg; lia). cbn [obind].
        destruct (past_end (upd h t (CDeq (place first (length vals)) (take i (take (length vals) (map fn (take i vals) ++ drop i l) ++ replicate (length vals - length l) VFalse) ++ map fn (drop i vals)))) ltac:(by eapply at_upd_ne) ltac:(lia) (S fuel)) as (st & G1 & G2).
        rewrite G1. cbn [obind]. destruct fuel as [|fuel]; [lia|]. cbn [stretchy_seq_seq]. rewrite G2. cbn [obind]. eexists. do 3 f_equal.
        rewrite (drop_ge l) by lia. rewrite app_nil_r. rewrite (drop_ge l) by lia. rewrite app_nil_r.
        trans (map fn (take i vals ++ drop i vals)); [|by rewrite take_drop]. rewrite map_app. f_equal.
        rewrite take_app_le by (rewrite take_length, map_length, take_length; lia). rewrite take_take, Nat.min_l by lia.
        rewrite take_ge; [done|]. rewrite map_length, take_length. lia.
      + rewrite (proj2 (Z.eqb_neq _ _)) by lia. destruct (lookup_lt_is_Some_2 vals i) as [v Hv]; [lia|].
        destruct (Hvals _ _ Hv) as [k Hk]. cbn [src_elt]. rewrite (at_upd_ne _ _ _ _ _ Hne Hs). cbn [obind]. rewrite (pos_elt _ _ _ _ Hk). cbn [obind run_set].
        replace (first + Z.of_nat i - first) with (Z.of_nat i) by lia. rewrite zwrite_val by lia. cbn [obind run_next is_sequence]. rewrite Nat2Z.id.
        rewrite upd_upd. cbn [src_next]. rewrite (at_upd_ne _ _ _ _ _ Hne Hs). cbn [obind]. rewrite pos_next by (rewrite Hlen; cbn; lia). cbn [obind].
        replace (first + Z.of_nat i + 1) with (first + Z.of_nat (S i)) by lia.
        assert (Hx : <[i:=fn v]> (map fn (take i vals) ++ drop i l) = map fn (take (S i) vals) ++ drop (S i) l).
        { destruct (lookup_lt_is_Some_2 l i) as [x Hxl]; [lia|]. rewrite (drop_S l x i) by done.
          assert (length (map fn (take i vals)) = i) as Hm by (rewrite map_length, take_length; lia).
          rewrite insert_app_r_alt by lia. rewrite Hm, Nat.sub_diag. cbn. rewrite (take_S_r _ _ v) by done. rewrite map_app, <- app_assoc. done. }
        rewrite Hx. apply IH; lia.
  Qed.
End FromSequence.

(** *** From one table *)

Section FromTable.
  Context (place : Z -> nat -> Z) (fn : value -> value) (h : heap) (t s : nat) (kt : nat) (tab : list (key * value)).
  Context (Ht : (t < length h)%nat) (Hne : s <> t) (Hs : h !! s = Some (CTab kt tab)).

  Definition at_nat (i : nat) : option value := lookup_key (KInt (Z.of_nat i)) tab.
  Definition upd_upto (k : nat) (l : list value) : list value := imap (fun i x => if (i <? k)%nat then from_option fn x (at_nat i) else x) l.

  Lemma upd_upto_length k l : length (upd_upto k l) = length l.
  Proof. apply imap_length. Qed.
  Lemma upd_upto_lookup k l i : upd_upto k l !! i = (fun x => if (i <? k)%nat then from_option fn x (at_nat i) else x) <$> l !! i.
  Proof. apply list_lookup_imap. Qed.
  Lemma upd_upto_0 l : upd_upto 0 l = l.
  Proof. apply list_eq. intros i. rewrite upd_upto_lookup. by destruct (l !! i). Qed.
  Lemma upd_upto_S k l : (k < length l)%nat -> upd_upto (S k) l = match at_nat k with Some v => <[k := fn v]> (upd_upto k l) | None => upd_upto k l end.
  Proof.
    intros Hk. apply list_eq. intros i. destruct (decide (i = k)) as [->|Hi].
    - rewrite upd_upto_lookup. rewrite (proj2 (Nat.ltb_lt _ _)) by lia. destruct (at_nat k).
      + rewrite list_lookup_insert by (rewrite upd_upto_length; lia). destruct (lookup_lt_is_Some_2 l k Hk) as [x ->]. done.
      + rewrite upd_upto_lookup. rewrite (proj2 (Nat.ltb_ge _ _)) by lia. by destruct (l !! k).
    - assert (E : (i <? S k)%nat = (i <? k)%nat) by lia.
      destruct (at_nat k); rewrite ?list_lookup_insert_ne by done; rewrite !upd_upto_lookup, E; done.
  Qed.
  Lemma upd_upto_grown k l n : (k <= length l)%nat -> (length l <= n)%nat -> grown (upd_upto k l) n = upd_upto k (grown l n).
  Proof.
    intros Hk Hn. apply list_eq. intros i. rewrite upd_upto_lookup, !grown_lookup by (rewrite ?upd_upto_length; lia). rewrite upd_upto_lookup.
    rewrite upd_upto_length. destruct (decide (i < length l)%nat); [done|]. destruct (decide (i < n)%nat); [|done]. cbn [fmap option_fmap option_map]. by rewrite (proj2 (Nat.ltb_ge i k)) by lia.
  Qed.

  Lemma step_deq first l k : (k < length l)%nat ->
    match at_nat k with Some v => run_set SetDeq (fn v) (CDeq first (upd_upto k l)) (SInt (first + Z.of_nat k)) | None => Val (CDeq first (upd_upto k l)) end = Val (CDeq first (upd_upto (S k) l)).
  Proof.
    intros Hk. rewrite upd_upto_S by done. destruct (at_nat k); [|done]. cbn. replace (first + Z.of_nat k - first) with (Z.of_nat k) by lia.
    rewrite zwrite_val by (rewrite upd_upto_length; lia). cbn. by rewrite Nat2Z.id.
  Qed.

  Lemma loop_1_ok first l (M : nat) : forall r k fuel, (k + r = Nat.min M (length l))%nat -> (r < fuel)%nat ->
    stretchy_seq_coll_1 fuel fn (upd h t (CDeq first (upd_upto k l))) t (fip_of (CDeq first l)) (SInt (first + Z.of_nat k)) (One s) (Z.of_nat k) (Z.of_nat M - 1) =
    Val (upd h t (CDeq first (upd_upto (k + r) l)), Z.of_nat (k + r)).
  Proof.
    induction r as [|r IH]; intros k fuel Hk Hf; destruct fuel as [|fuel]; try lia; cbn [stretchy_seq_coll_1].
    - rewrite Nat.add_0_r in *. destruct (Z.of_nat M - 1 <? Z.of_nat k) eqn:E; [done|]. rewrite at_upd by done. cbn [obind fip_of f_fin f_limit run_fin is_sequence].
      rewrite (proj2 (Z.eqb_eq _ _)) by lia. done.
    - rewrite (proj2 (Z.ltb_ge _ _)) by lia. rewrite at_upd by done. cbn [obind fip_of f_fin f_limit f_set f_next run_fin is_sequence].
      rewrite (proj2 (Z.eqb_neq _ _)) by lia. cbn [src_element_nf]. rewrite (at_upd_ne _ _ _ _ _ Hne Hs). cbn [obind element_nf].
      change (lookup_key (KInt (Z.of_nat k)) tab) with (at_nat k). rewrite step_deq by lia. cbn [obind run_next is_sequence]. rewrite upd_upd.
      replace (first + Z.of_nat k + 1) with (first + Z.of_nat (S k)) by lia. replace (Z.of_nat k + 1) with (Z.of_nat (S k)) by lia.
      rewrite IH by lia. by replace (S k + r)%nat with (k + S r)%nat by lia.
  Qed.

  Lemma loop_2_ok first l (M : nat) : (M <= length l)%nat -> forall r k fuel, (k + r = M)%nat -> (r < fuel)%nat ->
    stretchy_seq_coll_2 fuel fn (upd h t (CDeq first (upd_upto k l))) t (Fip (SInt first) (first + Z.of_nat (length l)) NSeq FSeq KDeq EDeq SetDeq) (SInt (first + Z.of_nat k)) (One s) (Z.of_nat k) (Z.of_nat M - 1) =
    Val (upd h t (CDeq first (upd_upto M l))).
  Proof.
    intros HM. induction r as [|r IH]; intros k fuel Hk Hf; destruct fuel as [|fuel]; try lia; cbn [stretchy_seq_coll_2].
    - rewrite (proj2 (Z.ltb_lt _ _)) by lia. by replace k with M by lia.
    - rewrite (proj2 (Z.ltb_ge _ _)) by lia. rewrite at_upd by done. cbn [obind fip_of f_fin f_limit f_set f_next run_fin is_sequence].
      cbn [src_element_nf]. rewrite (at_upd_ne _ _ _ _ _ Hne Hs). cbn [obind element_nf].
      change (lookup_key (KInt (Z.of_nat k)) tab) with (at_nat k). rewrite step_deq by lia. cbn [obind run_next is_sequence]. rewrite upd_upd.
      replace (first + Z.of_nat k + 1) with (first + Z.of_nat (S k)) by lia. replace (Z.of_nat k + 1) with (Z.of_nat (S k)) by lia.
      rewrite IH by lia. done.
  Qed.

  Lemma deque_from_table first l (M : nat) fuel : h !! t = Some (CDeq first l) -> src_max_key fuel h (One s) = Val (Z.of_nat M - 1) -> (M < fuel)%nat ->
    exists first', stretchy_seq_coll fuel place fn h t (One s) = Val (upd h t (CDeq first' (upd_upto M (if (length l <? M)%nat then grown l M else l)))).
  Proof.
    intros Htc Hmax Hf. unfold stretchy_seq_coll. rewrite Hmax. cbn [obind]. rewrite (at_val _ _ _ Htc). cbn [obind f_init fip_of].
    assert (h = upd h t (CDeq first (upd_upto 0 l))) as E0. { rewrite upd_upto_0. symmetry. by apply (list_insert_id (A:=coll)). }
    pose proof (loop_1_ok first l M (Nat.min M (length l)) 0 fuel) as L. rewrite <- E0 in L. cbn [fip_of] in L. rewrite Z.add_0_r in L. change (Z.of_nat 0) with 0 in L.
    rewrite L by lia. cbn [obind]. rewrite Nat.add_0_l. destruct (length l <? M)%nat eqn:Elt.
    - rewrite Nat.min_r by lia. rewrite (proj2 (Z.ltb_ge _ _)) by lia. rewrite at_upd by done. cbn [obind resize]. rewrite upd_upd.
      replace (Z.to_nat (Z.of_nat M - 1 + 1)) with M by lia. change (take M ?x ++ replicate (M - length ?x) VFalse) with (grown x M).
      rewrite upd_upto_grown by lia. cbn [fip_of f_init]. rewrite Nat2Z.id.
      pose proof (skip_deq (place first M) (upd_upto (length l) (grown l M)) (length l) 0) as Hsk. rewrite Nat.add_0_l, Z.add_0_r in Hsk. cbn [fip_of] in Hsk. rewrite Hsk. cbn [obind].
      rewrite upd_upto_length. eexists. apply (loop_2_ok _ (grown l M) M) with (r := (M - length l)%nat); [rewrite grown_length by lia; lia|lia|lia].
    - rewrite Nat.min_l by lia. rewrite (proj2 (Z.ltb_lt _ _)) by lia. by exists first.
  Qed.
End FromTable.
