(** C52: copy-sequence, fill! and replace-subsequence!. *)
From stdpp Require Import list_numbers.
From Verif Require Import Base CollModel CollSpec CollProofs CollIterProofs AccModel EqProofs SeqOpModel SeqOpSpec SeqOpProofs.
From Coq Require Import ZArith ZifyBool ZifyNat.
Local Open Scope outcome_scope.
Local Open Scope Z_scope.

(** copy-sequence: a fresh sequence of the same class with the elements from start: to end:, or an error
    if they are not in the sequence. *)
Theorem C52_copy_sequence : forall c l start last,
  wf_coll c -> vector_or_deque c -> elements_are c l ->
  if decide (in_bounds l start (end_of l last)) then
    exists c', copy_sequence c start last = Val c' /\ same_class c c' /\ wf_coll c' /\ elements_are c' (copied l start (end_of l last))
  else exists e, copy_sequence c start last = Signal e.
Proof.
  intros c l start last Hw Hc Hl. assert (He : editable c) by by destruct c. apply elements_editable in Hl; [|done]. subst l.
  destruct (decide _) as [Hb|Hb]; [|by apply copy_bad].
  destruct (copy_ok c start last Hw Hc Hb) as (c' & Hr & Hs & He' & Hco). exists c'. split_and!; try done.
  - eapply wf_contents; [exact Hs|exact Hco| |done|done]. apply takes_copied. by apply self_takes.
  - by apply elements_editable.
Qed.
Print Assumptions C52_copy_sequence.

(** fill!: the elements from start: to end: are the value, the others are as before; or an error if the
    bounds are not in the sequence.  Vectors, strings, stretchy vectors, deques and lists. *)
Theorem C52_fill : forall fuel place c l v start last,
  wf_coll c -> (vector_or_deque c \/ is_list c = true) -> elements_are c l -> takes c [v] -> (length l < fuel)%nat ->
  if decide (in_bounds l start (end_of l last)) then
    exists c', fill_bang fuel place c v start last = Val c' /\ same_class c c' /\ wf_coll c' /\ elements_are c' (filled l v start (end_of l last))
  else exists e, fill_bang fuel place c v start last = Signal e.
Proof.
  intros fuel place c l v start last Hw Hc Hl Ht Hf. assert (He : editable c) by (destruct Hc; by destruct c).
  apply elements_editable in Hl; [|done]. subst l. assert (Ht1 : takes1 c v) by (apply takes_forall in Ht; by inversion Ht).
  pose proof (fill_ok fuel place c v start last He Ht1 Hf) as H. destruct (decide _) as [Hb|Hb]; [|done].
  eexists. split; [exact H|]. assert (Hsc : same_class c (wl c (filled (contents c) v start (end_of (contents c) last)))) by (destruct Hc; by destruct c).
  split_and!.
  - done.
  - eapply wf_contents; [exact Hsc|by apply contents_wl| |done|by apply editable_wl]. unfold filled. apply takes_replaced; [by apply self_takes|].
    apply takes_forall. by apply Forall_replicate.
  - apply elements_editable; [by apply editable_wl|]. by apply contents_wl.
Qed.
Print Assumptions C52_fill.

(** replace-subsequence!: the elements from start: to end: are replaced with those of the other sequence.
    Nothing but the result has changed, and the result is the target or a new object.  The two may be the same
    vector; they may not be the same deque. *)
Theorem C52_replace_subsequence : forall fuel place h t s c d l m start last,
  h !! t = Some c -> h !! s = Some d -> wf_coll c -> wf_coll d ->
  vector_or_deque c -> (is_array c = true \/ t <> s) ->
  elements_are c l -> elements_are d m -> takes c m ->
  in_bounds l start (end_of l last) -> (length m < fuel)%nat ->
  exists h' a c', replace_subsequence fuel place h t s start last = Val (h', a) /\
    h' !! a = Some c' /\ same_class c c' /\ wf_coll c' /\ elements_are c' (replaced l m start (end_of l last)) /\
    (a = t \/ h !! a = None) /\ (is_array c = false -> a = t) /\
    forall b, b <> a -> (b < length h)%nat -> h' !! b = h !! b.
Proof.
  intros fuel place h t s c d l m start last Ht Hs Hwc Hwd Hc Hal Hl Hm Htk Hb Hf.
  assert (He : editable c) by by destruct c. apply elements_editable in Hl; [|done].
  assert (Hcc : match c with CVec _ _ => True | CDeq _ _ => t <> s | _ => False end) by (destruct c; try done; by destruct Hal).
  destruct (replace_ok fuel place h t s c d l m start last) as (h' & a & Hr & c' & Ha & Hsc & He' & Hco & Hat & Hfr); try done.
  exists h', a, c'. split_and!; try done.
  - eapply wf_contents; [exact Hsc|exact Hco| |done|done]. apply takes_replaced; [by apply self_takes|done].
  - by apply elements_editable.
  - intros Hna. destruct c as [|f0 l0| | | |]; try done. unfold replace_subsequence in Hr.
    rewrite (at_val _ _ _ Ht), (at_val _ _ _ Hs) in Hr. cbn [obind] in Hr.
    destruct (replace_deque_ok fuel place h t s f0 d l0 m start last) as (h2 & a2 & Hr2 & c2 & Ha2 & _ & _ & _ & Hat2 & _); try done.
    { by apply holds_elements. } { cbn in Hl. by subst l0. }
    assert (Hd : replace_deque fuel place h t s start last = Val (h', a)) by by destruct d.
    revert Hd. unfold replace_deque. rewrite (at_val _ _ _ Ht), (at_val _ _ _ Hs). clear. cbn [obind].
    destruct (len (CDeq f0 l0)); [|done..]. cbn [obind]. destruct (len d); [|done..]. cbn [obind].
    repeat (case_match; cbn [obind]; try done); repeat (match goal with |- context [obind ?x _] => destruct x as [?| | |]; cbn [obind]; try done end; try case_match; cbn [obind]; try done);
      intros [= _ <-]; done.
Qed.
Print Assumptions C52_replace_subsequence.

(** On vectors, strings and stretchy vectors wrong bounds are an error. *)
Theorem C52_replace_bounds : forall fuel place h t s c d l m start last,
  h !! t = Some c -> h !! s = Some d -> is_array c = true -> wf_coll d -> elements_are c l -> elements_are d m ->
  ~ in_bounds l start (end_of l last) ->
  exists e, replace_subsequence fuel place h t s start last = Signal e.
Proof.
  intros fuel place h t s c d l m start last Ht Hs Hc Hw Hl Hd Hb. destruct c as [k l0| | | | |]; try done.
  apply elements_editable in Hl; [|done]. cbn in Hl. subst l0. by eapply replace_vec_bad.
Qed.
Print Assumptions C52_replace_bounds.

(** On deques they are not: replacing at start: 5 in a deque of two elements pads it with three #f. *)
Theorem C52_deque_bounds_refuted : forall place,
  exists h l m start last, h !! 0%nat = Some (CDeq 1 l) /\ h !! 1%nat = Some (CList m) /\ ~ in_bounds l start (end_of l last) /\
    exists h' f, replace_subsequence 10 place h 0 1 start last = Val (h', 0%nat) /\
      h' !! 0%nat = Some (CDeq f [VInt 1; VInt 2; VFalse; VFalse; VFalse; VInt 3]).
Proof.
  intros place. exists [CDeq 1 [VInt 1; VInt 2]; CList [VInt 3]], [VInt 1; VInt 2], [VInt 3], 5, (Some 2).
  split_and!; [done|done|unfold in_bounds; cbn; lia|]. eexists _, _. split; [vm_compute; reflexivity|]. done.
Qed.
Print Assumptions C52_deque_bounds_refuted.

Lemma insert_itself place p x :
  deque_insert_loop 3 place [CDeq p [x; VFalse]] 0 0 (fip_of (CDeq p [x; VFalse])) (pos_state (CDeq p [x; VFalse]) 0) 1 =
    Val ([CDeq (place p 3%nat) [x; x; x]], 3).
Proof.
  set (d := CDeq p [x; VFalse]). set (d2 := CDeq p [x; x]). set (d3 := CDeq (place p 3%nat) [x; x; x]).
  assert (Hf : fip_of d = fip_of d2) by done.
  assert (Hp : forall i, pos_state d i = pos_state d2 i) by done.
  assert (H1 : element_set place x d (KInt 1) = Val d2) by (vm_compute; reflexivity).
  assert (H2 : element_set place x d2 (KInt (1 + 1)) = Val d3) by (vm_compute; reflexivity).
  assert (H3 : forall st, run_next (f_next (fip_of d2)) d3 st = run_next (f_next (fip_of d2)) d2 st) by done.
  assert (H4 : forall st, run_fin (f_fin (fip_of d2)) d3 st (f_limit (fip_of d2)) = run_fin (f_fin (fip_of d2)) d2 st (f_limit (fip_of d2))) by done.
  assert (E1 : editable d) by done. assert (E2 : editable d2) by done.
  assert (C1 : contents d = [x; VFalse]) by done. assert (C2 : contents d2 = [x; x]) by done.
  assert (U1 : forall y z : coll, upd [y] 0 z = [z]) by done.
  assert (U2 : forall y : coll, at_ [y] 0 = Val y) by done.
  clearbody d d2 d3.
  cbn [deque_insert_loop]. rewrite ?U2. cbn [obind].
  rewrite (at_fin d 0) by (rewrite ?C1; cbn; done || lia). cbn [obind]. rewrite bool_decide_false by (rewrite C1; cbn; lia).
  rewrite (at_elt d 0 x) by (rewrite ?C1; done). cbn [obind]. rewrite ?U2. cbn [obind]. rewrite H1. cbn [obind]. rewrite ?U1, ?U2. cbn [obind].
  rewrite Hf, Hp. rewrite at_next by (rewrite ?C2; cbn; done || lia). cbn [obind]. rewrite ?U2. cbn [obind].
  rewrite (at_fin d2 1) by (rewrite ?C2; cbn; done || lia). cbn [obind]. rewrite bool_decide_false by (rewrite C2; cbn; lia).
  rewrite (at_elt d2 1 x) by (rewrite ?C2; done). cbn [obind]. rewrite ?U2. cbn [obind]. rewrite H2. cbn [obind]. rewrite ?U1, ?U2. cbn [obind].
  rewrite H3. rewrite at_next by (rewrite ?C2; cbn; done || lia). cbn [obind]. rewrite ?U2. cbn [obind]. rewrite H4.
  rewrite (at_fin d2 2) by (rewrite ?C2; cbn; done || lia). cbn [obind]. by rewrite bool_decide_true by (by rewrite C2).
Qed.

(** Replacing in a deque with the deque itself: appending a one-element deque to itself gives three
    elements. *)
Theorem C52_deque_itself_refuted : forall place x,
  exists h' c', replace_subsequence 3 place [CDeq 1 [x]] 0 0 1 (Some 1) = Val (h', 0%nat) /\
    h' !! 0%nat = Some c' /\ elements_are c' [x; x; x] /\ replaced [x] [x] 1 1 = [x; x].
Proof.
  intros place x. exists [CDeq (place (place 1 2%nat) 3%nat) [x; x; x]], (CDeq (place (place 1 2%nat) 3%nat) [x; x; x]).
  split; [|split; [done|split; [by apply elements_editable|done]]].
  unfold replace_subsequence. rewrite (at_val _ _ (CDeq 1 [x])) by done. cbn [obind]. unfold replace_deque. rewrite (at_val _ _ (CDeq 1 [x])) by done.
  cbn [obind]. rewrite len_editable by done. cbn [obind contents length].
  replace (1 + (Z.of_nat 1 + (Z.of_nat 1 - 1)) <? Z.of_nat 1) with false by done. cbn iota.
  replace (Z.of_nat 1 <? 1 + (Z.of_nat 1 + (Z.of_nat 1 - 1))) with true by done. cbn iota.
  replace (set_size place (CDeq 1 [x]) (1 + (Z.of_nat 1 + (Z.of_nat 1 - 1)))) with (Val (CDeq (place 1 2%nat) [x; VFalse])) by (vm_compute; reflexivity).
  cbn [obind]. replace (Z.to_nat (Z.of_nat 1 - 1)) with 0%nat by done. cbn [deque_move obind].
  replace (upd [CDeq 1 [x]] 0 (CDeq (place 1 2%nat) [x; VFalse])) with [CDeq (place 1 2%nat) [x; VFalse]] by done.
  rewrite (at_val _ _ (CDeq (place 1 2%nat) [x; VFalse])) by done. cbn [obind]. rewrite fip_init, insert_itself. done.
Qed.
Print Assumptions C52_deque_itself_refuted.

(** ** Cases that meet the hypotheses *)

Definition abc : coll := CVec VkString [VChr 97; VChr 98; VChr 99].

Example C52_sample_copy : copy_sequence abc 1 None = Val (CVec VkString [VChr 98; VChr 99]) /\ wf_coll abc /\ vector_or_deque abc /\ elements_are abc [VChr 97; VChr 98; VChr 99].
Proof. split_and!; [done|by repeat constructor|done|by apply elements_editable]. Qed.

Example C52_sample_fill : fill_bang 5 (fun f _ => f) (CDeq 2 [VInt 1; VInt 2; VInt 3]) (VInt 7) 1 (Some 2) = Val (CDeq 2 [VInt 1; VInt 7; VInt 3]).
Proof. vm_compute. reflexivity. Qed.

(** The middle of a vector replaced with a range. *)
Example C52_sample_replace :
  replace_subsequence 5 (fun f _ => f) [CVec VkObject [VInt 1; VInt 2; VInt 3]; CRange 5 2 2] 0 1 1 (Some 2) =
    Val ([CVec VkObject [VInt 1; VInt 2; VInt 3]; CRange 5 2 2; CVec VkObject [VInt 1; VInt 5; VInt 7; VInt 3]], 2%nat) /\ elements_are (CRange 5 2 2) [VInt 5; VInt 7] /\ wf_coll (CRange 5 2 2).
Proof.
  split; [vm_compute; reflexivity|]. split; [|done]. split; [done|]. intros i. rewrite value_at_nat by done.
  destruct i as [|[|[|i]]]; done.
Qed.

Example C52_sample_deque : forall place, exists f,
  replace_subsequence 5 place [CDeq 2 [VInt 1; VInt 2; VInt 3]; CList [VChr 65; VChr 66]] 0 1 1 (Some 2) =
    Val ([CDeq f [VInt 1; VChr 65; VChr 66; VInt 3]; CList [VChr 65; VChr 66]], 0%nat).
Proof. intros. eexists. vm_compute. reflexivity. Qed.
