(** Proofs about copy-sequence, fill! and replace-subsequence!. *)
From stdpp Require Import list_numbers.
From Verif Require Import Base CollModel CollSpec CollProofs CollIterProofs AccModel EqModel EqSpec EqProofs SeqOpModel SeqOpSpec.
From Coq Require Import ZArith ZifyBool ZifyNat.
Local Open Scope outcome_scope.
Local Open Scope Z_scope.

(** ** Writing a list at consecutive positions *)

Definition splice (r : list value) (j : nat) (m : list value) : list value := take j r ++ m ++ drop (j + length m) r.

Lemma splice_length r j m : (j + length m <= length r)%nat -> length (splice r j m) = length r.
Proof. intros H. unfold splice. rewrite !app_length, take_length, drop_length. lia. Qed.

Lemma lookup_splice r j m i : (j + length m <= length r)%nat ->
  splice r j m !! i = if decide (i < j)%nat then r !! i else if decide (i < j + length m)%nat then m !! (i - j)%nat else r !! i.
Proof.
  intros H. unfold splice. destruct (decide (i < j)%nat).
  { rewrite lookup_app_l by (rewrite take_length; lia). by apply lookup_take. }
  rewrite lookup_app_r by (rewrite take_length; lia). rewrite take_length, Nat.min_l by lia.
  destruct (decide (i < j + length m)%nat).
  { apply lookup_app_l. lia. }
  rewrite lookup_app_r by lia. rewrite lookup_drop. f_equal. lia.
Qed.

Lemma splice_nil r j : splice r j [] = r.
Proof. unfold splice. cbn. by rewrite Nat.add_0_r, take_drop. Qed.

Lemma splice_cons r j x m : (j + S (length m) <= length r)%nat -> splice (<[j:=x]> r) (S j) m = splice r j (x :: m).
Proof.
  intros H. apply list_eq. intros i. rewrite !lookup_splice by (rewrite ?insert_length; cbn; lia). cbn [length].
  destruct (decide (i = j)) as [->|Hne].
  - repeat case_decide; try lia. rewrite Nat.sub_diag. apply list_lookup_insert. lia.
  - rewrite list_lookup_insert_ne by done. repeat case_decide; try lia; try done.
    by replace (i - j)%nat with (S (i - S j)) by lia.
Qed.

Lemma splice_snoc r j x m : (j + length m < length r)%nat -> splice (<[(j + length m)%nat:=x]> r) j m = splice r j (m ++ [x]).
Proof.
  intros H. apply list_eq. intros i. rewrite !lookup_splice by (rewrite ?insert_length, ?app_length; cbn; lia).
  rewrite app_length. cbn [length]. destruct (decide (i = j + length m)%nat) as [->|].
  - repeat case_decide; try lia. rewrite list_lookup_insert by lia. rewrite lookup_app_r by lia.
    by replace (j + length m - j - length m)%nat with 0%nat by lia.
  - rewrite list_lookup_insert_ne by done. repeat case_decide; try lia; try done. symmetry. apply lookup_app_l. lia.
Qed.

Lemma splice_all r m : length r = length m -> splice r 0 m = m.
Proof. intros H. unfold splice. cbn. rewrite drop_ge by lia. apply app_nil_r. Qed.

Lemma splice_id l j n : (j + n <= length l)%nat -> splice l j (take n (drop j l)) = l.
Proof.
  intros H. unfold splice. rewrite take_length, drop_length, Nat.min_l by lia.
  rewrite <- drop_drop. by rewrite take_drop, take_drop.
Qed.

Lemma lookup_replaced (l m : list value) start last i : (start <= last <= length l)%nat ->
  (take start l ++ m ++ drop last l) !! i =
    if decide (i < start)%nat then l !! i else if decide (i < start + length m)%nat then m !! (i - start)%nat else l !! (last + (i - start - length m))%nat.
Proof.
  intros H. destruct (decide (i < start)%nat).
  { rewrite lookup_app_l by (rewrite take_length; lia). by apply lookup_take. }
  rewrite lookup_app_r by (rewrite take_length; lia). rewrite take_length, Nat.min_l by lia.
  destruct (decide (i < start + length m)%nat).
  { apply lookup_app_l. lia. }
  rewrite lookup_app_r by lia. rewrite lookup_drop. done.
Qed.

(** ** Editable sequences *)

Definition contents (c : coll) : list value := match c with CVec _ l | CDeq _ l | CList l => l | _ => [] end.
Definition wl (c : coll) (l : list value) : coll :=
  match c with CVec k _ => CVec k l | CDeq f _ => CDeq f l | CList _ => CList l | _ => c end.
Definition editable (c : coll) : Prop := match c with CVec _ _ | CDeq _ _ | CList _ => True | _ => False end.

Lemma wl_contents c : wl c (contents c) = c.
Proof. by destruct c. Qed.
Lemma wl_wl c l l' : wl (wl c l) l' = wl c l'.
Proof. by destruct c. Qed.
Lemma contents_wl c l : editable c -> contents (wl c l) = l.
Proof. by destruct c. Qed.
Lemma editable_wl c l : editable c -> editable (wl c l).
Proof. by destruct c. Qed.
Lemma fip_wl c l : editable c -> length l = length (contents c) -> fip_of (wl c l) = fip_of c.
Proof. destruct c; cbn; try done; by intros _ ->. Qed.
Lemma pos_wl c l i : editable c -> pos_state (wl c l) i = pos_state c i.
Proof. by destruct c. Qed.
Lemma slen_editable c : editable c -> slen c = Some (length (contents c)).
Proof. by destruct c. Qed.
Lemma editable_seq c : editable c -> is_sequence c = true.
Proof. by destruct c. Qed.
Lemma sv_editable c i : editable c -> sv c i = contents c !! i.
Proof. intros H. unfold sv. rewrite value_at_nat by by apply editable_seq. by destruct c. Qed.
Lemma len_editable c : editable c -> len c = Val (Z.of_nat (length (contents c))).
Proof. by destruct c. Qed.

Lemma elements_editable c l : editable c -> elements_are c l <-> contents c = l.
Proof.
  intros He. split.
  - intros [_ H]. apply list_eq. intros i. rewrite <- H, <- sv_editable by done. done.
  - intros <-. split; [by apply editable_seq|]. intros i. rewrite <- sv_editable by done. done.
Qed.

Lemma elements_slen c l : wf_keys c -> elements_are c l -> finite_coll c -> slen c = Some (length l).
Proof.
  intros Hw [Hs H] Hf. destruct (slen c) as [n|] eqn:E; [|by destruct c]. f_equal.
  destruct (Nat.lt_trichotomy n (length l)) as [Hlt|[?|Hlt]]; [|done|]; exfalso.
  - pose proof (sv_end c n n Hs E (le_n _)) as Hn. unfold sv in Hn. rewrite H in Hn. apply lookup_ge_None in Hn. lia.
  - assert (Hb : below (length l) (slen c)) by (rewrite E; done). apply sv_below in Hb; [|done]. unfold sv in Hb. rewrite H in Hb.
    destruct Hb as [x Hx]. apply lookup_lt_Some in Hx. lia.
Qed.

Lemma elements_finite c l : elements_are c l -> finite_coll c.
Proof.
  intros [Hs H]. destruct c; try done. specialize (H (length l)). rewrite (lookup_ge_None_2 l) in H by lia.
  cbn in H. destruct (decide _); [done|lia].
Qed.

Definition takes1 (c : coll) (v : value) : Prop := match c with CVec k _ => storable k v = true | _ => True end.

Lemma takes_forall c m : takes c m <-> Forall (takes1 c) m.
Proof. destruct c as [[]| | | | |]; cbn; try done; (split; [intros _; by apply Forall_true|done]). Qed.

Lemma takes1_wl c l v : takes1 (wl c l) v <-> takes1 c v.
Proof. by destruct c. Qed.

(** Storing at a position of an iteration. *)
Lemma set_pos c i v : editable c -> (i < length (contents c))%nat -> takes1 c v ->
  run_set (f_set (fip_of c)) v c (pos_state c i) = Val (wl c (<[i:=v]> (contents c))).
Proof.
  intros He Hi Ht. destruct c as [k l|d l|l| | |]; cbn in *; try done.
  - rewrite bool_decide_true by done. rewrite Ht. cbn. rewrite zwrite_val by lia. cbn. by rewrite Nat2Z.id.
  - rewrite zwrite_val by lia. cbn. do 3 f_equal. lia.
  - by rewrite vwrite_val by lia.
Qed.

Lemma wf_keys_editable c : editable c -> wf_keys c.
Proof. by destruct c as [[]| | | | |]. Qed.

Lemma at_elt c i x : editable c -> contents c !! i = Some x -> run_elt (f_elt (fip_of c)) c (pos_state c i) = Val x.
Proof.
  intros He Hx. apply (pos_elt c i (KInt (Z.of_nat i))). apply sv_entry; [by apply editable_seq|]. by rewrite sv_editable.
Qed.

Lemma at_next c i : editable c -> (i < length (contents c))%nat ->
  run_next (f_next (fip_of c)) c (pos_state c i) = Val (pos_state c (S i)).
Proof. intros He Hi. apply pos_next. rewrite slen_editable by done. done. Qed.

(** The loop that copies from one position to another. *)
Lemma fip_copy_ok : forall n src i c j, editable src -> editable c -> (i + n <= length (contents src))%nat -> (j + n <= length (contents c))%nat ->
  Forall (takes1 c) (contents src) ->
  fip_copy_loop n src (fip_of src) (pos_state src i) c (fip_of c) (pos_state c j) =
    Val (wl c (splice (contents c) j (take n (drop i (contents src))))).
Proof.
  induction n as [|n IH]; intros src i c j Hes Hec Hi Hj Ht; cbn [fip_copy_loop].
  - by rewrite take_0, splice_nil, wl_contents.
  - destruct (lookup_lt_is_Some_2 (contents src) i) as [x Hx]; [lia|]. rewrite (at_elt src i x) by done. cbn [obind].
    rewrite set_pos; [|done|lia|by eapply Forall_lookup_1]. cbn [obind]. rewrite at_next by (done || lia). cbn [obind].
    set (c' := wl c (<[j:=x]> (contents c))). assert (Hec' : editable c') by by apply editable_wl.
    assert (Hl : contents c' = <[j:=x]> (contents c)) by (by apply contents_wl).
    assert (Hf : fip_of c' = fip_of c) by (apply fip_wl; [done|apply insert_length]). rewrite <- Hf.
    assert (Hp : forall i, pos_state c i = pos_state c' i) by (intros; symmetry; by apply pos_wl). rewrite Hp.
    rewrite at_next by (rewrite ?Hl, ?insert_length; done || lia). cbn [obind].
    rewrite IH; [|done|done|lia|rewrite Hl, insert_length; lia|].
    + unfold c' at 1. rewrite wl_wl, Hl. f_equal. f_equal. rewrite (drop_S _ x i) by done. cbn [take].
      rewrite splice_cons; [done|]. rewrite take_length, drop_length. lia.
    + eapply Forall_impl; [exact Ht|]. intros y Hy. by apply takes1_wl.
Qed.

Lemma fip_move_ok : forall n src i c j, editable src -> editable c -> (i + n <= length (contents src))%nat -> (j + n <= length (contents c))%nat ->
  Forall (takes1 c) (contents src) ->
  fip_move_loop n src (fip_of src) (pos_state src i) c (fip_of c) (pos_state c j) =
    Val (wl c (splice (contents c) j (take n (drop i (contents src)))), pos_state src (i + n), pos_state c (j + n)).
Proof.
  induction n as [|n IH]; intros src i c j Hes Hec Hi Hj Ht; cbn [fip_move_loop].
  - by rewrite take_0, splice_nil, wl_contents, !Nat.add_0_r.
  - destruct (lookup_lt_is_Some_2 (contents src) i) as [x Hx]; [lia|]. rewrite (at_elt src i x) by done. cbn [obind].
    rewrite set_pos; [|done|lia|by eapply Forall_lookup_1]. cbn [obind]. rewrite at_next by (done || lia). cbn [obind].
    set (c' := wl c (<[j:=x]> (contents c))). assert (Hec' : editable c') by by apply editable_wl.
    assert (Hl : contents c' = <[j:=x]> (contents c)) by (by apply contents_wl).
    assert (Hf : fip_of c' = fip_of c) by (apply fip_wl; [done|apply insert_length]). rewrite <- Hf.
    assert (Hp : forall i, pos_state c i = pos_state c' i) by (intros; symmetry; by apply pos_wl). rewrite !Hp.
    rewrite at_next by (rewrite ?Hl, ?insert_length; done || lia). cbn [obind].
    rewrite IH; [|done|done|lia|rewrite Hl, insert_length; lia|].
    + unfold c' at 1. rewrite wl_wl, Hl. replace (S i + n)%nat with (i + S n)%nat by lia. replace (S j + n)%nat with (j + S n)%nat by lia.
      do 3 f_equal. f_equal. rewrite (drop_S _ x i) by done. cbn [take].
      rewrite splice_cons; [done|]. rewrite take_length, drop_length. lia.
    + eapply Forall_impl; [exact Ht|]. intros y Hy. by apply takes1_wl.
Qed.

Lemma skip_ok c : forall n i, editable c -> (i + n <= length (contents c))%nat ->
  skip_states n (fip_of c) c (pos_state c i) = Val (pos_state c (i + n)).
Proof.
  induction n as [|n IH]; intros i He Hi; cbn [skip_states].
  - by rewrite Nat.add_0_r.
  - rewrite at_next by (done || lia). cbn [obind]. rewrite IH by (done || lia). do 2 f_equal. lia.
Qed.

Lemma vec_copy_ok k k' src : forall n i r j, (i + n <= length src)%nat -> (j + n <= length r)%nat ->
  Forall (fun v => storable k v = true) src ->
  vec_copy_loop n (CVec k r) (Z.of_nat j) (CVec k' src) (Z.of_nat i) = Val (CVec k (splice r j (take n (drop i src)))).
Proof.
  induction n as [|n IH]; intros i r j Hi Hj Ht; cbn [vec_copy_loop].
  - by rewrite take_0, splice_nil.
  - destruct (lookup_lt_is_Some_2 src i) as [x Hx]; [lia|]. cbn [array_read]. rewrite (zread_val src _ x) by (try lia; by rewrite Nat2Z.id).
    cbn [obind array_write]. rewrite (Forall_lookup_1 _ _ _ _ Ht Hx). rewrite zwrite_val by lia. cbn [obind]. rewrite Nat2Z.id.
    replace (Z.of_nat j + 1) with (Z.of_nat (S j)) by lia. replace (Z.of_nat i + 1) with (Z.of_nat (S i)) by lia.
    rewrite IH; [|lia|rewrite insert_length; lia|done]. do 2 f_equal. rewrite (drop_S _ x i) by done. cbn [take].
    rewrite splice_cons; [done|]. rewrite take_length, drop_length. lia.
Qed.

(** ** Bounds *)

Lemma bounds_ok l start last : in_bounds l start (end_of l last) ->
  check_start_compute_end (Z.of_nat (length l)) start last = Val (end_of l last).
Proof.
  intros [[H1 H2] H3]. unfold check_start_compute_end. fold (end_of l last).
  destruct (Z.ltb_spec start 0); [lia|]. destruct (Z.ltb_spec (Z.of_nat (length l)) (end_of l last)); [lia|].
  destruct (Z.ltb_spec (end_of l last) start); [lia|done].
Qed.

Lemma bounds_bad l start last : ~ in_bounds l start (end_of l last) ->
  exists e, check_start_compute_end (Z.of_nat (length l)) start last = Signal e.
Proof.
  intros H. unfold check_start_compute_end. fold (end_of l last). unfold in_bounds in H.
  destruct (Z.ltb_spec start 0); [by eexists|]. destruct (Z.ltb_spec (Z.of_nat (length l)) (end_of l last)); [by eexists|].
  destruct (Z.ltb_spec (end_of l last) start); [by eexists|]. exfalso. apply H. lia.
Qed.

Lemma copied_length l start last : in_bounds l start last -> length (copied l start last) = Z.to_nat (last - start).
Proof. intros [? ?]. unfold copied. rewrite take_length, drop_length. lia. Qed.

(** ** copy-sequence *)

Lemma self_takes c l : wf_coll c -> editable c -> contents c = l -> takes c l.
Proof. intros Hw He <-. destruct c as [[]| | | | |]; done. Qed.

Lemma copy_ok c start last : wf_coll c -> match c with CVec _ _ | CDeq _ _ => True | _ => False end ->
  in_bounds (contents c) start (end_of (contents c) last) ->
  exists c', copy_sequence c start last = Val c' /\ same_class c c' /\ editable c' /\ contents c' = copied (contents c) start (end_of (contents c) last).
Proof.
  intros Hw Hc Hb. pose proof Hb as [[Hb1 Hb2] Hb3]. set (E := end_of (contents c) last) in *.
  assert (He : editable c) by by destruct c.
  pose proof (bounds_ok _ _ _ Hb) as Hck. fold E in Hck.
  assert (Hseq : forall ty (c0 : coll), c = c0 -> (forall n v, takes1 c v -> exists r, make_filled ty n v = Val r /\ same_class c r /\ editable r /\ contents r = replicate n v /\ forall w, takes1 r w <-> takes1 c w) ->
    type_for_copy c = ty -> (exists r, as_type ty [] = Val r /\ same_class c r /\ editable r /\ contents r = []) ->
    exists c', copy_sequence_sequence c start last = Val c' /\ same_class c c' /\ editable c' /\ contents c' = copied (contents c) start E).
  { intros ty _ _ Hmk Hty Has. unfold copy_sequence_sequence. rewrite len_editable by done. cbn [obind]. rewrite Hck. cbn [obind]. rewrite Hty.
    destruct (Z.eqb_spec start E) as [Heq|Hne].
    - destruct Has as (r & Hr & Hsc & Her & Hcr). exists r. rewrite Hr. split_and!; try done. rewrite Hcr. unfold copied.
      replace (E - start) with 0 by lia. done.
    - destruct (contents c) as [|x l] eqn:El; [cbn in *; lia|].
      assert (Hx : checked_element c 0 = Val x).
      { unfold checked_element. destruct c as [[]| | | | |]; cbn in *; try done; by subst. }
      rewrite Hx. cbn [obind]. assert (Hall : Forall (takes1 c) (x :: l)) by (apply takes_forall; by apply self_takes).
      destruct (Hmk (Z.to_nat (E - start)) x) as (r & Hr & Hsc & Her & Hcr & Hts). { by inversion Hall. }
      rewrite Hr. cbn [obind]. rewrite fip_init, skip_ok; [|done|rewrite El; cbn [length] in *; lia]. cbn [obind].
      rewrite fip_init, fip_copy_ok; [|done|done| | |].
      + eexists. split; [done|]. split; [by destruct c, r|]. split; [by apply editable_wl|]. rewrite contents_wl by done.
        rewrite El. cbn [Nat.add]. apply splice_all. rewrite Hcr, replicate_length. fold (copied (x :: l) start E).
        symmetry. by apply copied_length.
      + rewrite El. cbn [length] in *. lia.
      + rewrite Hcr, replicate_length. lia.
      + rewrite El. eapply Forall_impl; [exact Hall|]. intros y Hy. by apply Hts. }
  destruct c as [k l|d l| | | |]; try done.
  - cbn [copy_sequence]. cbn [contents] in *. destruct k.
    + unfold copy_sequence_primitive. rewrite Hck. cbn [obind make_sized make_filled storable primitive_replace]. unfold primitive_replace.
      destruct (Z.leb_spec (E - start) 0).
      * eexists. cbn [obind]. split; [done|]. split_and!; try done. cbn. replace (E - start) with 0 by lia. unfold copied. replace (E - start) with 0 by lia. done.
      * rewrite replicate_length. destruct (Z.leb_spec 0 0); [|lia]. destruct (Z.leb_spec (0 + (E - start)) (Z.of_nat (Z.to_nat (E - start)))); [|lia].
        destruct (Z.leb_spec 0 start); [|lia]. destruct (Z.leb_spec (start + (E - start)) (Z.of_nat (length l))); [|lia]. cbn [andb obind].
        eexists. split; [done|]. split_and!; try done. cbn [contents]. rewrite (drop_ge (replicate _ _)) by (rewrite replicate_length; lia). by rewrite app_nil_r.
    + unfold copy_sequence_primitive. rewrite Hck. cbn [obind make_sized make_filled storable is_char primitive_replace]. unfold primitive_replace.
      destruct (Z.leb_spec (E - start) 0).
      * eexists. cbn [obind]. split; [done|]. split_and!; try done. cbn. replace (E - start) with 0 by lia. unfold copied. replace (E - start) with 0 by lia. done.
      * rewrite replicate_length. destruct (Z.leb_spec 0 0); [|lia]. destruct (Z.leb_spec (0 + (E - start)) (Z.of_nat (Z.to_nat (E - start)))); [|lia].
        destruct (Z.leb_spec 0 start); [|lia]. destruct (Z.leb_spec (start + (E - start)) (Z.of_nat (length l))); [|lia]. cbn [andb obind].
        eexists. split; [done|]. split_and!; try done. cbn [contents]. rewrite (drop_ge (replicate _ _)) by (rewrite replicate_length; lia). by rewrite app_nil_r.
    + unfold copy_sequence_vector. rewrite len_editable by done. cbn [obind contents]. rewrite Hck. cbn [obind type_for_copy].
      destruct (Z.leb_spec (E - start) 0).
      * eexists. cbn. split; [done|]. split_and!; try done. cbn. unfold copied. replace (E - start) with 0 by lia. done.
      * destruct l as [|x l]; [cbn in *; lia|]. cbn [checked_element element_nf znth obind]. cbn.
        change ((x :: l) !! Z.to_nat 0) with (Some x). cbn [obind].
        pose proof (vec_copy_ok VkStretchy VkStretchy (x :: l) (Z.to_nat (E - start)) (Z.to_nat start) (replicate (Z.to_nat (E - start)) x) 0) as Hv.
        rewrite Z2Nat.id in Hv by lia. change (Z.of_nat 0) with 0 in Hv. rewrite Hv.
        -- eexists. split; [done|]. split_and!; try done. cbn [contents]. apply splice_all. rewrite replicate_length. symmetry. by apply copied_length.
        -- cbn [length] in *. lia.
        -- rewrite replicate_length. lia.
        -- by apply Forall_true.
  - cbn [copy_sequence]. unfold copy_sequence_deque. destruct (negb (start =? 0) || _) eqn:Eb.
    + apply (Hseq TDeq (CDeq d l)); try done.
      * intros n v _. eexists. split; [done|]. split_and!; try done.
      * eexists. split; [done|]. done.
    + destruct last; [by rewrite orb_true_r in Eb|]. rewrite orb_false_r in Eb. destruct (Z.eqb_spec start 0); [|done]. subst start.
      cbn [coll_size obind make_sized make_filled]. rewrite Nat2Z.id. rewrite !fip_init, fip_copy_ok; try done.
      * cbn [obind]. eexists. split; [done|]. split_and!; try done. cbn [contents wl]. unfold copied, E. cbn [end_of].
        rewrite !drop_0. rewrite firstn_all. rewrite (firstn_all2 l) by (cbn; lia). apply splice_all. apply replicate_length.
      * cbn. rewrite replicate_length. lia.
      * by apply Forall_true.
Qed.

Lemma copy_bad c start last : match c with CVec _ _ | CDeq _ _ => True | _ => False end ->
  ~ in_bounds (contents c) start (end_of (contents c) last) -> exists e, copy_sequence c start last = Signal e.
Proof.
  intros Hc Hb. destruct (bounds_bad _ _ _ Hb) as [e He]. exists e.
  destruct c as [[] l|d l| | | |]; try done; cbn [contents] in *; cbn [copy_sequence].
  - unfold copy_sequence_primitive. by rewrite He.
  - unfold copy_sequence_primitive. by rewrite He.
  - unfold copy_sequence_vector. rewrite len_editable by done. cbn [obind contents]. by rewrite He.
  - unfold copy_sequence_deque. destruct (negb (start =? 0) || _) eqn:Eb.
    + unfold copy_sequence_sequence. rewrite len_editable by done. cbn [obind contents]. by rewrite He.
    + destruct last; [by rewrite orb_true_r in Eb|]. rewrite orb_false_r in Eb. destruct (Z.eqb_spec start 0); [|done]. subst.
      exfalso. apply Hb. unfold in_bounds. cbn. lia.
Qed.

(** ** fill! *)

Lemma element_set_in place c i v : editable c -> (i < length (contents c))%nat -> takes1 c v ->
  element_set place v c (KInt (Z.of_nat i)) = Val (wl c (<[i:=v]> (contents c))).
Proof.
  intros He Hi Ht. destruct c as [k l|d l|l| | |]; cbn in *; try done.
  - destruct k; cbn.
    + destruct (Z.leb_spec 0 (Z.of_nat i)); [|lia]. destruct (Z.ltb_spec (Z.of_nat i) (Z.of_nat (length l))); [|lia]. cbn. by rewrite Nat2Z.id.
    + cbn in Ht. rewrite Ht. destruct (Z.leb_spec 0 (Z.of_nat i)); [|lia]. destruct (Z.ltb_spec (Z.of_nat i) (Z.of_nat (length l))); [|lia]. cbn. by rewrite Nat2Z.id.
    + destruct (Z.ltb_spec (Z.of_nat i) 0); [lia|]. destruct (Z.leb_spec (Z.of_nat (length l)) (Z.of_nat i)); [lia|]. cbn.
      rewrite zwrite_val by lia. cbn. by rewrite Nat2Z.id.
  - destruct (Z.ltb_spec (Z.of_nat i) 0); [lia|]. destruct (Z.leb_spec (Z.of_nat (length l)) (Z.of_nat i)); [lia|]. cbn.
    rewrite zwrite_val by lia. cbn. by rewrite Nat2Z.id.
  - destruct (Z.leb_spec 0 (Z.of_nat i)); [|lia]. destruct (Z.ltb_spec (Z.of_nat i) (Z.of_nat (length l))); [|lia]. cbn. by rewrite Nat2Z.id.
Qed.

Lemma fill_array_loop_ok place v : forall n c j, editable c -> (j + n <= length (contents c))%nat -> takes1 c v ->
  fill_array_loop n place c v (Z.of_nat j) = Val (wl c (splice (contents c) j (replicate n v))).
Proof.
  induction n as [|n IH]; intros c j He Hj Ht; cbn [fill_array_loop].
  - cbn. by rewrite splice_nil, wl_contents.
  - rewrite element_set_in by (done || lia). cbn [obind]. replace (Z.of_nat j + 1) with (Z.of_nat (S j)) by lia.
    rewrite IH; [|by apply editable_wl|rewrite contents_wl, insert_length by done; lia|by apply takes1_wl].
    rewrite wl_wl, contents_wl by done. cbn [replicate]. rewrite splice_cons; [done|]. rewrite replicate_length. lia.
Qed.

Lemma at_fin c i : editable c -> (i <= length (contents c))%nat ->
  run_fin (f_fin (fip_of c)) c (pos_state c i) (f_limit (fip_of c)) = Val (bool_decide (i = length (contents c))).
Proof.
  intros He Hi. rewrite pos_fin; [|by apply wf_keys_editable|by rewrite slen_editable].
  f_equal. apply bool_decide_ext. rewrite slen_editable by done. split; [by intros [= ->]|by intros ->].
Qed.

Lemma fill_to_ok v : forall n fuel c i last, editable c -> last = Z.of_nat (i + n) -> (n < fuel)%nat -> takes1 c v -> (i <= length (contents c))%nat ->
  if decide (i + n <= length (contents c))%nat then
    fill_to fuel c (fip_of c) (pos_state c i) v (Z.of_nat i) last = Val (wl c (splice (contents c) i (replicate n v)))
  else exists e, fill_to fuel c (fip_of c) (pos_state c i) v (Z.of_nat i) last = Signal e.
Proof.
  induction n as [|n IH]; intros fuel c i last He Hl Hf Ht Hi; destruct fuel as [|fuel]; try lia; cbn [fill_to].
  - rewrite decide_True by lia. subst. rewrite Nat.add_0_r, Z.eqb_refl. cbn. by rewrite splice_nil, wl_contents.
  - destruct (Z.eqb_spec (Z.of_nat i) last); [lia|]. rewrite at_fin by done. cbn [obind].
    destruct (decide (i = length (contents c))) as [E|E].
    { rewrite bool_decide_true by done. rewrite decide_False by lia. by eexists. }
    rewrite bool_decide_false by done. rewrite set_pos by (done || lia). cbn [obind].
    set (c' := wl c (<[i:=v]> (contents c))). assert (Hec' : editable c') by by apply editable_wl.
    assert (Hc : contents c' = <[i:=v]> (contents c)) by (by apply contents_wl).
    assert (Hfi : fip_of c' = fip_of c) by (apply fip_wl; [done|apply insert_length]). rewrite <- Hfi.
    assert (Hp : forall i, pos_state c i = pos_state c' i) by (intros; symmetry; by apply pos_wl). rewrite !Hp.
    rewrite at_next by (rewrite ?Hc, ?insert_length; done || lia). cbn [obind].
    replace (Z.of_nat i + 1) with (Z.of_nat (S i)) by lia.
    specialize (IH fuel c' (S i) last Hec'). rewrite Hc, insert_length in IH.
    specialize (IH ltac:(lia) ltac:(lia) ltac:(by apply takes1_wl) ltac:(lia)).
    replace (i + S n)%nat with (S i + n)%nat by lia. destruct (decide (S i + n <= length (contents c))%nat); [|done].
    rewrite IH. unfold c'. rewrite wl_wl. cbn [replicate]. rewrite splice_cons; [done|]. rewrite replicate_length. lia.
Qed.

Lemma fill_all_ok v : forall n fuel c i, editable c -> (i + n = length (contents c))%nat -> (n < fuel)%nat -> takes1 c v ->
  fill_all_loop fuel c (fip_of c) (pos_state c i) v = Val (wl c (splice (contents c) i (replicate n v))).
Proof.
  induction n as [|n IH]; intros fuel c i He Hl Hf Ht; destruct fuel as [|fuel]; try lia; cbn [fill_all_loop]; rewrite at_fin by (done || lia); cbn [obind].
  - rewrite bool_decide_true by lia. cbn. by rewrite splice_nil, wl_contents.
  - rewrite bool_decide_false by lia. rewrite set_pos by (done || lia). cbn [obind].
    set (c' := wl c (<[i:=v]> (contents c))). assert (Hec' : editable c') by by apply editable_wl.
    assert (Hc : contents c' = <[i:=v]> (contents c)) by (by apply contents_wl).
    assert (Hfi : fip_of c' = fip_of c) by (apply fip_wl; [done|apply insert_length]). rewrite <- Hfi.
    assert (Hp : forall i, pos_state c i = pos_state c' i) by (intros; symmetry; by apply pos_wl). rewrite !Hp.
    rewrite at_next by (rewrite ?Hc, ?insert_length; done || lia). cbn [obind].
    rewrite IH; [|done|rewrite Hc, insert_length; lia|lia|by apply takes1_wl].
    unfold c' at 1. rewrite wl_wl, Hc. cbn [replicate]. rewrite splice_cons; [done|]. rewrite replicate_length. lia.
Qed.

Lemma fill_seek_ok c start : editable c -> forall n fuel i, (i + n = length (contents c))%nat -> (n < fuel)%nat -> (start < 0 \/ Z.of_nat i <= start) ->
  (0 <= start <= Z.of_nat (length (contents c)) /\
   fill_seek fuel c (fip_of c) (pos_state c i) (Z.of_nat i) start = Val (start, pos_state c (Z.to_nat start))) \/
  (~ (0 <= start <= Z.of_nat (length (contents c))) /\
   exists s, fill_seek fuel c (fip_of c) (pos_state c i) (Z.of_nat i) start = Val (Z.of_nat (length (contents c)), s)).
Proof.
  intros He. induction n as [|n IH]; intros fuel i Hn Hf Hi; (destruct fuel as [|fuel]; [lia|]); cbn [fill_seek];
    (destruct (Z.eqb_spec start (Z.of_nat i)) as [->|Hne]; [left; split; [lia|by rewrite Nat2Z.id]|]); rewrite at_fin by (done || lia); cbn [obind].
  - rewrite bool_decide_true by lia. right. split; [lia|]. eexists. do 2 f_equal. lia.
  - rewrite bool_decide_false by lia. rewrite at_next by (done || lia). cbn [obind]. replace (Z.of_nat i + 1) with (Z.of_nat (S i)) by lia.
    apply IH; lia.
Qed.

Lemma splice_filled l start last v : in_bounds l start last ->
  splice l (Z.to_nat start) (replicate (Z.to_nat (last - start)) v) = filled l v start last.
Proof.
  intros [? ?]. unfold splice, filled, replaced. rewrite replicate_length. do 3 f_equal. lia.
Qed.

Lemma fill_ok fuel place c v start last : editable c -> takes1 c v -> (length (contents c) < fuel)%nat ->
  if decide (in_bounds (contents c) start (end_of (contents c) last)) then
    fill_bang fuel place c v start last = Val (wl c (filled (contents c) v start (end_of (contents c) last)))
  else exists e, fill_bang fuel place c v start last = Signal e.
Proof.
  intros He Ht Hf.
  assert (Hsq : match c with CDeq _ _ | CList _ => True | _ => False end -> 
    if decide (in_bounds (contents c) start (end_of (contents c) last)) then
      fill_sequence fuel c v start last = Val (wl c (filled (contents c) v start (end_of (contents c) last)))
    else exists e, fill_sequence fuel c v start last = Signal e).
  { intros _. unfold fill_sequence. rewrite fip_init.
    destruct ((start =? 0) && _) eqn:E0.
    { destruct last; [by rewrite andb_false_r in E0|]. rewrite andb_true_r in E0. apply Z.eqb_eq in E0. subst. cbn [end_of].
      assert (Hb : in_bounds (contents c) 0 (Z.of_nat (length (contents c)))) by (unfold in_bounds; lia).
      rewrite decide_True by done. rewrite (fill_all_ok v (length (contents c))) by (done || lia).
      rewrite <- splice_filled by done. do 4 f_equal. lia. }
    clear E0.
    destruct (fill_seek_ok c start He (length (contents c)) fuel 0) as [[Hs Hk]|[Hs [s Hk]]]; [lia|lia|lia| |].
    - change (Z.of_nat 0) with 0 in Hk. rewrite Hk. cbn [obind]. rewrite Z.eqb_refl. cbn [negb].
      destruct last as [last|]; cbn [end_of].
      + destruct (Z.leb_spec start last).
        * pose proof (fill_to_ok v (Z.to_nat (last - start)) fuel c (Z.to_nat start) last He) as Hto.
          destruct (decide (last <= Z.of_nat (length (contents c)))) as [Hlt|Hlt].
          -- rewrite decide_True by (unfold in_bounds; lia). specialize (Hto ltac:(lia) ltac:(lia) Ht ltac:(lia)).
             rewrite decide_True in Hto by lia. rewrite Z2Nat.id in Hto by lia. rewrite Hto. rewrite splice_filled; [done|unfold in_bounds; lia].
          -- rewrite decide_False by (unfold in_bounds; lia).
             (* more fuel than elements suffices: the loop stops at the end *)
             clear Hto.
             assert (Hg : forall n fu c' i, editable c' -> takes1 c' v -> (i + n = length (contents c'))%nat -> (n < fu)%nat -> Z.of_nat (length (contents c')) < last ->
               exists e, fill_to fu c' (fip_of c') (pos_state c' i) v (Z.of_nat i) last = Signal e).
             { clear. induction n as [|n IH]; intros fu c i He Ht Hn Hf Hlt; destruct fu as [|fu]; try lia; cbn [fill_to].
               - destruct (Z.eqb_spec (Z.of_nat i) last); [lia|]. rewrite at_fin by (done || lia). cbn [obind].
                 rewrite bool_decide_true by lia. by eexists.
               - destruct (Z.eqb_spec (Z.of_nat i) last); [lia|]. rewrite at_fin by (done || lia). cbn [obind].
                 rewrite bool_decide_false by lia. rewrite set_pos by (done || lia). cbn [obind].
                 set (c' := wl c (<[i:=v]> (contents c))). assert (Hec' : editable c') by by apply editable_wl.
                 assert (Hc : contents c' = <[i:=v]> (contents c)) by (by apply contents_wl).
                 assert (Hfi : fip_of c' = fip_of c) by (apply fip_wl; [done|apply insert_length]). rewrite <- Hfi.
                 assert (Hp : forall i, pos_state c i = pos_state c' i) by (intros; symmetry; by apply pos_wl). rewrite !Hp.
                 rewrite at_next by (rewrite ?Hc, ?insert_length; done || lia). cbn [obind].
                 replace (Z.of_nat i + 1) with (Z.of_nat (S i)) by lia.
                 apply IH; rewrite ?Hc, ?insert_length; try lia; [done|by apply takes1_wl]. }
             specialize (Hg (length (contents c) - Z.to_nat start)%nat fuel c (Z.to_nat start) He Ht).
             rewrite Z2Nat.id in Hg by lia. apply Hg; lia.
        * rewrite decide_False by (unfold in_bounds; lia). by eexists.
      + rewrite decide_True by (unfold in_bounds; lia). rewrite (fill_all_ok v (length (contents c) - Z.to_nat start)) by (done || lia).
        rewrite <- splice_filled by (unfold in_bounds; lia). do 4 f_equal. lia.
    - change (Z.of_nat 0) with 0 in Hk. rewrite Hk. cbn [obind]. rewrite decide_False by (unfold in_bounds; lia).
      destruct (Z.eqb_spec (Z.of_nat (length (contents c))) start); [lia|]. by eexists. }
  assert (Har : match c with CVec _ _ => True | _ => False end ->
    if decide (in_bounds (contents c) start (end_of (contents c) last)) then
      fill_array place c v start last = Val (wl c (filled (contents c) v start (end_of (contents c) last)))
    else exists e, fill_array place c v start last = Signal e).
  { intros _. unfold fill_array. rewrite len_editable by done. cbn [obind]. destruct (decide _) as [Hb|Hb].
    - rewrite bounds_ok by done. cbn [obind]. pose proof Hb as [[Hb1 Hb2] Hb3].
      pose proof (fill_array_loop_ok place v (Z.to_nat (end_of (contents c) last - start)) c (Z.to_nat start) He) as Hl.
      rewrite Z2Nat.id in Hl by lia. rewrite Hl by (done || lia). by rewrite splice_filled.
    - destruct (bounds_bad _ _ _ Hb) as [e He']. rewrite He'. by eexists. }
  destruct c as [k l|d l|l| | |]; cbn [fill_bang]; try done.
  - destruct k; try (by apply Har). cbn [contents]. unfold fill_object_vector. destruct (decide _) as [Hb|Hb].
    + rewrite bounds_ok by done. cbn [obind]. pose proof Hb as [[Hb1 Hb2] Hb3]. unfold primitive_fill. rewrite <- splice_filled by done. cbn [wl contents] in *.
      destruct (Z.leb_spec (end_of l last - start) 0).
      * cbn [obind]. replace (end_of l last - start) with 0 by lia. cbn [Z.to_nat replicate]. by rewrite splice_nil.
      * destruct (Z.leb_spec 0 start); [|lia]. destruct (Z.leb_spec (start + (end_of l last - start)) (Z.of_nat (length l))); [|lia]. cbn [andb obind].
        unfold splice. rewrite replicate_length. do 5 f_equal. lia.
    + cbn [contents] in Hb. destruct (bounds_bad _ _ _ Hb) as [e He']. rewrite He'. by eexists.
  - by apply Hsq.
  - by apply Hsq.
Qed.

(** ** replace-subsequence! *)

(** [d] is a finite sequence with the elements [m]. *)
Definition holds_list (d : coll) (m : list value) : Prop :=
  is_sequence d = true /\ wf_keys d /\ slen d = Some (length m) /\ forall i, sv d i = m !! i.

Lemma holds_elements d m : wf_coll d -> elements_are d m -> holds_list d m.
Proof.
  intros Hw He. pose proof (elements_finite _ _ He) as Hf. pose proof He as [Hs H]. split_and!; try done.
  - by apply wf_wf_keys.
  - apply elements_slen; [by apply wf_wf_keys|done|done].
Qed.

Lemma at_holds d m i : holds_list d m -> (i <= length m)%nat ->
  (run_fin (f_fin (fip_of d)) d (pos_state d i) (f_limit (fip_of d)) = Val true /\ i = length m) \/
  (exists v, run_fin (f_fin (fip_of d)) d (pos_state d i) (f_limit (fip_of d)) = Val false /\
     run_elt (f_elt (fip_of d)) d (pos_state d i) = Val v /\ m !! i = Some v /\
     run_next (f_next (fip_of d)) d (pos_state d i) = Val (pos_state d (S i)) /\ (i < length m)%nat).
Proof.
  intros (Hs & Hw & Hl & Hv) Hi. destruct (at_pos d i Hs Hw) as [(Hf & _ & He)|(v & Hf & He & Hx & Hn & Hu)].
  - rewrite Hl. done.
  - left. split; [done|]. congruence.
  - right. exists v. rewrite Hv in Hx. split_and!; try done. by eapply lookup_lt_Some.
Qed.

Lemma upd_at (h : heap) a c : (a < length h)%nat -> upd h a c !! a = Some c.
Proof. intros. unfold upd. by apply list_lookup_insert. Qed.
Lemma upd_at_ne (h : heap) a b c : a <> b -> upd h a c !! b = h !! b.
Proof. intros. unfold upd. by apply list_lookup_insert_ne. Qed.
Lemma upd_twice (h : heap) a c c' : upd (upd h a c) a c' = upd h a c'.
Proof. unfold upd. apply list_insert_insert. Qed.
Lemma upd_same (h : heap) a c : h !! a = Some c -> upd h a c = h.
Proof. intros. unfold upd. by apply list_insert_id. Qed.

Lemma vec_insert_ok a s d m k : a <> s -> holds_list d m -> Forall (fun v => storable k v = true) m ->
  forall n fuel h i r j, (i + n = length m)%nat -> (n < fuel)%nat -> h !! a = Some (CVec k r) -> h !! s = Some d -> (j + n <= length r)%nat ->
  vec_insert_loop fuel h a s (fip_of d) (pos_state d i) (Z.of_nat j) (Z.of_nat (j + n)) = Val (upd h a (CVec k (splice r j (drop i m)))).
Proof.
  intros Hne Hd Hst. induction n as [|n IH]; intros fuel h i r j Hn Hf Ha Hs Hj; (destruct fuel as [|fuel]; [lia|]); cbn [vec_insert_loop].
  - destruct (Z.leb_spec (Z.of_nat (j + 0)) (Z.of_nat j)); [|lia]. rewrite drop_ge by lia. rewrite splice_nil. by rewrite upd_same.
  - destruct (Z.leb_spec (Z.of_nat (j + S n)) (Z.of_nat j)); [lia|]. rewrite (at_val _ _ _ Hs). cbn [obind].
    destruct (at_holds d m i Hd) as [[_ ?]|(v & Hfi & Hel & Hx & Hnx & _)]; [lia|lia|].
    rewrite Hfi. cbn [obind]. rewrite Hel. cbn [obind]. rewrite (at_val _ _ _ Ha). cbn [obind array_write].
    rewrite (Forall_lookup_1 _ _ _ _ Hst Hx). rewrite zwrite_val by lia. cbn [obind]. rewrite Hnx. cbn [obind]. rewrite Nat2Z.id.
    replace (Z.of_nat j + 1) with (Z.of_nat (S j)) by lia. replace (j + S n)%nat with (S j + n)%nat by lia.
    rewrite (IH _ _ (S i) (<[j:=v]> r)).
    + rewrite upd_twice. rewrite (drop_S m v i) by done. rewrite splice_cons; [done|]. rewrite drop_length. lia.
    + lia.
    + lia.
    + apply upd_at. by eapply lookup_lt_Some.
    + by rewrite upd_at_ne.
    + rewrite insert_length. lia.
Qed.

Lemma vec_insert_self a k m h : Forall (fun v => storable k v = true) m -> h !! a = Some (CVec k m) ->
  forall n fuel i, (i + n = length m)%nat -> (n < fuel)%nat ->
  vec_insert_loop fuel h a a (fip_of (CVec k m)) (pos_state (CVec k m) i) (Z.of_nat i) (Z.of_nat (length m)) = Val h.
Proof.
  intros Hst Ha. induction n as [|n IH]; intros fuel i Hn Hf; (destruct fuel as [|fuel]; [lia|]); cbn [vec_insert_loop].
  - destruct (Z.leb_spec (Z.of_nat (length m)) (Z.of_nat i)); [done|lia].
  - destruct (Z.leb_spec (Z.of_nat (length m)) (Z.of_nat i)); [lia|]. rewrite (at_val _ _ _ Ha). cbn [obind].
    assert (He : editable (CVec k m)) by done.
    destruct (lookup_lt_is_Some_2 m i) as [v Hv]; [lia|]. rewrite at_fin by (cbn; done || lia). cbn [obind]. rewrite bool_decide_false by (cbn; lia).
    rewrite (at_elt (CVec k m) i v) by done. cbn [obind array_write]. rewrite (Forall_lookup_1 _ _ _ _ Hst Hv). rewrite zwrite_val by lia. cbn [obind].
    rewrite at_next by (cbn; done || lia). cbn [obind]. rewrite Nat2Z.id. rewrite list_insert_id by done. rewrite upd_same by done.
    replace (Z.of_nat i + 1) with (Z.of_nat (S i)) by lia. apply IH; lia.
Qed.

Lemma fip_insert_ok a s d m : a <> s -> holds_list d m ->
  forall n fuel h i c j, (i + n = length m)%nat -> (n < fuel)%nat -> editable c -> Forall (takes1 c) m -> h !! a = Some c -> h !! s = Some d -> (j + n <= length (contents c))%nat ->
  fip_insert_loop fuel h a (fip_of c) (pos_state c j) s (fip_of d) (pos_state d i) = Val (upd h a (wl c (splice (contents c) j (drop i m))), pos_state c (j + n)).
Proof.
  intros Hne Hd. induction n as [|n IH]; intros fuel h i c j Hn Hf He Ht Ha Hs Hj; (destruct fuel as [|fuel]; [lia|]); cbn [fip_insert_loop];
    rewrite (at_val _ _ _ Hs); cbn [obind]; (destruct (at_holds d m i Hd) as [[Hfi ?]|(v & Hfi & Hel & Hx & Hnx & ?)]; [lia| |]); try lia; rewrite Hfi; cbn [obind].
  - rewrite drop_ge by lia. by rewrite splice_nil, wl_contents, upd_same, Nat.add_0_r.
  - rewrite Hel. cbn [obind]. rewrite (at_val _ _ _ Ha). cbn [obind].
    rewrite set_pos; [|done|lia|by eapply Forall_lookup_1]. cbn [obind].
    set (c' := wl c (<[j:=v]> (contents c))). assert (Hec' : editable c') by by apply editable_wl.
    assert (Hc : contents c' = <[j:=v]> (contents c)) by (by apply contents_wl).
    assert (Hfip : fip_of c' = fip_of c) by (apply fip_wl; [done|apply insert_length]). rewrite <- Hfip.
    assert (Hp : forall i, pos_state c i = pos_state c' i) by (intros; symmetry; by apply pos_wl). rewrite !Hp.
    rewrite at_next by (rewrite ?Hc, ?insert_length; done || lia). cbn [obind]. rewrite Hnx. cbn [obind].
    rewrite (IH _ _ (S i) c' (S j)).
    + rewrite upd_twice. unfold c' at 1. rewrite wl_wl, Hc. rewrite (drop_S m v i) by done. rewrite splice_cons by (rewrite drop_length; lia).
      do 3 f_equal. lia.
    + lia.
    + lia.
    + done.
    + eapply Forall_impl; [exact Ht|]. intros y Hy. by apply takes1_wl.
    + apply upd_at. by eapply lookup_lt_Some.
    + by rewrite upd_at_ne.
    + rewrite Hc, insert_length. lia.
Qed.

Lemma deque_insert_ok place a s d m : a <> s -> holds_list d m ->
  forall n fuel h i f r j, (i + n = length m)%nat -> (n < fuel)%nat -> h !! a = Some (CDeq f r) -> h !! s = Some d -> (j + n <= length r)%nat ->
  deque_insert_loop fuel place h a s (fip_of d) (pos_state d i) (Z.of_nat j) = Val (upd h a (CDeq f (splice r j (drop i m))), Z.of_nat (j + n)).
Proof.
  intros Hne Hd. induction n as [|n IH]; intros fuel h i f r j Hn Hf Ha Hs Hj; (destruct fuel as [|fuel]; [lia|]); cbn [deque_insert_loop];
    rewrite (at_val _ _ _ Hs); cbn [obind]; (destruct (at_holds d m i Hd) as [[Hfi ?]|(v & Hfi & Hel & Hx & Hnx & ?)]; [lia| |]); try lia; rewrite Hfi; cbn [obind].
  - rewrite drop_ge by lia. by rewrite splice_nil, upd_same, Nat.add_0_r.
  - rewrite Hel. cbn [obind]. rewrite (at_val _ _ _ Ha). cbn [obind].
    rewrite element_set_in by (done || cbn; lia). cbn [obind wl contents].
    rewrite (at_val _ s d) by by rewrite upd_at_ne. cbn [obind]. rewrite Hnx. cbn [obind].
    replace (Z.of_nat j + 1) with (Z.of_nat (S j)) by lia.
    rewrite (IH _ _ (S i) f (<[j:=v]> r)).
    + rewrite upd_twice. rewrite (drop_S m v i) by done. rewrite splice_cons by (rewrite drop_length; lia). do 3 f_equal. lia.
    + lia.
    + lia.
    + apply upd_at. by eapply lookup_lt_Some.
    + by rewrite upd_at_ne.
    + rewrite insert_length. lia.
Qed.

Lemma checked_deq f l i x : l !! i = Some x -> checked_element (CDeq f l) (Z.of_nat i) = Val x.
Proof.
  intros H. unfold checked_element. cbn. unfold znth. apply lookup_lt_Some in H as Hl. destruct (Z.leb_spec 0 (Z.of_nat i)); [|lia]. rewrite ?Nat2Z.id, ?H. done.
Qed.

Lemma take_drop_insert (l : list value) i x s n : (i < s \/ s + n <= i)%nat -> take n (drop s (<[i:=x]> l)) = take n (drop s l).
Proof.
  intros H. apply list_eq. intros p. destruct (decide (p < n)%nat).
  - rewrite !lookup_take by done. rewrite !lookup_drop. apply list_lookup_insert_ne. lia.
  - rewrite !lookup_take_ge by lia. done.
Qed.

Lemma deque_move_up place f : forall n l di si, (di <= si)%nat -> (si + n <= length l)%nat ->
  deque_move n place (CDeq f l) (Z.of_nat di) (Z.of_nat si) 1 = Val (CDeq f (splice l di (take n (drop si l)))).
Proof.
  induction n as [|n IH]; intros l di si Hd Hs; cbn [deque_move].
  - by rewrite take_0, splice_nil.
  - destruct (lookup_lt_is_Some_2 l si) as [x Hx]; [lia|]. rewrite (checked_deq _ _ _ x) by done. cbn [obind].
    rewrite element_set_in by (done || cbn; lia). cbn [obind wl contents].
    replace (Z.of_nat di + 1) with (Z.of_nat (S di)) by lia. replace (Z.of_nat si + 1) with (Z.of_nat (S si)) by lia.
    rewrite IH by (rewrite ?insert_length; lia). rewrite take_drop_insert by lia. rewrite (drop_S l x si) by done. cbn [take].
    rewrite splice_cons; [done|]. rewrite take_length, drop_length. lia.
Qed.

Lemma deque_move_down place f : forall n l D S, (S <= D)%nat -> (D + n <= length l)%nat ->
  deque_move n place (CDeq f l) (Z.of_nat (D + n) - 1) (Z.of_nat (S + n) - 1) (-1) = Val (CDeq f (splice l D (take n (drop S l)))).
Proof.
  induction n as [|n IH]; intros l D S Hd Hs; cbn [deque_move].
  - by rewrite take_0, splice_nil.
  - destruct (lookup_lt_is_Some_2 l (S + n)) as [x Hx]; [lia|].
    replace (Z.of_nat (S + Datatypes.S n) - 1) with (Z.of_nat (S + n)) by lia. replace (Z.of_nat (D + Datatypes.S n) - 1) with (Z.of_nat (D + n)) by lia.
    rewrite (checked_deq _ _ _ x) by done. cbn [obind].
    rewrite element_set_in by (done || cbn; lia). cbn [obind wl contents].
    replace (Z.of_nat (D + n) + -1) with (Z.of_nat (D + n) - 1) by lia. replace (Z.of_nat (S + n) + -1) with (Z.of_nat (S + n) - 1) by lia.
    rewrite IH by (rewrite ?insert_length; lia). rewrite take_drop_insert by lia.
    assert (Hlen : length (take n (drop S l)) = n) by (rewrite take_length, drop_length; lia).
    rewrite (take_S_r _ n x) by (by rewrite lookup_drop). rewrite <- splice_snoc by (rewrite Hlen; lia). by rewrite Hlen.
Qed.

(** The three pieces written one after the other into a new object. *)
Lemma pieces (r l m : list value) start last : (start <= last <= length l)%nat -> length r = (start + length m + (length l - last))%nat ->
  splice (splice (splice r 0 (take start l)) start m) (start + length m) (drop last l) = take start l ++ m ++ drop last l.
Proof.
  intros Hb Hr. assert (L1 : length (take start l) = start) by (rewrite take_length; lia). assert (L3 : length (drop last l) = (length l - last)%nat) by (rewrite drop_length; lia).
  assert (S1 : length (splice r 0 (take start l)) = length r) by (apply splice_length; lia).
  assert (S2 : length (splice (splice r 0 (take start l)) start m) = length r) by (rewrite splice_length; lia).
  apply list_eq. intros i. rewrite lookup_replaced by lia. rewrite lookup_splice by lia. rewrite lookup_splice by lia. rewrite lookup_splice by lia.
  rewrite L1, L3. repeat case_decide; try lia; try done.
  - rewrite lookup_take by lia. f_equal. lia.
  - rewrite lookup_drop. f_equal. lia.
  - rewrite !lookup_ge_None_2 by lia. done.
Qed.

Lemma in_place (l m : list value) start last : (start <= last <= length l)%nat -> length m = (last - start)%nat ->
  splice l start m = take start l ++ m ++ drop last l.
Proof. intros Hb Hm. unfold splice. do 3 f_equal. lia. Qed.

Lemma shrunk (l m : list value) start last new : (start <= last <= length l)%nat -> new = (start + length m + (length l - last))%nat -> (new < length l)%nat ->
  take new (splice (splice l start m) (start + length m) (take (length l - last) (drop last (splice l start m)))) = take start l ++ m ++ drop last l.
Proof.
  intros Hb Hn Hlt. assert (S1 : length (splice l start m) = length l) by (apply splice_length; lia).
  assert (L : length (take (length l - last) (drop last (splice l start m))) = (length l - last)%nat) by (rewrite take_length, drop_length; lia).
  apply list_eq. intros i. rewrite lookup_replaced by lia. destruct (decide (i < new)%nat).
  - rewrite lookup_take by done. rewrite lookup_splice by lia. rewrite L. rewrite lookup_splice by lia.
    repeat case_decide; try lia; try done. rewrite lookup_take by lia. rewrite lookup_drop. rewrite lookup_splice by lia.
    repeat case_decide; try lia. f_equal. lia.
  - rewrite lookup_take_ge by lia. repeat case_decide; try lia. by rewrite lookup_ge_None_2 by lia.
Qed.

Lemma grown_eq (l m q : list value) start last : (start <= last <= length l)%nat -> (length l + length q = start + length m + (length l - last))%nat ->
  splice (splice (l ++ q) (start + length m) (take (length l - last) (drop last (l ++ q)))) start m = take start l ++ m ++ drop last l.
Proof.
  intros Hb Hn. assert (L0 : length (l ++ q) = (length l + length q)%nat) by apply app_length.
  assert (L : length (take (length l - last) (drop last (l ++ q))) = (length l - last)%nat) by (rewrite take_length, drop_length; lia).
  assert (S1 : length (splice (l ++ q) (start + length m) (take (length l - last) (drop last (l ++ q)))) = length (l ++ q)) by (apply splice_length; lia).
  apply list_eq. intros i. rewrite lookup_replaced by lia. rewrite lookup_splice by lia. rewrite lookup_splice by lia. rewrite L.
  repeat case_decide; try lia; try done.
  - by rewrite lookup_app_l by lia.
  - rewrite lookup_take by lia. rewrite lookup_drop. rewrite lookup_app_l by lia. f_equal. lia.
  - rewrite !lookup_ge_None_2 by lia. done.
Qed.

Lemma len_holds d m : holds_list d m -> len d = Val (Z.of_nat (length m)).
Proof. intros (Hs & _ & Hl & _). unfold len. destruct d; cbn in *; try done; by injection Hl as ->. Qed.

Definition empty_of (k : vkind) : value := match k with VkString => VChr 32 | _ => VFalse end.
Lemma make_sized_vec k n : make_sized (TVec k) n = Val (CVec k (replicate (Z.to_nat n) (empty_of k))).
Proof. by destruct k. Qed.

Lemma skip_next_only f g c : f_next f = f_next g -> forall n s, skip_states n f c s = skip_states n g c s.
Proof.
  intros H. induction n as [|n IH]; intros s; cbn [skip_states]; [done|]. rewrite H. destruct (run_next _ c s); cbn [obind]; [|done..]. apply IH.
Qed.

(** What a call returns: [a] is the result, and nothing but the result has changed. *)
Definition replaces (h : heap) (t : nat) (c : coll) (l' : list value) (h' : heap) (a : nat) : Prop :=
  exists c', h' !! a = Some c' /\ same_class c c' /\ editable c' /\ contents c' = l' /\ (a = t \/ h !! a = None) /\
    forall b, b <> a -> (b < length h)%nat -> h' !! b = h !! b.

Lemma replaces_new h t c c' l' : same_class c c' -> editable c' -> contents c' = l' -> replaces h t c l' (h ++ [c']) (length h).
Proof.
  intros. exists c'. split; [by apply list_lookup_middle|]. split_and!; try done.
  - right. by apply lookup_ge_None_2.
  - intros b _ Hb. by apply lookup_app_l.
Qed.

Lemma replaces_upd h t c c' l' : (t < length h)%nat -> same_class c c' -> editable c' -> contents c' = l' -> replaces h t c l' (upd h t c') t.
Proof.
  intros. exists c'. split; [by apply upd_at|]. split_and!; try done; [by left|]. intros b Hb _. by apply upd_at_ne.
Qed.

Lemma upd_last (h : heap) x y : upd (h ++ [x]) (length h) y = h ++ [y].
Proof.
  unfold upd, heap in *. induction h as [|z h IH]; [done|]. exact (f_equal (cons z) IH).
Qed.

Lemma replace_vectors_ok fuel h t s k k' l m start last :
  h !! t = Some (CVec k l) -> h !! s = Some (CVec k' m) ->
  Forall (fun v => storable k v = true) l -> Forall (fun v => storable k v = true) m ->
  in_bounds l start (end_of l last) -> (length m < fuel)%nat ->
  exists h' a, replace_vectors fuel h t s start last = Val (h', a) /\ replaces h t (CVec k l) (replaced l m start (end_of l last)) h' a.
Proof.
  intros Ht Hs Hl Hm Hb Hf. pose proof Hb as [[Hb1 Hb2] Hb3]. pose proof (lookup_lt_Some _ _ _ Ht) as Htl. pose proof (lookup_lt_Some _ _ _ Hs) as Hsl.
  assert (Hd : holds_list (CVec k' m) m).
  { split_and!; try done. intros i. by rewrite sv_vec. }
  unfold replace_vectors. rewrite (at_val _ _ _ Ht), (at_val _ _ _ Hs). cbn [obind]. rewrite !len_editable by done. cbn [obind contents].
  rewrite bounds_ok by done. cbn [obind type_for_copy]. set (E := end_of l last) in *. rewrite fip_init.
  destruct (Z.eqb_spec (E - start) (Z.of_nat (length m))) as [He|He].
  - destruct (decide (t = s)) as [->|Hne].
    + rewrite Ht in Hs. injection Hs as <- <-.
      assert (start = 0) as -> by lia. assert (E = Z.of_nat (length l)) as -> by lia.
      pose proof (vec_insert_self s k l h Hl Ht (length l) fuel 0) as Hv. change (Z.of_nat 0) with 0 in Hv. rewrite Hv by lia. cbn [obind].
      exists h, s. split; [done|]. exists (CVec k l). split_and!; try done; [|by left].
      cbn [contents]. unfold replaced. rewrite (drop_ge l) by lia. cbn. by rewrite app_nil_r.
    + pose proof (vec_insert_ok t s (CVec k' m) m k Hne Hd Hm (length m) fuel h 0 l (Z.to_nat start)) as Hv.
      replace (Z.of_nat (Z.to_nat start + length m)) with E in Hv by lia. rewrite Z2Nat.id in Hv by lia.
      rewrite Hv by (done || lia). cbn [obind]. eexists _, _. split; [done|]. apply replaces_upd; try done.
      cbn [contents]. rewrite drop_0. apply in_place; lia.
  - rewrite make_sized_vec. cbn [obind].
    set (r := replicate _ (empty_of k)). assert (Hr : length r = (Z.to_nat start + length m + (length l - Z.to_nat E))%nat) by (subst r; rewrite replicate_length; lia).
    pose proof (vec_copy_ok k k l (Z.to_nat start) 0 r 0) as H1. change (Z.of_nat 0) with 0 in H1. rewrite H1 by (done || lia). cbn [obind]. rewrite drop_0.
    set (r1 := splice r 0 _). assert (Hr1 : length r1 = length r) by (apply splice_length; rewrite take_length; lia).
    pose proof (vec_insert_ok (length h) s (CVec k' m) m k ltac:(lia) Hd Hm (length m) fuel (h ++ [CVec k r1]) 0 r1 (Z.to_nat start)) as Hv.
    replace (Z.of_nat (Z.to_nat start + length m)) with (start + Z.of_nat (length m)) in Hv by lia. rewrite Z2Nat.id in Hv by lia.
    rewrite Hv; [|lia|lia|by apply list_lookup_middle|by apply lookup_app_l_Some|lia]. cbn [obind]. rewrite upd_last, drop_0.
    set (r2 := splice r1 (Z.to_nat start) m). assert (Hr2 : length r2 = length r) by (unfold r2; rewrite splice_length; lia).
    rewrite (at_val _ _ (CVec k r2)) by (by apply list_lookup_middle). cbn [obind].
    pose proof (vec_copy_ok k k l (length l - Z.to_nat E) (Z.to_nat E) r2 (Z.to_nat start + length m)) as H3.
    replace (Z.of_nat (Z.to_nat start + length m)) with (start + Z.of_nat (length m)) in H3 by lia. rewrite (Z2Nat.id E) in H3 by lia.
    replace (Z.to_nat (Z.min _ _)) with (length l - Z.to_nat E)%nat by lia. rewrite H3 by (done || lia). cbn [obind].
    rewrite upd_last. eexists _, _. split; [done|]. apply replaces_new; try done. cbn [contents].
    rewrite (firstn_all2 (drop (Z.to_nat E) l)) by (rewrite drop_length; lia). unfold replaced, r2, r1. apply pieces; lia.
Qed.

Lemma replace_mutable_ok fuel h t s k d l m start last :
  h !! t = Some (CVec k l) -> h !! s = Some d -> t <> s -> holds_list d m ->
  Forall (fun v => storable k v = true) l -> Forall (fun v => storable k v = true) m ->
  in_bounds l start (end_of l last) -> (length m < fuel)%nat ->
  exists h' a, replace_mutable fuel h t s start last = Val (h', a) /\ replaces h t (CVec k l) (replaced l m start (end_of l last)) h' a.
Proof.
  intros Ht Hs Hne Hd Hl Hm Hb Hf. pose proof Hb as [[Hb1 Hb2] Hb3]. pose proof (lookup_lt_Some _ _ _ Ht) as Htl. pose proof (lookup_lt_Some _ _ _ Hs) as Hsl.
  unfold replace_mutable. rewrite (at_val _ _ _ Ht), (at_val _ _ _ Hs). cbn [obind]. rewrite len_editable by done. rewrite (len_holds d m) by done. cbn [obind contents].
  rewrite bounds_ok by done. cbn [obind type_for_copy]. set (E := end_of l last) in *. rewrite !fip_init.
  destruct (Z.eqb_spec (E - start) (Z.of_nat (length m))) as [He|He].
  - rewrite skip_ok by (cbn; done || lia). cbn [obind Nat.add].
    rewrite (fip_insert_ok t s d m Hne Hd (length m) fuel h 0 (CVec k l)) by (cbn; done || lia). cbn [obind].
    eexists _, _. split; [done|]. apply replaces_upd; try done. cbn [contents wl]. rewrite drop_0. apply in_place; lia.
  - rewrite make_sized_vec. cbn [obind]. rewrite fip_init.
    set (r := replicate _ (empty_of k)). assert (Hr : length r = (Z.to_nat start + length m + (length l - Z.to_nat E))%nat) by (subst r; rewrite replicate_length; lia).
    destruct ((start =? 0) && (E =? Z.of_nat (length l))) eqn:E0.
    + apply andb_true_iff in E0 as [E1 E2]. apply Z.eqb_eq in E1, E2.
      rewrite (fip_insert_ok (length h) s d m ltac:(lia) Hd (length m) fuel (h ++ [CVec k r]) 0 (CVec k r)); [|lia|lia|done|done|by apply list_lookup_middle|by apply lookup_app_l_Some|cbn; lia].
      cbn [obind]. rewrite upd_last. eexists _, _. split; [done|]. apply replaces_new; try done. cbn [contents wl].
      rewrite drop_0, splice_all by lia. unfold replaced. rewrite (drop_ge l) by lia. replace (Z.to_nat start) with 0%nat by lia. by rewrite take_0, app_nil_r.
    + clear E0. rewrite fip_move_ok by (cbn; done || lia). cbn [obind contents wl Nat.add]. rewrite drop_0.
      set (r1 := splice r 0 _). assert (Hr1 : length r1 = length r) by (apply splice_length; rewrite take_length; lia).
      assert (Hfr : forall q, length q = length r -> fip_of (CVec k r) = fip_of (CVec k q)) by (intros q Hq; cbn; by rewrite Hq).
      rewrite (Hfr r1) by done. change (pos_state (CVec k r)) with (pos_state (CVec k r1)).
      rewrite (fip_insert_ok (length h) s d m ltac:(lia) Hd (length m) fuel (h ++ [CVec k r1]) 0 (CVec k r1)); [|lia|lia|done|done|by apply list_lookup_middle|by apply lookup_app_l_Some|cbn; lia].
      cbn [obind contents wl]. rewrite upd_last, drop_0.
      set (r2 := splice r1 (Z.to_nat start) m). assert (Hr2 : length r2 = length r) by (unfold r2; rewrite splice_length; lia).
      assert (Hfin : splice r2 (Z.to_nat start + length m) (drop (Z.to_nat E) l) = replaced l m start E) by (apply pieces; lia).
      destruct (Z.eqb_spec E (Z.of_nat (length l))).
      * eexists _, _. split; [done|]. apply replaces_new; try done. cbn [contents]. rewrite <- Hfin. rewrite drop_ge by lia. by rewrite splice_nil.
      * rewrite (skip_next_only _ (fip_of (CVec k l))) by done. rewrite skip_ok by (cbn; done || lia). cbn [obind].
        rewrite (at_val _ _ (CVec k r2)) by (by apply list_lookup_middle). cbn [obind].
        replace (fip_of (CVec k r1)) with (fip_of (CVec k r2)) by (cbn; by rewrite Hr1, Hr2).
        change (pos_state (CVec k r1)) with (pos_state (CVec k r2)).
        rewrite fip_move_ok by (cbn; done || lia). cbn [obind contents wl]. rewrite upd_last.
        eexists _, _. split; [done|]. apply replaces_new; try done. cbn [contents]. rewrite <- Hfin.
        replace (Z.to_nat start + Z.to_nat (E - start))%nat with (Z.to_nat E) by lia.
        by rewrite (firstn_all2 (drop (Z.to_nat E) l)) by (rewrite drop_length; lia).
Qed.

Lemma replace_deque_ok fuel place h t s f d l m start last :
  h !! t = Some (CDeq f l) -> h !! s = Some d -> t <> s -> holds_list d m ->
  in_bounds l start (end_of l last) -> (length m < fuel)%nat ->
  exists h' a, replace_deque fuel place h t s start last = Val (h', a) /\ replaces h t (CDeq f l) (replaced l m start (end_of l last)) h' a.
Proof.
  intros Ht Hs Hne Hd Hb Hf. pose proof Hb as [[Hb1 Hb2] Hb3]. pose proof (lookup_lt_Some _ _ _ Ht) as Htl.
  unfold replace_deque. rewrite (at_val _ _ _ Ht), (at_val _ _ _ Hs). cbn [obind]. rewrite len_editable by done. rewrite (len_holds d m) by done. cbn [obind contents].
  fold (end_of l last). set (E := end_of l last) in *.
  set (new := start + (Z.of_nat (length m) + (Z.of_nat (length l) - E))).
  assert (Hins : forall h1 f1 r, h1 !! t = Some (CDeq f1 r) -> h1 !! s = Some d -> (Z.to_nat start + length m <= length r)%nat ->
    deque_insert_loop fuel place h1 t s (fip_of d) (f_init (fip_of d)) start = Val (upd h1 t (CDeq f1 (splice r (Z.to_nat start) m)), start + Z.of_nat (length m))).
  { intros h1 f1 r H1 H2 H3. rewrite fip_init. pose proof (deque_insert_ok place t s d m Hne Hd (length m) fuel h1 0 f1 r (Z.to_nat start)) as Hi.
    rewrite Z2Nat.id in Hi by lia. rewrite Hi by (done || lia). rewrite drop_0. do 2 f_equal. lia. }
  destruct (Z.ltb_spec new (Z.of_nat (length l))) as [Hlt|Hge]; [|destruct (Z.ltb_spec (Z.of_nat (length l)) new) as [Hgt|Hle]].
  - rewrite (Hins h f l) by (done || lia). cbn [obind].
    rewrite (at_val _ _ (CDeq f (splice l (Z.to_nat start) m))) by (by apply upd_at). cbn [obind].
    assert (S1 : length (splice l (Z.to_nat start) m) = length l) by (apply splice_length; lia).
    pose proof (deque_move_up place f (length l - Z.to_nat E) (splice l (Z.to_nat start) m) (Z.to_nat start + length m) (Z.to_nat E)) as Hm.
    rewrite (Z2Nat.id E) in Hm by lia. replace (Z.of_nat (Z.to_nat start + length m)) with (start + Z.of_nat (length m)) in Hm by lia.
    replace (Z.to_nat (Z.of_nat (length l) - E)) with (length l - Z.to_nat E)%nat by lia.
    rewrite Hm by lia. cbn [obind]. unfold set_size. destruct (Z.ltb_spec new 0); [lia|]. cbn [resize obind]. rewrite upd_twice.
    eexists _, _. split; [done|]. apply replaces_upd; try done. cbn [contents].
    rewrite splice_length by (rewrite take_length, drop_length; lia).
    replace (Z.to_nat new - length (splice l (Z.to_nat start) m))%nat with 0%nat by lia. cbn [replicate]. rewrite app_nil_r. apply shrunk; lia.
  - unfold set_size. destruct (Z.ltb_spec new 0); [lia|]. cbn [resize obind]. rewrite (firstn_all2 l) by lia.
    set (q := replicate _ VFalse). assert (Hq : length q = (Z.to_nat new - length l)%nat) by apply replicate_length.
    pose proof (deque_move_down place (place f (Z.to_nat new)) (length l - Z.to_nat E) (l ++ q) (Z.to_nat start + length m) (Z.to_nat E)) as Hm.
    rewrite app_length in Hm.
    replace (Z.of_nat (Z.to_nat start + length m + (length l - Z.to_nat E)) - 1) with (new - 1) in Hm by lia.
    replace (Z.of_nat (Z.to_nat E + (length l - Z.to_nat E)) - 1) with (Z.of_nat (length l) - 1) in Hm by lia.
    replace (Z.to_nat (Z.of_nat (length l) - E)) with (length l - Z.to_nat E)%nat by lia.
    rewrite Hm by lia. cbn [obind]. rewrite (at_val _ s d) by by rewrite upd_at_ne. cbn [obind].
    set (r := splice (l ++ q) _ _). assert (Hr : length r = Z.to_nat new).
    { unfold r. rewrite splice_length; rewrite ?app_length, ?take_length, ?drop_length, ?app_length; lia. }
    rewrite (Hins (upd h t (CDeq (place f (Z.to_nat new)) r)) (place f (Z.to_nat new)) r); [|by apply upd_at|by rewrite upd_at_ne|lia]. cbn [obind]. rewrite upd_twice.
    eexists _, _. split; [done|]. apply replaces_upd; try done. cbn [contents]. apply grown_eq; lia.
  - rewrite (Hins h f l) by (done || lia). cbn [obind].
    eexists _, _. split; [done|]. apply replaces_upd; try done. cbn [contents]. apply in_place; lia.
Qed.

Lemma storable_takes k l m : takes (CVec k l) m <-> Forall (fun v => storable k v = true) m.
Proof. rewrite takes_forall. done. Qed.

Lemma replace_ok fuel place h t s c d l m start last :
  h !! t = Some c -> h !! s = Some d -> wf_coll c -> wf_coll d ->
  match c with CVec _ _ => True | CDeq _ _ => t <> s | _ => False end ->
  contents c = l -> elements_are d m -> takes c m ->
  in_bounds l start (end_of l last) -> (length m < fuel)%nat ->
  exists h' a, replace_subsequence fuel place h t s start last = Val (h', a) /\ replaces h t c (replaced l m start (end_of l last)) h' a.
Proof.
  intros Ht Hs Hwc Hwd Hc Hl Hd Hm Hb Hf. unfold replace_subsequence. rewrite (at_val _ _ _ Ht), (at_val _ _ _ Hs). cbn [obind].
  pose proof (holds_elements _ _ Hwd Hd) as Hh.
  destruct c as [k l0|f l0| | | |]; try done; cbn [contents] in Hl; subst l0.
  - pose proof (self_takes (CVec k l) l Hwc I eq_refl) as Hself. apply storable_takes in Hself. apply storable_takes in Hm.
    destruct (decide (is_array d = true)) as [Ha|Ha].
    + destruct d as [k' m'| | | | |]; try done. apply elements_editable in Hd; [|done]. cbn in Hd. subst m'. by eapply replace_vectors_ok.
    + assert (t <> s) by (intros ->; rewrite Hs in Ht; injection Ht as ->; done).
      destruct d; try done; by eapply replace_mutable_ok.
  - destruct d; by eapply replace_deque_ok.
Qed.

Lemma replace_vec_bad fuel place h t s k l d m start last :
  h !! t = Some (CVec k l) -> h !! s = Some d -> wf_coll d -> elements_are d m ->
  ~ in_bounds l start (end_of l last) -> exists e, replace_subsequence fuel place h t s start last = Signal e.
Proof.
  intros Ht Hs Hw Hd Hb. destruct (bounds_bad _ _ _ Hb) as [e He]. exists e.
  pose proof (holds_elements _ _ Hw Hd) as Hh.
  unfold replace_subsequence. rewrite (at_val _ _ _ Ht), (at_val _ _ _ Hs). cbn [obind].
  assert (H1 : replace_vectors fuel h t s start last = Signal e).
  { unfold replace_vectors. rewrite (at_val _ _ _ Ht), (at_val _ _ _ Hs). cbn [obind]. rewrite len_editable by done. cbn [obind].
    rewrite (len_holds _ _ Hh). cbn [obind contents]. by rewrite He. }
  assert (H2 : replace_mutable fuel h t s start last = Signal e).
  { unfold replace_mutable. rewrite (at_val _ _ _ Ht), (at_val _ _ _ Hs). cbn [obind]. rewrite len_editable by done. cbn [obind].
    rewrite (len_holds _ _ Hh). cbn [obind contents]. by rewrite He. }
  destruct d; done.
Qed.

Lemma wf_contents c c' l : same_class c c' -> contents c' = l -> takes c l -> wf_coll c -> editable c' -> wf_coll c'.
Proof. intros Hs <- Ht Hw He. destruct c as [[]| | | | |], c'; cbn in *; subst; try done. Qed.

Lemma takes_replaced c l m start last : takes c l -> takes c m -> takes c (replaced l m start last).
Proof.
  rewrite !takes_forall. intros Hl Hm. unfold replaced. apply Forall_app. split; [by apply Forall_take|]. apply Forall_app. split; [done|by apply Forall_drop].
Qed.

Lemma takes_copied c l start last : takes c l -> takes c (copied l start last).
Proof. rewrite !takes_forall. intros Hl. unfold copied. by apply Forall_take, Forall_drop. Qed.
