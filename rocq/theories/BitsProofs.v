(** Proofs about bit vectors and bit sets. *)
From Verif Require Import Base BitsModel BitsSpec.
From stdpp Require Import list_numbers.
From Coq Require Import ZifyBool ZifyNat ZifyN.
Ltac Zify.zify_post_hook ::= Z.div_mod_to_equations.
Local Open Scope nat_scope.
Local Open Scope outcome_scope.

(** ** Words *)
Arguments word_minus_one : simpl never.
Arguments word_zero : simpl never.
Arguments wbit : simpl never.
Arguments N.ones : simpl never.
Arguments Nat.modulo : simpl never.
Arguments Nat.div : simpl never.
Definition wok (w : N) : Prop := (w < 2 ^ 64)%N.

Lemma wok_high w k : wok w -> 64 <= k -> wbit w k = false.
Proof.
  intros H Hk. unfold wbit. unfold wok in H. rewrite <- (N.mod_small w (2 ^ 64)) by done.
  apply N.mod_pow2_bits_high. lia.
Qed.

Lemma wok_intro w : (forall k, 64 <= k -> wbit w k = false) -> wok w.
Proof.
  intros H. unfold wok. replace w with (w mod 2 ^ 64)%N.
  - apply N.mod_lt. discriminate.
  - apply N.bits_inj. intros n. destruct (N.lt_ge_cases n 64) as [Hn|Hn].
    + by apply N.mod_pow2_bits_low.
    + rewrite N.mod_pow2_bits_high by done. specialize (H (N.to_nat n)).
      unfold wbit in H. rewrite N2Nat.id in H. symmetry. apply H. lia.
Qed.

Lemma wbit_ones k : wbit (N.ones 64) k = bool_decide (k < 64).
Proof.
  unfold wbit. case_bool_decide.
  - apply N.ones_spec_low. lia.
  - apply N.ones_spec_high. lia.
Qed.
Lemma wbit_minus_one k : k < 64 -> wbit word_minus_one k = true.
Proof. intros. unfold word_minus_one. rewrite wbit_ones. by apply bool_decide_true. Qed.
Lemma wbit_zero k : wbit word_zero k = false.
Proof. apply N.bits_0. Qed.
Lemma wbit_wand a b k : wbit (wand a b) k = wbit a k && wbit b k.
Proof. apply N.land_spec. Qed.
Lemma wbit_wor a b k : wbit (wor a b) k = wbit a k || wbit b k.
Proof. apply N.lor_spec. Qed.
Lemma wbit_wxor a b k : wbit (wxor a b) k = xorb (wbit a k) (wbit b k).
Proof. apply N.lxor_spec. Qed.
Lemma wbit_wnot a k : k < 64 -> wbit (wnot a) k = negb (wbit a k).
Proof.
  intros H. unfold wbit, wnot. rewrite N.ldiff_spec. rewrite N.ones_spec_low by lia. done.
Qed.
Lemma wbit_shl a b k :
  wbit (wshl a b) k = bool_decide (k < 64) && (bool_decide (b <= k) && wbit a (k - b)).
Proof.
  unfold wshl. change (N.land ?x ?y) with (wand x y). rewrite wbit_wand, wbit_ones.
  rewrite (andb_comm _ (bool_decide (k < 64))). f_equal. unfold wbit.
  case_bool_decide.
  - rewrite N.shiftl_spec_high' by lia. simpl. f_equal. lia.
  - simpl. apply N.shiftl_spec_low. lia.
Qed.
Lemma wbit_above b k : k < 64 -> wbit (mask_above b) k = bool_decide (b <= k).
Proof.
  intros H. unfold mask_above. rewrite wbit_shl, bool_decide_true by done. simpl.
  case_bool_decide; [|done]. rewrite wbit_minus_one by lia. done.
Qed.
Lemma wbit_below b k : k < 64 -> wbit (mask_strictly_below b) k = bool_decide (k < b).
Proof.
  intros H. unfold mask_strictly_below. rewrite wbit_wnot by done.
  change (wshl word_minus_one b) with (mask_above b). rewrite wbit_above by done.
  repeat case_bool_decide; simpl; lia || done.
Qed.
Lemma wbit_one_shl b k : k < 64 -> wbit (wshl 1 b) k = bool_decide (k = b).
Proof.
  intros H. rewrite wbit_shl, bool_decide_true by done. simpl.
  unfold wbit. case_bool_decide.
  - simpl. destruct (decide (k = b)) as [->|Hn].
    + rewrite Nat.sub_diag. by rewrite bool_decide_true.
    + rewrite bool_decide_false by done.
      destruct (N.of_nat (k - b)) eqn:E; [lia|done].
  - simpl. rewrite bool_decide_false; [done|lia].
Qed.

Lemma wok_zero : wok word_zero. Proof. done. Qed.
Lemma wok_minus_one : wok word_minus_one. Proof. done. Qed.
Lemma wok_wand a b : wok a -> wok (wand a b).
Proof.
  intros Ha. apply wok_intro. intros k Hk. rewrite wbit_wand.
  by rewrite (wok_high _ _ Ha).
Qed.
Lemma wok_wand_r a b : wok b -> wok (wand a b).
Proof. intros. unfold wand. rewrite N.land_comm. by apply wok_wand. Qed.
Lemma wok_wor a b : wok a -> wok b -> wok (wor a b).
Proof.
  intros Ha Hb. apply wok_intro. intros k Hk. rewrite wbit_wor.
  by rewrite (wok_high _ _ Ha), (wok_high _ _ Hb).
Qed.
Lemma wok_wxor a b : wok a -> wok b -> wok (wxor a b).
Proof.
  intros Ha Hb. apply wok_intro. intros k Hk. rewrite wbit_wxor.
  by rewrite (wok_high _ _ Ha), (wok_high _ _ Hb).
Qed.
Lemma wok_wnot a : wok (wnot a).
Proof.
  apply wok_intro. intros k Hk. unfold wbit, wnot. rewrite N.ldiff_spec.
  rewrite N.ones_spec_high by lia. done.
Qed.
Lemma wok_wshl a b : wok (wshl a b).
Proof.
  apply wok_intro. intros k Hk. rewrite wbit_shl. rewrite bool_decide_false by lia. done.
Qed.
Lemma wok_above b : wok (mask_above b). Proof. apply wok_wshl. Qed.
Lemma wok_below b : wok (mask_strictly_below b). Proof. apply wok_wnot. Qed.

Lemma wok_pad w b p : wok w -> wok (mask_and_pad_word w b p).
Proof.
  intros H. unfold mask_and_pad_word. repeat case_match; auto using wok_wand, wok_wor, wok_above.
Qed.
Lemma wbit_pad w b p k :
  k < 64 -> wbit (mask_and_pad_word w b p) k
            = if decide (b = 0 \/ k < b) then wbit w k else p.
Proof.
  intros Hk. unfold mask_and_pad_word. destruct (Nat.eqb_spec b 0) as [->|Hb].
  - by rewrite decide_True by auto.
  - destruct p; simpl; rewrite ?wbit_wand, ?wbit_wor, ?wbit_below, ?wbit_above by done;
      case_bool_decide; destruct (decide _); try lia;
      rewrite ?andb_true_r, ?orb_false_r, ?andb_false_r, ?orb_true_r; done.
Qed.

Lemma count_ones_loop_spec n w :
  count_ones_loop n w = length (filter (fun k => wbit w k = true) (seq 0 n)).
Proof.
  revert w. induction n as [|n IH]; intros w; [done|].
  cbn [count_ones_loop seq]. rewrite filter_cons. rewrite IH.
  assert (length (filter (fun k => wbit (N.div2 w) k = true) (seq 0 n))
          = length (filter (fun k => wbit w k = true) (seq 1 n))) as ->.
  { rewrite <- seq_shift. clear IH. generalize (seq 0 n). intros l.
    induction l as [|x l IH]; [done|]. cbn [list_fmap fmap map].
    rewrite !filter_cons.
    assert (wbit (N.div2 w) x = wbit w (S x)) as E.
    { unfold wbit. rewrite N.div2_spec, N.shiftr_spec'. f_equal. lia. }
    rewrite E. destruct (decide (wbit w (S x) = true)); simpl; rewrite IH; done. }
  assert (N.odd w = wbit w 0) as -> by (symmetry; apply N.bit0_odd).
  destruct (wbit w 0); simpl; done.
Qed.

(** ** Heap *)
Lemma get_val h a v : h !! a = Some v -> get h a = Val v.
Proof. unfold get. by intros ->. Qed.

Lemma word_val h a v i w : h !! a = Some v -> bv_words v !! i = Some w -> word h a i = Val w.
Proof. intros Hv Hw. unfold word. rewrite (get_val _ _ _ Hv). simpl. by apply vread_val. Qed.

Lemma set_word_val h a v i w :
  h !! a = Some v -> i < length (bv_words v) ->
  set_word h a i w = Val (<[a := BV (bv_size v) (<[i := w]> (bv_words v))]> h).
Proof.
  intros Hv Hi. unfold set_word. rewrite (get_val _ _ _ Hv). simpl.
  by rewrite vwrite_val by done.
Qed.

(** A loop over words [i, i+n) of [r], where the function only looks at positions not yet
    written. *)
Lemma for_words_spec f (g : nat -> N) r n :
  forall h i s ws,
  h !! r = Some (BV s ws) -> i + n <= length ws ->
  (forall j ws', i <= j < i + n -> length ws' = length ws ->
     (forall k, j <= k -> ws' !! k = ws !! k) ->
     f (<[r := BV s ws']> h) j = Val (g j)) ->
  exists ws', for_words f r h i n = Val (<[r := BV s ws']> h) /\ length ws' = length ws /\
    forall k, ws' !! k = if decide (i <= k < i + n) then Some (g k) else ws !! k.
Proof.
  induction n as [|n IH]; intros h i s ws Hr Hlen Hf.
  - exists ws. simpl. rewrite list_insert_id by done. split_and!; auto.
    intros k. by rewrite decide_False by lia.
  - cbn [for_words].
    assert (f h i = Val (g i)) as ->.
    { rewrite <- (list_insert_id h r (BV s ws)) by done. apply Hf; auto; lia. }
    cbn [obind]. rewrite (set_word_val _ _ _ _ _ Hr) by (simpl; lia). cbn [obind bv_size bv_words].
    set (h1 := <[r:=BV s (<[i:=g i]> ws)]> h).
    assert (r < length h) as Hrl by (by eapply lookup_lt_Some).
    destruct (IH h1 (S i) s (<[i:=g i]> ws)) as (ws' & Hrun & Hl & Hk).
    + unfold h1. by rewrite list_lookup_insert by done.
    + rewrite insert_length. lia.
    + intros j ws' Hj Hl Hk. unfold h1. rewrite list_insert_insert. apply Hf; try lia.
      * rewrite Hl. apply insert_length.
      * intros k Hjk. rewrite Hk by done. apply list_lookup_insert_ne. lia.
    + exists ws'. rewrite Hrun. unfold h1. rewrite list_insert_insert.
      split_and!; [done|by rewrite Hl, insert_length|].
      intros k. rewrite Hk. destruct (decide (S i <= k < S i + n)).
      * by rewrite decide_True by lia.
      * destruct (decide (k = i)) as [->|Hn].
        -- rewrite decide_True by lia. apply list_lookup_insert. lia.
        -- rewrite decide_False by lia. by apply list_lookup_insert_ne.
Qed.

(** ** Well-formed vectors *)
Lemma bit_word v i w : bv_words v !! (i / 64) = Some w -> bit v i = wbit w (i mod 64).
Proof. unfold bit. by intros ->. Qed.

Lemma wf_word v k : bv_wf v -> k < (bv_size v + 63) / 64 ->
  exists w, bv_words v !! k = Some w /\ wok w.
Proof.
  intros [Hl Hw] Hk. destruct (lookup_lt_is_Some_2 (bv_words v) k) as [w Hwk]; [lia|].
  exists w. split; [done|]. rewrite Forall_lookup in Hw. by eapply Hw.
Qed.

Lemma wf_intro s ws :
  length ws = (s + 63) / 64 -> (forall k w, ws !! k = Some w -> wok w) -> bv_wf (BV s ws).
Proof. intros Hl Hw. split; [done|]. by apply Forall_lookup. Qed.

Lemma wf_wok v k w : bv_wf v -> bv_words v !! k = Some w -> wok w.
Proof. intros [_ H]. rewrite Forall_lookup in H. apply H. Qed.

(** ** make *)
Lemma wsize_eq n : n <> 0 -> word_offset (n - 1) + 1 = (n + 63) / 64.
Proof. intros. unfold word_offset, word_bits. lia. Qed.

Lemma round_up_spec n (ru : bool) : n <> 0 ->
  ((if ru then (n + 63) / 64 * word_bits else n) + 63) / 64 = (n + 63) / 64.
Proof. intros. unfold word_bits. destruct ru; [|done]. lia. Qed.

(** The size make(<bit-vector>, size: n, round-up-size?: ru) chooses. *)
Definition made_size (n : nat) (ru : bool) : nat := if ru then (n + 63) / 64 * 64 else n.

Lemma make_bv_spec h n ru fl cf :
  match cf with
  | None => True
  | Some c => exists cv, h !! c = Some cv /\ bv_wf cv
  end ->
  exists v, make_bv h n ru fl cf = Val (h ++ [v], length h) /\ bv_wf v /\
    bv_size v = made_size n ru /\
    forall i, i < bv_size v ->
      bit v i = match cf with
                | Some c => match h !! c with Some cv => ext cv fl i | None => fl end
                | None => fl
                end.
Proof.
  intros Hcf. unfold make_bv. destruct (Nat.eqb_spec n 0) as [->|Hn].
  { exists (BV 0 []). split_and!; auto.
    - split; [done|constructor].
    - destruct ru; done.
    - simpl. lia. }
  rewrite wsize_eq by done. cbn zeta. set (W := (n + 63) / 64).
  set (s := if ru then W * word_bits else n).
  assert (s = made_size n ru) as Hs. { unfold s, made_size, W, word_bits. by destruct ru. }
  assert ((s + 63) / 64 = W) as HsW by (by apply round_up_spec).
  set (wf := if negb fl then word_zero else word_minus_one).
  assert (wok wf) as Hwf by (unfold wf; destruct fl; done).
  assert (forall k, k < 64 -> wbit wf k = fl) as Hwfb.
  { intros k Hk. unfold wf. destruct fl; simpl; [by apply wbit_minus_one|apply wbit_zero]. }
  set (h1 := h ++ [BV s (replicate W 0%N)]).
  assert (h1 !! length h = Some (BV s (replicate W 0%N))) as Hh1.
  { unfold h1. rewrite lookup_app_r by lia. by rewrite Nat.sub_diag. }
  destruct (for_words_spec (fun _ _ => Val wf) (fun _ => wf) (length h) W h1 0 s _ Hh1)
    as (ws & Hrun & Hl & Hk).
  { rewrite replicate_length. lia. }
  { done. }
  rewrite replicate_length in Hl.
  rewrite Hrun. cbn [obind]. clear Hrun.
  assert (forall w', <[length h := BV s w']> h1 = h ++ [BV s w']) as Hins.
  { intros w'. unfold h1. rewrite insert_app_r_alt by lia. rewrite Nat.sub_diag. done. }
  rewrite Hins.
  assert (forall k, k < W -> ws !! k = Some wf) as Hws.
  { intros k Hk'. rewrite Hk. by rewrite decide_True by lia. }
  assert (forall i, i < s -> i / 64 < W) as Hdiv by (intros; lia).
  assert (Hfillcase : exists v, Val (h ++ [BV s ws], length h) = Val (h ++ [v], length h) /\
    bv_wf v /\ bv_size v = made_size n ru /\ forall i, i < bv_size v -> bit v i = fl).
  { exists (BV s ws). split_and!; auto.
    - apply wf_intro; [lia|]. intros k w Hw. destruct (decide (k < W)).
      + rewrite Hws in Hw by done. congruence.
      + apply lookup_lt_Some in Hw. lia.
    - simpl. intros i Hi. rewrite (bit_word _ _ wf).
      + apply Hwfb. lia.
      + simpl. apply Hws. by apply Hdiv. }
  destruct cf as [c|]; [|done].
  destruct Hcf as (cv & Hc & Hcvwf). rewrite Hc.
  assert (c < length h) as Hcl by (by eapply lookup_lt_Some).
  assert (forall x, (h ++ [x]) !! c = Some cv) as Hcx by (intros; by rewrite lookup_app_l).
  rewrite (get_val _ _ cv) by done. cbn [obind].
  destruct (Nat.eqb_spec (bv_size cv) 0) as [Hc0|Hc0].
  { destruct Hfillcase as (v & Hv & Hvwf & Hvs & Hvb). exists v. split_and!; auto.
    intros i Hi. rewrite Hvb by done. unfold ext. by rewrite decide_False by lia. }
  clear Hfillcase.
  pose proof (proj1 Hcvwf) as Hclen.
  assert (forall ws0, (h ++ [BV s ws0]) !! length h = Some (BV s ws0)) as Hlast.
  { intros. rewrite lookup_app_r by lia. by rewrite Nat.sub_diag. }
  assert (forall ws0 w', <[length h := BV s w']> (h ++ [BV s ws0]) = h ++ [BV s w']) as Hins2.
  { intros. rewrite insert_app_r_alt by lia. by rewrite Nat.sub_diag. }
  destruct (Nat.leb_spec s (bv_size cv)) as [Hle|Hlt].
  - destruct (for_words_spec (fun h0 i => word h0 c i)
      (fun i => default 0%N (bv_words cv !! i)) (length h) W (h ++ [BV s ws]) 0 s ws (Hlast ws))
      as (ws' & Hrun & Hl' & Hk').
    { lia. }
    { intros j w' Hj Hlw' Hkw'. rewrite Hins2.
      destruct (wf_word cv j Hcvwf) as (w & Hw & _); [lia|].
      rewrite (word_val _ _ _ _ _ (Hcx _) Hw). by rewrite Hw. }
    rewrite Hrun. cbn [obind]. rewrite Hins2. exists (BV s ws').
    assert (forall k, k < W -> exists w, ws' !! k = Some w /\ bv_words cv !! k = Some w /\ wok w)
      as Hall.
    { intros k Hkl. rewrite Hk', decide_True by lia.
      destruct (wf_word cv k Hcvwf) as (w & Hw & Hok); [lia|]. exists w. by rewrite Hw. }
    split_and!; auto.
    + apply wf_intro; [lia|]. intros k w Hw.
      destruct (Hall k) as (w' & Hw' & _ & Hok). { apply lookup_lt_Some in Hw. lia. }
      congruence.
    + cbn [bv_size]. intros i Hi. unfold ext. rewrite decide_True by lia.
      destruct (Hall (i / 64)) as (w & Hw1 & Hw2 & _); [auto|].
      rewrite (bit_word _ _ _ Hw2). by rewrite (bit_word (BV s ws') _ _ Hw1).
  - unfold word_size. set (last := length (bv_words cv) - 1).
    destruct (for_words_spec (fun h0 i => word h0 c i)
      (fun i => default 0%N (bv_words cv !! i)) (length h) last (h ++ [BV s ws]) 0 s ws (Hlast ws))
      as (ws' & Hrun & Hl' & Hk').
    { lia. }
    { intros j w' Hj Hlw' Hkw'. rewrite Hins2.
      destruct (wf_word cv j Hcvwf) as (w & Hw & _); [lia|].
      rewrite (word_val _ _ _ _ _ (Hcx _) Hw). by rewrite Hw. }
    rewrite Hrun. cbn [obind]. rewrite Hins2.
    unfold copy_bit_vector_word.
    destruct (wf_word cv last Hcvwf) as (wl & Hwl & Hwlok); [lia|].
    rewrite (word_val _ _ _ _ _ (Hcx _) Hwl). cbn [obind].
    set (bl := bit_offset (bv_size cv)).
    set (wx := if Nat.eqb bl 0 then wl else
               if negb fl then wand wl (mask_strictly_below bl) else wor wl (mask_above bl)).
    assert ((if Nat.eqb bl 0 then set_word (h ++ [BV s ws']) (length h) last wl
      else set_word (h ++ [BV s ws']) (length h) last
        (if negb fl then wand wl (mask_strictly_below bl) else wor wl (mask_above bl)))
      = Val (h ++ [BV s (<[last := wx]> ws')])) as ->.
    { unfold wx. destruct (Nat.eqb bl 0); rewrite (set_word_val _ _ _ _ _ (Hlast ws'))
        by (cbn; lia); cbn [bv_size bv_words]; by rewrite Hins2. }
    cbn [obind].
    assert (wx = mask_and_pad_word wl bl fl) as Hwx by done. clearbody wx.
    exists (BV s (<[last := wx]> ws')).
    assert (wok wx) as Hwxok. { rewrite Hwx. by apply wok_pad. }
    assert (forall k, k < W -> <[last := wx]> ws' !! k = Some
       (if decide (k < last) then default 0%N (bv_words cv !! k)
        else if decide (k = last) then wx else wf)) as Hall.
    { intros k Hkl. destruct (decide (k = last)) as [->|Hne].
      - rewrite list_lookup_insert by lia. by rewrite decide_False by lia.
      - rewrite list_lookup_insert_ne by done. rewrite Hk'.
        destruct (decide (k < last)).
        + by rewrite decide_True by lia.
        + rewrite decide_False by lia. by apply Hws. }
    split_and!; auto.
    + apply wf_intro; [rewrite insert_length; lia|]. intros k w Hw.
      rewrite Hall in Hw by (apply lookup_lt_Some in Hw; rewrite insert_length in Hw; lia).
      repeat case_decide; simplify_eq; auto.
      destruct (wf_word cv k Hcvwf) as (w & Hw & Hok); [lia|]. by rewrite Hw.
    + cbn [bv_size]. intros i Hi. unfold ext.
      erewrite (bit_word (BV s _) i); [|apply Hall; auto].
      assert (bl = bv_size cv mod 64) as Hbl by done.
      destruct (decide (i / 64 < last)).
      * rewrite decide_True by lia.
        destruct (wf_word cv (i / 64) Hcvwf) as (w & Hw & _); [lia|].
        rewrite Hw. simpl. symmetry. by apply bit_word.
      * destruct (decide (i / 64 = last)) as [Hil|Hil].
        -- rewrite Hwx, wbit_pad by lia. rewrite <- Hil in Hwl.
           destruct (decide (i < bv_size cv)).
           ++ rewrite decide_True by lia. symmetry. by apply bit_word.
           ++ by rewrite decide_False by lia.
        -- rewrite Hwfb by lia. by rewrite decide_False by lia.
Qed.

(** ** Combining vectors *)
Lemma word_upd h r s ws ws' a va i w :
  h !! r = Some (BV s ws) -> ws' !! i = ws !! i -> h !! a = Some va ->
  bv_words va !! i = Some w -> word (<[r := BV s ws']> h) a i = Val w.
Proof.
  intros Hr Hi Ha Hw. assert (r < length h) by (by eapply lookup_lt_Some).
  destruct (decide (a = r)) as [->|Hn].
  - assert (va = BV s ws) as -> by congruence.
    apply (word_val _ _ (BV s ws')); [by apply list_lookup_insert|]. simpl in *. congruence.
  - apply (word_val _ _ va); [|done]. by rewrite list_lookup_insert_ne.
Qed.

Definition op_ok (op : N -> N -> N) (bop : bool -> bool -> bool) (tail : bool -> tail_words) :=
  (forall x y, wok x -> wok y -> wok (op x y)) /\
  (forall x y k, k < 64 -> wbit (op x y) k = bop (wbit x k) (wbit y k)) /\
  (forall p, match tail p with
             | TConst w => wok w /\ forall k b, k < 64 -> wbit w k = bop p b
             | TWord f => (forall y, wok y -> wok (f y)) /\
                          forall y k, k < 64 -> wbit (f y) k = bop p (wbit y k)
             end).

Lemma internal_spec op bop tail h r a1 a2 p1 rv v1 v2 :
  op_ok op bop tail ->
  h !! r = Some rv -> h !! a1 = Some v1 -> h !! a2 = Some v2 ->
  bv_wf rv -> bv_wf v1 -> bv_wf v2 ->
  0 < bv_size rv -> bv_size v1 <= bv_size rv <= bv_size v2 ->
  exists v, internal op tail h r a1 a2 p1 = Val (<[r := v]> h) /\ bv_wf v /\
    bv_size v = bv_size rv /\
    forall i, i < bv_size v -> bit v i = bop (ext v1 p1 i) (bit v2 i).
Proof.
  intros (Hopok & Hop & Htail) Hr H1 H2 Wr W1 W2 Hpos [Hs1 Hs2].
  destruct rv as [s ws]. cbn [bv_size] in *.
  pose proof (proj1 Wr) as Lr. pose proof (proj1 W1) as L1. pose proof (proj1 W2) as L2.
  cbn [bv_size bv_words] in Lr.
  assert (r < length h) as Hrl by (by eapply lookup_lt_Some).
  unfold internal. rewrite (get_val _ _ _ Hr), (get_val _ _ _ H1). cbn [obind].
  unfold word_size. cbn [bv_words bv_size].
  set (ws1 := length (bv_words v1)). fold ws1 in L1.
  set (X := fun k => default 0%N (bv_words v1 !! k)).
  set (Y := fun k => default 0%N (bv_words v2 !! k)).
  assert (forall k, k < ws1 -> bv_words v1 !! k = Some (X k) /\ wok (X k)) as HX.
  { intros k Hk. unfold X. destruct (wf_word v1 k W1) as (w & Hw & Hok); [lia|]. by rewrite Hw. }
  assert (forall k, k < length ws -> bv_words v2 !! k = Some (Y k) /\ wok (Y k)) as HY.
  { intros k Hk. unfold Y. destruct (wf_word v2 k W2) as (w & Hw & Hok); [lia|]. by rewrite Hw. }
  destruct (for_words_spec
    (fun h i => do x <- word h a1 i; do y <- word h a2 i; Val (op x y))
    (fun k => op (X k) (Y k)) r (ws1 - 1) h 0 s ws Hr) as (wa & Hrun & Hla & Hka).
  { lia. }
  { intros j ws' Hj Hl Hk.
    destruct (HX j) as [Hxj _]; [lia|]. destruct (HY j) as [Hyj _]; [lia|].
    rewrite (word_upd _ _ _ _ _ _ _ _ _ Hr (Hk j (le_n _)) H1 Hxj). cbn [obind].
    by rewrite (word_upd _ _ _ _ _ _ _ _ _ Hr (Hk j (le_n _)) H2 Hyj). }
  rewrite Hrun. cbn [obind]. clear Hrun.
  assert (forall wx, <[r := BV s wx]> h !! r = Some (BV s wx)) as Hrx
    by (intros; by apply list_lookup_insert).
  destruct (Nat.eqb_spec (bv_size v1) s) as [Heq|Hne].
  - (* same size as the result *)
    assert (wa !! (ws1 - 1) = ws !! (ws1 - 1)) as Hkeep.
    { rewrite Hka. by rewrite decide_False by lia. }
    destruct (HX (ws1 - 1)) as [Hx Hxok]; [lia|]. destruct (HY (ws1 - 1)) as [Hy Hyok]; [lia|].
    rewrite (word_upd _ _ _ _ _ _ _ _ _ Hr Hkeep H1 Hx). cbn [obind].
    rewrite (word_upd _ _ _ _ _ _ _ _ _ Hr Hkeep H2 Hy). cbn [obind].
    rewrite (set_word_val _ _ _ _ _ (Hrx wa)) by (cbn; lia). cbn [bv_size bv_words].
    rewrite list_insert_insert. eexists. split; [reflexivity|].
    assert (forall k, k < ws1 -> <[ws1 - 1 := op (X (ws1 - 1)) (Y (ws1 - 1))]> wa !! k
              = Some (op (X k) (Y k))) as Hall.
    { intros k Hk. destruct (decide (k = ws1 - 1)) as [->|Hn].
      - apply list_lookup_insert. lia.
      - rewrite list_lookup_insert_ne by lia. rewrite Hka. by rewrite decide_True by lia. }
    split_and!; [|done|].
    + apply wf_intro; [rewrite insert_length; lia|]. intros k w Hw.
      assert (k < ws1) as Hk. { apply lookup_lt_Some in Hw. rewrite insert_length in Hw. lia. }
      rewrite Hall in Hw by done. simplify_eq. apply Hopok; [by apply HX|apply HY; lia].
    + cbn [bv_size]. intros i Hi. assert (i / 64 < ws1) as Hd by lia.
      erewrite (bit_word (BV s _)); [|by apply Hall]. rewrite Hop by lia.
      unfold ext. rewrite decide_True by lia.
      rewrite (bit_word v1 i _ (proj1 (HX _ Hd))).
      rewrite (bit_word v2 i (Y (i / 64))); [done|]. apply HY. lia.
  - (* the result is longer than v1 *)
    set (pw := mask_and_pad_word (X (ws1 - 1)) (bit_offset (bv_size v1)) p1).
    assert (exists wb, (if 0 <? ws1
              then do x <- word (<[r:=BV s wa]> h) a1 (ws1 - 1);
                   do y <- word (<[r:=BV s wa]> h) a2 (ws1 - 1);
                   set_word (<[r:=BV s wa]> h) r (ws1 - 1)
                     (op (mask_and_pad_word x (bit_offset (bv_size v1)) p1) y)
              else Val (<[r:=BV s wa]> h)) = Val (<[r:=BV s wb]> h) /\ length wb = length ws /\
            forall k, wb !! k = if decide (k < ws1)
                               then Some (op (if decide (k = ws1 - 1) then pw else X k) (Y k))
                               else ws !! k) as (wb & -> & Hlb & Hkb).
    { destruct (Nat.ltb_spec 0 ws1).
      - assert (wa !! (ws1 - 1) = ws !! (ws1 - 1)) as Hkeep.
        { rewrite Hka. by rewrite decide_False by lia. }
        destruct (HX (ws1 - 1)) as [Hx Hxok]; [lia|]. destruct (HY (ws1 - 1)) as [Hy Hyok]; [lia|].
        rewrite (word_upd _ _ _ _ _ _ _ _ _ Hr Hkeep H1 Hx). cbn [obind].
        rewrite (word_upd _ _ _ _ _ _ _ _ _ Hr Hkeep H2 Hy). cbn [obind].
        rewrite (set_word_val _ _ _ _ _ (Hrx wa)) by (cbn; lia). cbn [bv_size bv_words].
        rewrite list_insert_insert. eexists. split; [reflexivity|].
        split; [rewrite insert_length; lia|]. intros k.
        destruct (decide (k = ws1 - 1)) as [->|Hn].
        + rewrite list_lookup_insert by lia. by rewrite decide_True by lia.
        + rewrite list_lookup_insert_ne by lia. rewrite Hka.
          destruct (decide (k < ws1)).
          * by rewrite decide_True by lia.
          * by rewrite decide_False by lia.
      - exists wa. split; [done|]. split; [done|]. intros k. rewrite Hka.
        by rewrite !decide_False by lia. }
    cbn [obind].
    set (T := fun k => match tail p1 with TConst w => w | TWord f => f (Y k) end).
    assert (exists wc, (if ws1 <? length ws
       then for_words (fun h i => match tail p1 with
                            | TConst w => Val w
                            | TWord f => do y <- word h a2 i; Val (f y)
                            end) r (<[r:=BV s wb]> h) ws1 (length ws - ws1)
       else Val (<[r:=BV s wb]> h)) = Val (<[r:=BV s wc]> h) /\ length wc = length ws /\
       forall k, k < length ws -> wc !! k = if decide (k < ws1)
                               then Some (op (if decide (k = ws1 - 1) then pw else X k) (Y k))
                               else Some (T k)) as (wc & -> & Hlc & Hkc).
    { destruct (Nat.ltb_spec ws1 (length ws)).
      - destruct (for_words_spec (fun h i => match tail p1 with
                            | TConst w => Val w
                            | TWord f => do y <- word h a2 i; Val (f y)
                            end) T r (length ws - ws1) (<[r:=BV s wb]> h) ws1 s wb (Hrx wb))
          as (wc & Hrun & Hlc & Hkc).
        { lia. }
        { intros j ws' Hj Hl Hk. unfold T. destruct (tail p1) as [w|f]; [done|].
          rewrite list_insert_insert.
          destruct (HY j) as [Hyj _]; [lia|].
          assert (ws' !! j = ws !! j) as Hkeep.
          { rewrite Hk by done. rewrite Hkb. by rewrite decide_False by lia. }
          by rewrite (word_upd _ _ _ _ _ _ _ _ _ Hr Hkeep H2 Hyj). }
        exists wc. rewrite Hrun, list_insert_insert. split; [done|]. split; [lia|].
        intros k Hkl. rewrite Hkc. destruct (decide (k < ws1)).
        + rewrite decide_False by lia. rewrite Hkb. by rewrite decide_True by lia.
        + by rewrite decide_True by lia.
      - exists wb. split; [done|]. split; [done|]. intros k Hkl. rewrite Hkb.
        repeat case_decide; first [done|lia]. }
    exists (BV s wc). split; [done|]. specialize (Htail p1).
    split_and!; [|done|].
    + apply wf_intro; [lia|]. intros k w Hw.
      assert (k < length ws) as Hkl by (apply lookup_lt_Some in Hw; lia).
      rewrite Hkc in Hw by done. destruct (decide (k < ws1)) as [Hk1|Hk1]; simplify_eq.
      * apply Hopok; [|by apply HY]. destruct (decide _); [|by apply HX].
        apply wok_pad. apply HX. lia.
      * unfold T. destruct (tail p1); [apply Htail|]. apply Htail. by apply HY.
    + cbn [bv_size]. intros i Hi. assert (i / 64 < length ws) as Hd by lia.
      specialize (Hkc _ Hd).
      rewrite (bit_word v2 i (Y (i / 64))) by (apply HY; lia).
      unfold ext. destruct (decide (i / 64 < ws1)) as [Hk1|Hk1];
        rewrite (bit_word (BV s _) _ _ Hkc).
      * rewrite Hop by lia. f_equal.
        destruct (decide (i / 64 = ws1 - 1)) as [Hlast|Hlast].
        -- unfold pw. rewrite wbit_pad by lia. unfold bit_offset, word_bits.
           destruct (decide (i < bv_size v1)).
           ++ rewrite decide_True by lia. symmetry. apply bit_word. rewrite Hlast. apply HX. lia.
           ++ by rewrite decide_False by lia.
        -- rewrite decide_True by lia. symmetry. apply bit_word. by apply HX.
      * rewrite decide_False by lia. unfold T. destruct (tail p1); apply Htail; lia.
Qed.

Lemma insert_last {A} (l : list A) x y : <[length l := y]> (l ++ [x]) = l ++ [y].
Proof. rewrite insert_app_r_alt by lia. by rewrite Nat.sub_diag. Qed.
Lemma lookup_last_app {A} (l : list A) x : (l ++ [x]) !! length l = Some x.
Proof. rewrite lookup_app_r by lia. by rewrite Nat.sub_diag. Qed.

Lemma ext_in v p i : i < bv_size v -> ext v p i = bit v i.
Proof. intros. unfold ext. by rewrite decide_True. Qed.
Lemma ext_out v p i : bv_size v <= i -> ext v p i = p.
Proof. intros. unfold ext. by rewrite decide_False by lia. Qed.

Section combine_proofs.
Context (op opg : N -> N -> N) (tail tailg : bool -> tail_words) (bop : bool -> bool -> bool).
Context (Hf : op_ok op bop tail) (Hg : op_ok opg (fun x y => bop y x) tailg).

Lemma sorted_internal_spec h r a1 a2 p1 p2 rv v1 v2 :
  h !! r = Some rv -> h !! a1 = Some v1 -> h !! a2 = Some v2 ->
  bv_wf rv -> bv_wf v1 -> bv_wf v2 -> 0 < bv_size rv ->
  Nat.min (bv_size v1) (bv_size v2) <= bv_size rv <= Nat.max (bv_size v1) (bv_size v2) ->
  exists v, sorted_internal (internal op tail) (internal opg tailg) h r a1 a2
              (bv_size v1) (bv_size v2) p1 p2 = Val (<[r := v]> h) /\ bv_wf v /\
    bv_size v = bv_size rv /\
    forall i, i < bv_size v -> bit v i = bop (ext v1 p1 i) (ext v2 p2 i).
Proof.
  intros Hr H1 H2 Wr W1 W2 Hpos Hs. unfold sorted_internal.
  destruct (Nat.leb_spec (bv_size v1) (bv_size v2)).
  - destruct (internal_spec op bop tail h r a1 a2 p1 rv v1 v2) as (v & -> & Wv & Sv & Bv);
      auto; [lia|].
    exists v. split_and!; auto. intros i Hi. rewrite Bv by done.
    f_equal. symmetry. apply ext_in. lia.
  - destruct (internal_spec opg (fun x y => bop y x) tailg h r a2 a1 p2 rv v2 v1)
      as (v & -> & Wv & Sv & Bv); auto; [lia|].
    exists v. split_and!; auto. intros i Hi. rewrite Bv by done.
    f_equal. symmetry. apply ext_in. lia.
Qed.

(** A result of size [rs] with the pad bop(p1,p2) says everything about the combination. *)
Definition size_suffices (p1 p2 : bool) (s1 s2 rs : nat) : Prop :=
  Nat.min s1 s2 <= rs <= Nat.max s1 s2 /\
  forall i a b, rs <= i -> (s1 <= i -> a = p1) -> (s2 <= i -> b = p2) -> bop a b = bop p1 p2.

Lemma suffices_ext p1 p2 v1 v2 v :
  size_suffices p1 p2 (bv_size v1) (bv_size v2) (bv_size v) ->
  (forall i, i < bv_size v -> bit v i = bop (ext v1 p1 i) (ext v2 p2 i)) ->
  forall i, ext v (bop p1 p2) i = bop (ext v1 p1 i) (ext v2 p2 i).
Proof.
  intros [_ H] Hb i. destruct (decide (i < bv_size v)).
  - rewrite ext_in by done. auto.
  - rewrite ext_out by lia. symmetry. apply (H i); [lia|apply ext_out|apply ext_out].
Qed.

Lemma combine_spec rsf rp h a1 a2 p1 p2 v1 v2 :
  h !! a1 = Some v1 -> h !! a2 = Some v2 -> bv_wf v1 -> bv_wf v2 ->
  size_suffices p1 p2 (bv_size v1) (bv_size v2) (rsf p1 p2 (bv_size v1) (bv_size v2)) ->
  rp p1 p2 = bop p1 p2 ->
  exists v, bv_combine (internal op tail) (internal opg tailg) rsf rp h a1 a2 p1 p2
            = Val (h ++ [v], length h, bop p1 p2) /\ bv_wf v /\
    bv_size v = rsf p1 p2 (bv_size v1) (bv_size v2) /\
    forall i, ext v (bop p1 p2) i = bop (ext v1 p1 i) (ext v2 p2 i).
Proof.
  intros H1 H2 W1 W2 Hs Hrp. unfold bv_combine.
  rewrite (get_val _ _ _ H1), (get_val _ _ _ H2). cbn [obind].
  set (rs := rsf p1 p2 (bv_size v1) (bv_size v2)) in *.
  destruct (make_bv_spec h rs false false None I) as (v0 & -> & W0 & S0 & _).
  cbn [obind]. unfold made_size in S0. rewrite Hrp.
  assert (a1 < length h /\ a2 < length h) as [Hl1 Hl2] by (split; by eapply lookup_lt_Some).
  destruct (Nat.ltb_spec 0 rs) as [Hpos|Hpos].
  - destruct (sorted_internal_spec (h ++ [v0]) (length h) a1 a2 p1 p2 v0 v1 v2)
      as (v & -> & Wv & Sv & Bv); auto.
    + apply lookup_last_app.
    + by rewrite lookup_app_l.
    + by rewrite lookup_app_l.
    + lia.
    + rewrite S0. apply Hs.
    + cbn [obind]. rewrite insert_last. exists v. split_and!; auto; [by rewrite Sv|].
      apply suffices_ext; [|done]. by rewrite Sv, S0.
  - cbn [obind]. exists v0. split_and!; auto.
    apply suffices_ext; [by rewrite S0|]. intros i Hi. lia.
Qed.

Definition bang_size (inp : bool) (s1 s2 : nat) : nat :=
  if (s2 <=? s1) || inp then s1 else s2.

Lemma combine_bang_spec inp rp h a1 a2 p1 p2 v1 v2 :
  h !! a1 = Some v1 -> h !! a2 = Some v2 -> bv_wf v1 -> bv_wf v2 ->
  size_suffices p1 p2 (bv_size v1) (bv_size v2)
    (bang_size (inp p1) (bv_size v1) (bv_size v2)) ->
  rp p1 p2 = bop p1 p2 ->
  exists v h' r, combine_bang (internal op tail) (internal opg tailg) inp rp h a1 a2 p1 p2
            = Val (h', r, bop p1 p2) /\
    ((r = a1 /\ h' = <[a1 := v]> h) \/ (r = length h /\ h' = h ++ [v])) /\ bv_wf v /\
    bv_size v = bang_size (inp p1) (bv_size v1) (bv_size v2) /\
    forall i, ext v (bop p1 p2) i = bop (ext v1 p1 i) (ext v2 p2 i).
Proof.
  intros H1 H2 W1 W2 Hs Hrp. unfold combine_bang.
  rewrite (get_val _ _ _ H1), (get_val _ _ _ H2). cbn [obind]. rewrite Hrp.
  unfold bang_size in *.
  destruct ((bv_size v2 <=? bv_size v1) || inp p1); cbn [obind].
  - destruct (Nat.ltb_spec 0 (bv_size v1)) as [Hpos|Hpos].
    + destruct (sorted_internal_spec h a1 a1 a2 p1 p2 v1 v1 v2)
        as (v & -> & Wv & Sv & Bv); auto; [apply Hs|].
      cbn [obind]. eexists v, _, _. split; [reflexivity|]. split_and!; auto.
      apply suffices_ext; [|done]. by rewrite Sv.
    + cbn [obind]. exists v1, h, a1. split; [done|]. split.
      { left. split; [done|]. by rewrite list_insert_id. }
      split_and!; auto. apply suffices_ext; [done|]. intros i Hi. lia.
  - destruct (make_bv_spec h (bv_size v2) false false None I) as (v0 & -> & W0 & S0 & _).
    cbn [obind]. unfold made_size in S0.
    assert (a1 < length h /\ a2 < length h) as [Hl1 Hl2] by (split; by eapply lookup_lt_Some).
    destruct (Nat.ltb_spec 0 (bv_size v2)) as [Hpos|Hpos].
    + destruct (sorted_internal_spec (h ++ [v0]) (length h) a1 a2 p1 p2 v0 v1 v2)
        as (v & -> & Wv & Sv & Bv); auto.
      * apply lookup_last_app.
      * by rewrite lookup_app_l.
      * by rewrite lookup_app_l.
      * lia.
      * rewrite S0. apply Hs.
      * cbn [obind]. rewrite insert_last. exists v. eexists _, _.
        split; [reflexivity|]. split_and!; auto; [by rewrite Sv|].
        apply suffices_ext; [|done]. by rewrite Sv, S0.
    + cbn [obind]. exists v0. eexists _, _. split; [reflexivity|]. split_and!; auto.
      apply suffices_ext; [by rewrite S0|]. intros i Hi. lia.
Qed.
End combine_proofs.

(** The five operations on words. *)
Ltac op_ok_tac :=
  split_and!;
  [ intros; eauto using wok_wand, wok_wand_r, wok_wor, wok_wxor, wok_wnot
  | intros; rewrite ?wbit_wand, ?wbit_wor, ?wbit_wxor, ?wbit_wnot by done;
    repeat match goal with |- context [wbit ?a ?b] => destruct (wbit a b) end; done
  | intros []; simpl; split; intros; rewrite ?wbit_wnot, ?wbit_zero, ?wbit_minus_one by done;
    repeat match goal with
      | |- context [wbit ?a ?b] => destruct (wbit a b)
      | b : bool |- _ => destruct b end;
    auto using wok_wnot, wok_zero, wok_minus_one ].

Lemma and_ok : op_ok (fun x y => wand x y) andb
  (fun p1 => if negb p1 then TConst word_zero else TWord (fun y => y)).
Proof. op_ok_tac. Qed.
Lemma and_ok' : op_ok (fun x y => wand x y) (fun x y => y && x)
  (fun p1 => if negb p1 then TConst word_zero else TWord (fun y => y)).
Proof. op_ok_tac. Qed.
Lemma andc2_ok : op_ok (fun x y => wand x (wnot y)) andc2_pad
  (fun p1 => if negb p1 then TConst word_zero else TWord wnot).
Proof. op_ok_tac. Qed.
Lemma andc2_ok' : op_ok (fun x y => wand (wnot x) y) (fun x y => andc2_pad y x)
  (fun p1 => if negb p1 then TWord (fun y => y) else TConst word_zero).
Proof. op_ok_tac. Qed.
Lemma or_ok : op_ok (fun x y => wor x y) orb
  (fun p1 => if negb p1 then TWord (fun y => y) else TConst word_minus_one).
Proof. op_ok_tac. Qed.
Lemma or_ok' : op_ok (fun x y => wor x y) (fun x y => y || x)
  (fun p1 => if negb p1 then TWord (fun y => y) else TConst word_minus_one).
Proof. op_ok_tac. Qed.
Lemma xor_ok : op_ok (fun x y => wxor x y) xorb
  (fun p1 => if negb p1 then TWord (fun y => y) else TWord wnot).
Proof. op_ok_tac. Qed.
Lemma xor_ok' : op_ok (fun x y => wxor x y) (fun x y => xorb y x)
  (fun p1 => if negb p1 then TWord (fun y => y) else TWord wnot).
Proof. op_ok_tac. Qed.

Ltac suff_tac :=
  intros; unfold size_suffices, and_size, andc2_size, or_size, xor_size, bang_size, andc2_pad;
  repeat match goal with p : bool |- _ => destruct p end; simpl;
  repeat match goal with |- context [Nat.leb ?a ?b] => destruct (Nat.leb_spec a b); simpl end;
  (split; [lia|]);
  let i := fresh in let a := fresh in let b := fresh in
  let Ha := fresh in let Hb := fresh in
  intros i a b ? Ha Hb;
  match type of Ha with ?s1 <= _ -> _ => destruct (decide (s1 <= i)) as [?H1|?H1] end;
  match type of Hb with ?s2 <= _ -> _ => destruct (decide (s2 <= i)) as [?H2|?H2] end;
  try specialize (Ha ltac:(assumption)); try specialize (Hb ltac:(assumption)); subst; try lia;
  try (destruct a; reflexivity); try (destruct b; reflexivity).

Lemma and_suff p1 p2 s1 s2 : size_suffices andb p1 p2 s1 s2 (and_size p1 p2 s1 s2).
Proof. suff_tac. Qed.
Lemma andc2_suff p1 p2 s1 s2 : size_suffices andc2_pad p1 p2 s1 s2 (andc2_size p1 p2 s1 s2).
Proof. suff_tac. Qed.
Lemma or_suff p1 p2 s1 s2 : size_suffices orb p1 p2 s1 s2 (or_size p1 p2 s1 s2).
Proof. suff_tac. Qed.
Lemma xor_suff p1 p2 s1 s2 : size_suffices xorb p1 p2 s1 s2 (xor_size p1 p2 s1 s2).
Proof. suff_tac. Qed.
Lemma and_bsuff p1 p2 s1 s2 : size_suffices andb p1 p2 s1 s2 (bang_size (negb p1) s1 s2).
Proof. suff_tac. Qed.
Lemma andc2_bsuff p1 p2 s1 s2 : size_suffices andc2_pad p1 p2 s1 s2 (bang_size (negb p1) s1 s2).
Proof. suff_tac. Qed.
Lemma or_bsuff p1 p2 s1 s2 : size_suffices orb p1 p2 s1 s2 (bang_size p1 s1 s2).
Proof. suff_tac. Qed.
Lemma xor_bsuff p1 p2 s1 s2 : size_suffices xorb p1 p2 s1 s2 (bang_size false s1 s2).
Proof. suff_tac. Qed.

Ltac computes_tac ok ok' suff :=
  intros h a1 a2 p1 p2 v1 v2 H1 H2 W1 W2;
  destruct (combine_spec _ _ _ _ _ ok ok' _ _ h a1 a2 p1 p2 v1 v2 H1 H2 W1 W2
              (suff p1 p2 _ _) eq_refl) as (v & E & Wv & Sv & Bv);
  exists v; split_and!; auto; rewrite Sv;
  unfold and_size, andc2_size, or_size, xor_size; destruct p1, p2; simpl; lia.
Lemma and_computes : computes bit_vector_and andb.
Proof. computes_tac and_ok and_ok' and_suff. Qed.
Lemma andc2_computes : computes bit_vector_andc2 andc2_pad.
Proof. computes_tac andc2_ok andc2_ok' andc2_suff. Qed.
Lemma or_computes : computes bit_vector_or orb.
Proof. computes_tac or_ok or_ok' or_suff. Qed.
Lemma xor_computes : computes bit_vector_xor xorb.
Proof. computes_tac xor_ok xor_ok' xor_suff. Qed.

Ltac computes_bang_tac ok ok' inp suff :=
  intros h a1 a2 p1 p2 v1 v2 H1 H2 W1 W2;
  destruct (combine_bang_spec _ _ _ _ _ ok ok' inp _ h a1 a2 p1 p2 v1 v2 H1 H2 W1 W2
              (suff p1 p2 _ _) eq_refl) as (v & h' & r & E & Hh & Wv & Sv & Bv);
  exists v, h', r; split_and!; auto; rewrite Sv; unfold bang_size;
  match goal with |- context [if ?b then _ else _] => destruct b end; auto.
Lemma and_computes_bang : computes_bang bit_vector_and_bang andb.
Proof. computes_bang_tac and_ok and_ok' negb and_bsuff. Qed.
Lemma andc2_computes_bang : computes_bang bit_vector_andc2_bang andc2_pad.
Proof. computes_bang_tac andc2_ok andc2_ok' negb andc2_bsuff. Qed.
Lemma or_computes_bang : computes_bang bit_vector_or_bang orb.
Proof. computes_bang_tac or_ok or_ok' (fun p : bool => p) or_bsuff. Qed.
Lemma xor_computes_bang : computes_bang bit_vector_xor_bang xorb.
Proof. computes_bang_tac xor_ok xor_ok' (fun _ : bool => false) xor_bsuff. Qed.

(** ** not *)
Lemma not_loop h a r v rv :
  h !! a = Some v -> bv_wf v -> h !! r = Some rv -> bv_wf rv -> bv_size rv = bv_size v ->
  exists v', for_words (fun h i => do w <- word h a i; Val (wnot w)) r h 0 (word_size v)
             = Val (<[r := v']> h) /\ bv_wf v' /\ bv_size v' = bv_size v /\
    forall i, i < bv_size v -> bit v' i = negb (bit v i).
Proof.
  intros Ha Wv Hr Wr Hs. destruct rv as [s ws]. cbn [bv_size] in Hs. subst s.
  pose proof (proj1 Wv) as Lv. pose proof (proj1 Wr) as Lr. cbn [bv_size bv_words] in Lr.
  destruct (for_words_spec (fun h i => do w <- word h a i; Val (wnot w))
    (fun k => wnot (default 0%N (bv_words v !! k))) r (word_size v) h 0 (bv_size v) ws Hr)
    as (ws' & -> & Hl & Hk).
  { unfold word_size. lia. }
  { intros j ws' Hj Hl Hk. unfold word_size in Hj.
    destruct (wf_word v j Wv) as (w & Hw & _); [lia|].
    rewrite (word_upd _ _ _ _ _ _ _ _ _ Hr (Hk j (le_n _)) Ha Hw). cbn [obind]. by rewrite Hw. }
  unfold word_size in Hk.
  exists (BV (bv_size v) ws'). split_and!; auto.
  - apply wf_intro; [lia|]. intros k w Hw. rewrite Hk in Hw.
    case_decide; [simplify_eq; apply wok_wnot|]. apply lookup_lt_Some in Hw. lia.
  - intros i Hi. destruct (wf_word v (i / 64) Wv) as (w & Hw & _); [lia|].
    rewrite (bit_word v i w Hw). erewrite (bit_word (BV _ _) i); cycle 1.
    { cbn [bv_words]. rewrite Hk. rewrite decide_True by lia. rewrite Hw. reflexivity. }
    cbn [default]. apply wbit_wnot. lia.
Qed.

Lemma not_spec h a p v :
  h !! a = Some v -> bv_wf v ->
  exists v', bit_vector_not h a p = Val (h ++ [v'], length h, negb p) /\ bv_wf v' /\
    bv_size v' = bv_size v /\ forall i, ext v' (negb p) i = negb (ext v p i).
Proof.
  intros Ha Wv. unfold bit_vector_not. rewrite (get_val _ _ _ Ha). cbn [obind].
  destruct (make_bv_spec h (bv_size v) false false None I) as (v0 & -> & W0 & S0 & _).
  cbn [obind]. assert (a < length h) by (by eapply lookup_lt_Some).
  destruct (not_loop (h ++ [v0]) a (length h) v v0) as (v' & -> & Wv' & Sv' & Bv'); auto.
  - by rewrite lookup_app_l.
  - apply lookup_last_app.
  - cbn [obind]. rewrite insert_last. exists v'. split_and!; auto.
    intros i. unfold ext. rewrite Sv'. case_decide; auto.
Qed.

Lemma not_bang_spec h a p v :
  h !! a = Some v -> bv_wf v ->
  exists v', bit_vector_not_bang h a p = Val (<[a := v']> h, a, negb p) /\ bv_wf v' /\
    bv_size v' = bv_size v /\ forall i, ext v' (negb p) i = negb (ext v p i).
Proof.
  intros Ha Wv. unfold bit_vector_not_bang. rewrite (get_val _ _ _ Ha). cbn [obind].
  destruct (not_loop h a a v v) as (v' & -> & Wv' & Sv' & Bv'); auto.
  cbn [obind]. exists v'. split_and!; auto.
  intros i. unfold ext. rewrite Sv'. case_decide; auto.
Qed.

(** ** element, element-setter, copy-sequence *)
Lemma bit_insert s ws k w i : k < length ws ->
  bit (BV s (<[k := w]> ws)) i
  = if decide (i / 64 = k) then wbit w (i mod 64) else bit (BV s ws) i.
Proof.
  intros Hk. unfold bit. cbn [bv_words]. destruct (decide (i / 64 = k)) as [->|Hn].
  - by rewrite list_lookup_insert.
  - by rewrite list_lookup_insert_ne.
Qed.

Lemma wf_insert s ws k w : bv_wf (BV s ws) -> wok w -> bv_wf (BV s (<[k := w]> ws)).
Proof.
  intros [Hl Hw] Hok. split; cbn [bv_size bv_words] in *; [by rewrite insert_length|].
  by apply Forall_insert.
Qed.

Lemma element_nbc_spec h a v i :
  h !! a = Some v -> bv_wf v -> i < bv_size v ->
  element_no_bounds_check h a i = Val (bit v i).
Proof.
  intros Ha Wv Hi. unfold element_no_bounds_check.
  destruct (wf_word v (i / 64) Wv) as (w & Hw & _); [lia|].
  unfold word_offset, word_bits. rewrite (word_val _ _ _ _ _ Ha Hw). cbn [obind].
  by rewrite (bit_word _ _ _ Hw).
Qed.

Lemma bv_element_spec h a v i :
  h !! a = Some v -> bv_wf v ->
  bv_element h a i = if decide (i < bv_size v) then Val (bit v i)
                     else Signal "element-range-error"%string.
Proof.
  intros Ha Wv. unfold bv_element. rewrite (get_val _ _ _ Ha). cbn [obind].
  destruct (Nat.ltb_spec i (bv_size v)).
  - rewrite decide_True by done. by apply element_nbc_spec.
  - by rewrite decide_False by lia.
Qed.

Lemma setter_nbc_spec b h a v i :
  h !! a = Some v -> bv_wf v -> i < bv_size v ->
  exists v', element_no_bounds_check_setter b h a i = Val (<[a := v']> h) /\ bv_wf v' /\
    bv_size v' = bv_size v /\
    forall j, bit v' j = if decide (j = i) then b else bit v j.
Proof.
  intros Ha Wv Hi. unfold element_no_bounds_check_setter.
  destruct (wf_word v (i / 64) Wv) as (w & Hw & Hok); [lia|].
  unfold word_offset, bit_offset, word_bits. rewrite (word_val _ _ _ _ _ Ha Hw). cbn [obind].
  assert (i / 64 < length (bv_words v)) as Hlt by (by eapply lookup_lt_Some).
  rewrite (set_word_val _ _ _ _ _ Ha Hlt).
  eexists. split; [reflexivity|]. destruct v as [s ws]. cbn [bv_size bv_words] in *.
  split_and!; [|done|].
  - apply wf_insert; [done|]. destruct b; simpl; auto using wok_wand, wok_wor, wok_wshl.
  - intros j. rewrite bit_insert by done. destruct (decide (j / 64 = i / 64)) as [Hj|Hj].
    + rewrite (bit_word (BV s ws) j w) by (cbn [bv_words] in *; congruence).
      destruct b; simpl; rewrite ?wbit_wand, ?wbit_wor, ?wbit_wnot, ?wbit_one_shl by lia;
        case_bool_decide; case_decide; try lia.
      all: rewrite ?andb_true_r, ?orb_false_r, ?andb_false_r, ?orb_true_r; try done.
    + by rewrite decide_False by congruence.
Qed.

Lemma bv_element_setter_spec b h a v i :
  h !! a = Some v -> bv_wf v -> i < bv_size v ->
  exists v', bv_element_setter b h a i = Val (<[a := v']> h) /\ bv_wf v' /\
    bv_size v' = bv_size v /\
    forall j, bit v' j = if decide (j = i) then b else bit v j.
Proof.
  intros Ha Wv Hi. unfold bv_element_setter. rewrite (get_val _ _ _ Ha). cbn [obind].
  rewrite (proj2 (Nat.ltb_lt _ _) Hi). by apply setter_nbc_spec.
Qed.

Lemma copy_bits_spec a v n : forall h0 dv i,
  h0 !! a = Some v -> bv_wf v -> bv_wf dv -> bv_size dv = bv_size v -> i + n <= bv_size v ->
  exists dv', copy_bits (h0 ++ [dv]) a (length h0) i n = Val (h0 ++ [dv']) /\ bv_wf dv' /\
    bv_size dv' = bv_size v /\
    forall j, bit dv' j = if decide (i <= j < i + n) then bit v j else bit dv j.
Proof.
  induction n as [|n IH]; intros h0 dv i Ha Wv Wd Hs Hn.
  - exists dv. split_and!; auto. intros j. by rewrite decide_False by lia.
  - cbn [copy_bits]. assert (a < length h0) by (by eapply lookup_lt_Some).
    rewrite (bv_element_spec _ _ v) by first [done|by rewrite lookup_app_l].
    rewrite decide_True by lia. cbn [obind].
    destruct (bv_element_setter_spec (bit v i) (h0 ++ [dv]) (length h0) dv i)
      as (d1 & -> & W1 & S1 & B1); [apply lookup_last_app|done|lia|].
    cbn [obind]. rewrite insert_last.
    destruct (IH h0 d1 (S i)) as (dv' & -> & Wd' & Sd' & Bd'); auto; [lia|lia|].
    exists dv'. split_and!; auto. intros j. rewrite Bd', B1.
    repeat case_decide; try lia; try done. by subst.
Qed.

Lemma copy_sequence_spec h a v :
  h !! a = Some v -> bv_wf v ->
  exists v', bv_copy_sequence h a = Val (h ++ [v'], length h) /\ bv_wf v' /\
    bv_size v' = bv_size v /\ forall p i, ext v' p i = ext v p i.
Proof.
  intros Ha Wv. unfold bv_copy_sequence. rewrite (get_val _ _ _ Ha). cbn [obind].
  destruct (make_bv_spec h (bv_size v) false false None I) as (v0 & -> & W0 & S0 & _).
  cbn [obind].
  destruct (copy_bits_spec a v (bv_size v) h v0 0) as (v' & -> & Wv' & Sv' & Bv'); auto.
  cbn [obind]. exists v'. split_and!; auto.
  intros p i. unfold ext. rewrite Sv'. case_decide; [|done]. rewrite Bv'.
  by rewrite decide_True by lia.
Qed.

(** ** fill! *)
Lemma ash_minus_one_val k : k < 62 -> ash_minus_one k = Val (mask_above k).
Proof. intros. unfold ash_minus_one. by rewrite (proj2 (Nat.ltb_lt _ _) H). Qed.

Lemma fill_spec h a v value start last :
  h !! a = Some v -> bv_wf v -> start <= last <= bv_size v -> start < bv_size v ->
  (start / 64 = last / 64 -> start mod 64 < 62 /\ last mod 64 < 62) ->
  forall last_arg, (last_arg = Some last \/ (last_arg = None /\ last = bv_size v)) ->
  exists v', fill_bang h a value start last_arg = Val (<[a := v']> h) /\ bv_wf v' /\
    bv_size v' = bv_size v /\
    forall i, i < bv_size v ->
      bit v' i = if decide (start <= i < last) then value else bit v i.
Proof.
  intros Ha Wv Hsl Hss Hsame la Hla. destruct v as [s ws].
  pose proof (proj1 Wv) as Lv. cbn [bv_size bv_words] in *.
  assert (a < length h) as Hal by (by eapply lookup_lt_Some).
  unfold fill_bang. rewrite (get_val _ _ _ Ha). cbn [obind bv_size].
  rewrite (proj2 (Nat.ltb_lt 0 s)) by lia.
  assert (match la with None => s | Some l => l end = last) as ->.
  { destruct Hla as [->|[-> ->]]; done. }
  clear Hla la. unfold word_offset, bit_offset, word_bits, word_size. cbn [bv_words].
  set (VB := if negb value then word_zero else word_minus_one).
  assert (forall k, k < 64 -> wbit VB k = value) as HVB.
  { intros k Hk. unfold VB. destruct value; simpl; [by apply wbit_minus_one|apply wbit_zero]. }
  assert (wok VB) as HVBok by (unfold VB; destruct value; done).
  destruct (Nat.eqb_spec (last / 64) (start / 64)) as [Heq|Hne].
  - destruct (Hsame (eq_sym Heq)) as [Hsb Hlb].
    rewrite !ash_minus_one_val by done. cbn [obind].
    destruct (wf_word (BV s ws) (start / 64) Wv) as (w & Hw & Hok); [cbn; lia|].
    assert (start / 64 < length ws) as Hlt by (by eapply lookup_lt_Some).
    rewrite (word_val _ _ _ _ _ Ha Hw). cbn [obind].
    rewrite !(set_word_val _ _ _ _ _ Ha) by done. cbn [bv_size bv_words].
    set (w' := if negb value then wand (wor (mask_above (last mod 64)) (wnot (mask_above (start mod 64)))) w
               else wor (wxor (mask_above (last mod 64)) (mask_above (start mod 64))) w).
    exists (BV s (<[start / 64 := w']> ws)).
    split; [unfold w'; by destruct value|].
    split_and!; [|done|].
    + apply wf_insert; [done|]. unfold w'. destruct value; simpl;
        auto using wok_wand_r, wok_wor, wok_wxor, wok_above.
    + intros i Hi. rewrite bit_insert by done.
      destruct (decide (i / 64 = start / 64)) as [Hi64|Hi64].
      * rewrite (bit_word (BV s ws) i w) by (cbn [bv_words] in *; congruence).
        unfold w'. destruct value; simpl;
          rewrite ?wbit_wand, ?wbit_wor, ?wbit_wxor, ?wbit_wnot, ?wbit_above by lia;
          repeat case_bool_decide; case_decide; try lia; try done; by destruct (wbit w (i mod 64)).
      * by rewrite decide_False by lia.
  - assert (start / 64 < last / 64) as Hlt64 by lia.
    (* the last word *)
    assert (exists ws1 lwo1,
      (if Nat.eqb last s then Val (h, length ws)
       else if negb (Nat.eqb (last mod 64) 0) then
         do w <- word h a (last / 64);
         do h' <- set_word h a (last / 64)
                    (if negb value then wand w (mask_above (last mod 64))
                     else wor w (mask_strictly_below (last mod 64)));
         Val (h', last / 64)
       else Val (h, last / 64)) = Val (<[a := BV s ws1]> h, lwo1) /\
      bv_wf (BV s ws1) /\ last / 64 <= lwo1 <= length ws /\ (64 * lwo1 <= last \/ last = s) /\
      forall i, i < s -> bit (BV s ws1) i
         = if decide (64 * lwo1 <= i < last) then value else bit (BV s ws) i)
      as (ws1 & lwo1 & -> & Ws1 & Hlwo & Hlwo' & B1).
    { destruct (Nat.eqb_spec last s) as [->|Hls].
      - exists ws, (length ws). rewrite list_insert_id by done. split_and!; auto; try lia.
        intros i Hi. by rewrite decide_False by lia.
      - destruct (Nat.eqb_spec (last mod 64) 0) as [Hl0|Hl0]; cbn [negb].
        + exists ws, (last / 64). rewrite list_insert_id by done. split_and!; auto; try lia.
          intros i Hi. by rewrite decide_False by lia.
        + destruct (wf_word (BV s ws) (last / 64) Wv) as (w & Hw & Hok); [cbn; lia|].
          assert (last / 64 < length ws) as Hlt by (by eapply lookup_lt_Some).
          rewrite (word_val _ _ _ _ _ Ha Hw). cbn [obind].
          rewrite !(set_word_val _ _ _ _ _ Ha) by done. cbn [bv_size bv_words obind].
          eexists _, _. split; [reflexivity|]. split_and!; [|lia|lia|lia|].
          * apply wf_insert; [done|].
            destruct value; simpl; auto using wok_wand, wok_wor, wok_below.
          * intros i Hi. rewrite bit_insert by done.
            destruct (decide (i / 64 = last / 64)) as [Hi64|Hi64].
            -- rewrite (bit_word (BV s ws) i w) by (cbn [bv_words] in *; congruence).
               destruct value; simpl; rewrite ?wbit_wand, ?wbit_wor, ?wbit_below, ?wbit_above by lia;
                 repeat case_bool_decide; case_decide; try lia; try done;
                 by destruct (wbit w (i mod 64)).
            -- by rewrite decide_False by lia. }
    cbn [obind].
    assert (<[a := BV s ws1]> h !! a = Some (BV s ws1)) as Ha1 by (by apply list_lookup_insert).
    pose proof (proj1 Ws1) as Lw1. cbn [bv_size bv_words] in Lw1.
    assert (exists ws2 swo2,
      (if negb (Nat.eqb (start mod 64) 0) then
         do w <- word (<[a := BV s ws1]> h) a (start / 64);
         do h' <- set_word (<[a := BV s ws1]> h) a (start / 64)
                    (if negb value then wand w (mask_strictly_below (start mod 64))
                     else wor w (mask_above (start mod 64)));
         Val (h', start / 64 + 1)
       else Val (<[a := BV s ws1]> h, start / 64)) = Val (<[a := BV s ws2]> h, swo2) /\
      bv_wf (BV s ws2) /\ swo2 <= lwo1 /\ swo2 <= last / 64 /\ start <= 64 * swo2 /\
      forall i, i < s -> bit (BV s ws2) i
         = if decide (start <= i < 64 * swo2) then value else bit (BV s ws1) i)
      as (ws2 & swo2 & -> & Ws2 & Hswo & Hswo2 & Hswo' & B2).
    { destruct (Nat.eqb_spec (start mod 64) 0) as [Hs0|Hs0]; cbn [negb].
      - exists ws1, (start / 64). split_and!; auto; try lia.
        intros i Hi. by rewrite decide_False by lia.
      - destruct (wf_word (BV s ws1) (start / 64) Ws1) as (w & Hw & Hok); [cbn; lia|].
        assert (start / 64 < length ws1) as Hlt by (by eapply lookup_lt_Some).
        rewrite (word_val _ _ _ _ _ Ha1 Hw). cbn [obind].
        rewrite !(set_word_val _ _ _ _ _ Ha1) by done. cbn [bv_size bv_words obind].
        rewrite list_insert_insert.
        eexists _, _. split; [reflexivity|]. split_and!; [|lia|lia|lia|].
        + apply wf_insert; [done|].
          destruct value; simpl; auto using wok_wand, wok_wor, wok_above.
        + intros i Hi. rewrite bit_insert by done.
          destruct (decide (i / 64 = start / 64)) as [Hi64|Hi64].
          * rewrite (bit_word (BV s ws1) i w) by (cbn [bv_words] in *; congruence).
            destruct value; simpl; rewrite ?wbit_wand, ?wbit_wor, ?wbit_below, ?wbit_above by lia;
              repeat case_bool_decide; case_decide; try lia; try done;
              by destruct (wbit w (i mod 64)).
          * by rewrite decide_False by lia. }
    cbn [obind].
    assert (<[a := BV s ws2]> h !! a = Some (BV s ws2)) as Ha2 by (by apply list_lookup_insert).
    pose proof (proj1 Ws2) as Lw2. cbn [bv_size bv_words] in Lw2.
    assert (exists ws3,
      (if swo2 <? lwo1 then
        for_words (fun _ _ => Val VB) a (<[a := BV s ws2]> h) swo2 (lwo1 - swo2)
      else Val (<[a := BV s ws2]> h)) = Val (<[a := BV s ws3]> h) /\ bv_wf (BV s ws3) /\
      forall i, i < s -> bit (BV s ws3) i
         = if decide (64 * swo2 <= i < 64 * lwo1) then value else bit (BV s ws2) i)
      as (ws3 & -> & Ws3 & B3).
    { destruct (Nat.ltb_spec swo2 lwo1) as [Hlt|Hge].
      - destruct (for_words_spec (fun _ _ => Val VB) (fun _ => VB) a (lwo1 - swo2)
          (<[a := BV s ws2]> h) swo2 s ws2 Ha2) as (ws3 & -> & Hl3 & Hk3); [lia|done|].
        exists ws3. rewrite list_insert_insert. split; [done|]. split.
        + apply wf_intro; [lia|]. intros k w Hw. rewrite Hk3 in Hw. case_decide; simplify_eq; [done|].
          by apply (wf_wok _ _ _ Ws2 Hw).
        + intros i Hi. unfold bit at 1. cbn [bv_words]. rewrite Hk3.
          destruct (decide (swo2 <= i / 64 < swo2 + (lwo1 - swo2))).
          * rewrite decide_True by lia. apply HVB. lia.
          * by rewrite decide_False by lia.
      - exists ws2. split_and!; auto. intros i Hi. by rewrite decide_False by lia. }
    exists (BV s ws3). split_and!; auto. intros i Hi.
    rewrite B3, B2, B1 by done. repeat case_decide; try lia; done.
Qed.

(** ** bit-count *)
Lemma filter_seq_shift (P : nat -> bool) a n :
  length (filter (fun k => P (a + k) = true) (seq 0 n))
  = length (filter (fun k => P k = true) (seq a n)).
Proof.
  assert (seq a n = (Nat.add a <$> seq 0 n)) as ->.
  { rewrite fmap_add_seq. by rewrite Nat.add_0_r. }
  generalize (seq 0 n). intros l. induction l as [|x l IH]; [done|].
  cbn [fmap list_fmap]. rewrite !filter_cons. repeat case_decide; simpl; congruence.
Qed.

Lemma filter_ext_in {A} (P Q : A -> bool) (l : list A) :
  (forall x, x ∈ l -> P x = Q x) ->
  filter (fun x => P x = true) l = filter (fun x => Q x = true) l.
Proof.
  induction l as [|x l IH]; intros H; [done|]. rewrite !filter_cons.
  rewrite (H x) by apply elem_of_list_here. rewrite IH; [done|].
  intros y Hy. apply H. by apply elem_of_list_further.
Qed.

Lemma count_words_spec h a v : h !! a = Some v -> bv_wf v -> forall n i c,
  i + n = word_size v ->
  count_words h a (word_size v) (bit_offset (bv_size v)) i n c
  = Val (c + length (filter (fun k => ext v false k = true) (seq (64 * i) (64 * n)))).
Proof.
  intros Ha Wv. pose proof (proj1 Wv) as Lv. unfold word_size.
  induction n as [|n IH]; intros i c Hin.
  - simpl. f_equal. lia.
  - cbn [count_words]. destruct (wf_word v i Wv) as (w & Hw & Hok); [lia|].
    rewrite (word_val _ _ _ _ _ Ha Hw). cbn [obind]. rewrite IH by lia. f_equal.
    replace (64 * S n) with (64 + 64 * n) by lia. rewrite seq_app, filter_app, app_length.
    replace (64 * i + 64) with (64 * S i) by lia. rewrite Nat.add_assoc. f_equal. f_equal.
    unfold wcount_ones. rewrite count_ones_loop_spec.
    rewrite <- (filter_seq_shift (ext v false) (64 * i)).
    f_equal. apply (filter_ext_in (wbit _) (fun k => ext v false (64 * i + k))).
    intros k Hk%elem_of_seq.
    assert ((64 * i + k) / 64 = i) as Hd by lia. assert ((64 * i + k) mod 64 = k) as Hm by lia.
    unfold ext. rewrite (bit_word v (64 * i + k) w) by (by rewrite Hd). rewrite Hm.
    unfold bit_offset, word_bits.
    destruct (Nat.eqb_spec i (length (bv_words v) - 1)) as [Hi|Hi];
    destruct (Nat.eqb_spec (bv_size v mod 64) 0) as [Hz|Hz]; simpl;
      rewrite ?wbit_wand, ?wbit_below by lia; try case_bool_decide; case_decide; try lia;
      rewrite ?andb_true_r, ?andb_false_r; done.
Qed.

Lemma filter_seq_extend (P : nat -> bool) n m :
  n <= m -> (forall i, n <= i -> P i = false) ->
  filter (fun k => P k = true) (seq 0 m) = filter (fun k => P k = true) (seq 0 n).
Proof.
  intros Hnm HP. replace m with (n + (m - n)) by lia. rewrite seq_app, filter_app.
  rewrite (filter_ext_in P (fun _ => false) (seq (0 + n) _)).
  - assert (forall l : list nat, filter (fun _ => false = true) l = []) as ->.
    { intros l. induction l; [done|]. by rewrite filter_cons_False. }
    apply app_nil_r.
  - intros x Hx%elem_of_seq. apply HP. lia.
Qed.

Lemma filter_split (P : nat -> bool) l :
  length (filter (fun k => P k = true) l) + length (filter (fun k => P k = false) l) = length l.
Proof.
  induction l as [|x l IH]; [done|]. rewrite !filter_cons.
  destruct (P x); simpl; lia.
Qed.

Lemma bit_count_spec h a v b : h !! a = Some v -> bv_wf v ->
  bit_count h a b = Val (length (filter (fun k => bit v k = b) (seq 0 (bv_size v)))).
Proof.
  intros Ha Wv. unfold bit_count. rewrite (get_val _ _ _ Ha). cbn [obind].
  rewrite (count_words_spec _ _ _ Ha Wv) by lia. cbn [obind]. rewrite Nat.mul_0_r.
  pose proof (proj1 Wv) as Lv. unfold word_size.
  rewrite (filter_seq_extend (ext v false) (bv_size v)); [|lia|intros; by apply ext_out].
  rewrite (filter_ext_in (ext v false) (bit v)); cycle 1.
  { intros x Hx%elem_of_seq. apply ext_in. lia. }
  f_equal. pose proof (filter_split (bit v) (seq 0 (bv_size v))) as Hf.
  rewrite seq_length in Hf. destruct b; simpl; lia.
Qed.
