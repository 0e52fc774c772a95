(** Proofs about buffered file streams. *)
From Coq Require Import ZifyBool ZifyNat ZifyN.
From Verif Require Import Base SeqStreamModel SeqStreamSpec FileStreamModel FileStreamSpec.
Local Open Scope nat_scope.

Section proofs.
  Context {A : Type} (zero blank newline : A) (is_nl is_cr : A -> bool) (short : nat -> nat).
  Notation stream := (@FileStreamModel.stream A).
  Notation result := (@SeqStreamSpec.result A).
  Notation overlay := (overlay zero).
  Local Arguments FileStreamModel.overlay : simpl never.

  Lemma copy_bytes_ok (dst src : list A) (i j n : nat) :
    i + n <= length dst -> j + n <= length src ->
    copy_bytes dst (Z.of_nat i) src (Z.of_nat j) (Z.of_nat n) =
    Some (take i dst ++ take n (drop j src) ++ drop (i + n) dst).
  Proof.
    intros H1 H2. unfold copy_bytes, zlen.
    replace (_ && _) with true by lia.
    replace (Z.to_nat (Z.of_nat i + Z.of_nat n)) with (i + n) by lia. by rewrite !Nat2Z.id.
  Qed.

  Lemma overlay_inside (l src : list A) p :
    p <= length l -> overlay l p src = take p l ++ src ++ drop (p + length src) l.
  Proof. intros H. unfold FileStreamModel.overlay. by replace (p - length l) with 0 by lia. Qed.
  Lemma overlay_nil (l : list A) p : p <= length l -> overlay l p [] = l.
  Proof. intros H. rewrite overlay_inside by done. cbn. by rewrite Nat.add_0_r, take_drop. Qed.
  Lemma overlay_length (l src : list A) p :
    p <= length l -> length (overlay l p src) = Nat.max (length l) (p + length src).
  Proof. intros H. rewrite overlay_inside by done. rewrite !app_length, take_length, drop_length. lia. Qed.
  Lemma overlay_lookup (l src : list A) p j :
    p <= length l ->
    overlay l p src !! j =
    if decide (j < p) then l !! j else if decide (j < p + length src) then src !! (j - p) else l !! j.
  Proof.
    intros H. rewrite overlay_inside by done.
    destruct (decide (j < p)).
    { rewrite lookup_app_l by (rewrite take_length; lia). by apply lookup_take. }
    rewrite lookup_app_r by (rewrite take_length; lia). rewrite take_length, Nat.min_l by done.
    destruct (decide (j < p + length src)).
    { by rewrite lookup_app_l by lia. }
    rewrite lookup_app_r by lia. rewrite lookup_drop. f_equal. lia.
  Qed.
  Lemma overlay_overlay (l s1 s2 : list A) p :
    p <= length l -> overlay (overlay l p s1) (p + length s1) s2 = overlay l p (s1 ++ s2).
  Proof.
    intros H. apply list_eq. intros j.
    rewrite !overlay_lookup by (try rewrite overlay_length; lia).
    rewrite app_length.
    repeat destruct (decide _); try lia; try done.
    - by rewrite lookup_app_l by lia.
    - rewrite lookup_app_r by lia. f_equal. lia.
  Qed.

  Lemma transferred_ok (d : @disk A) m :
    transferred short d m <= m /\ (0 < m -> 0 < transferred short d m).
  Proof. unfold transferred. destruct m; lia. Qed.

  (** The accessor is where it thinks it is. *)
  Definition sound (d : @disk A) : Prop :=
    file_position d = offset d /\ (at_end d = true -> length (bytes d) <= offset d).

  Lemma seek_ok (d : @disk A) p :
    sound d ->
    let d' := if p =? file_position d then d else set_accessor_position d p in
    sound d' /\ bytes d' = bytes d /\ offset d' = p.
  Proof.
    intros [H1 H2]. destruct (Nat.eqb_spec p (file_position d)) as [->|Hp].
    - split; [by split|done].
    - unfold set_accessor_position. replace (p =? file_position d) with false by lia.
      split; [by split|done].
  Qed.

  Lemma load_ok (d : @disk A) (b : @buffer A) p :
    sound d -> p <= length (bytes d) -> 0 < size_of b ->
    exists d' l n,
      load_buffer short d b p 0 (size_of b) = Val (d', with_stop (with_data b l) n, n) /\
      sound d' /\ bytes d' = bytes d /\ length l = size_of b /\ n <= size_of b /\ p + n <= length (bytes d) /\
      (0 < n <-> p < length (bytes d)) /\
      (forall i, i < n -> l !! i = bytes d !! (p + i)).
  Proof.
    intros Hs Hp Hb. unfold load_buffer.
    destruct (seek_ok d p Hs) as (Hs' & Hbytes & Hoff).
    set (d1 := if p =? file_position d then d else set_accessor_position d p) in *. clearbody d1.
    destruct Hs' as [H1 H2].
    unfold accessor_read_into. destruct (at_end d1) eqn:E; cbn [obind].
    { exists d1, (data b), 0. specialize (H2 eq_refl).
      split_and!; try done; try lia. rewrite <- Hbytes. lia. }
    unfold sys_read. cbn [obind].
    set (m := Nat.min (size_of b) (length (bytes d1) - offset d1)).
    destruct (transferred_ok d1 m) as [Ht1 Ht2].
    set (t := transferred short d1 m) in *.
    assert (Hlen : length (take t (drop (offset d1) (bytes d1))) = t).
    { rewrite take_length, drop_length. lia. }
    rewrite Hlen. cbn [fst snd bytes offset system_calls at_end file_position].
    unfold size_of in *.
    replace (length (data b) <? 0 + t) with false by lia. cbn [obind].
    eexists _, (take t (drop (offset d1) (bytes d1)) ++ drop t (data b)), t.
    split; [reflexivity|].
    assert (Hm : m = Nat.min (length (data b)) (length (bytes d) - p)).
    { subst m. by rewrite Hbytes, Hoff. }
    clearbody t m. rewrite Hbytes in *.
    split.
    { destruct (Nat.eqb_spec t 0); split; cbn; lia. }
    split; [by destruct (t =? 0)|].
    split; [rewrite app_length, Hlen, drop_length; lia|].
    split_and!; try lia.
    intros i Hi. rewrite lookup_app_l by lia. rewrite lookup_take by done. rewrite lookup_drop. f_equal. lia.
  Qed.

  Lemma rest_length (v : @file_view A) : length (rest v) = length (contents_of v) - position_of v.
  Proof. unfold rest. by rewrite drop_length. Qed.
  Lemma rest_forward (v : @file_view A) k : rest (forward v k) = drop k (rest v).
  Proof. unfold rest, forward. cbn. by rewrite drop_drop. Qed.

  Lemma view_eta (v : @file_view A) : FileView (contents_of v) (position_of v) = v.
  Proof. by destruct v. Qed.
  Lemma forward_0 (v : @file_view A) : forward v 0 = v.
  Proof. unfold forward. rewrite Nat.add_0_r. by destruct v. Qed.

  (** * Reading, for any invariant of the buffer *)
  (** [Q] holds between the calls, [P] once the input buffer is there. *)
  Record reader (Q P : stream -> @file_view A -> Prop) : Prop := {
    rd_weaken : forall s v, P s v -> Q s v;
    rd_dir : forall s v, Q s v -> dir s <> Closed /\ readable (dir s) = true;
    rd_get : forall s v, Q s v ->
      exists s', get_input_buffer zero short s = Val (s', Ret (position_of v <? length (contents_of v))) /\ P s' v /\
        (position_of v < length (contents_of v) -> next (buf s') < stop (buf s'));
    rd_next : forall s v, P s v -> stop (buf s) <= next (buf s) ->
      exists s', do_next_input_buffer zero short s = Val (s', position_of v <? length (contents_of v)) /\ P s' v /\
        (position_of v < length (contents_of v) -> next (buf s') < stop (buf s'));
    rd_bounds : forall s v, P s v ->
      next (buf s) <= stop (buf s) /\ stop (buf s) <= size_of (buf s) /\ stop (buf s) - next (buf s) <= length (rest v);
    rd_forward : forall s v k, P s v -> k <= stop (buf s) - next (buf s) ->
      P (with_buf s (with_next (buf s) (next (buf s) + k))) (forward v k);
    rd_chunk : forall s v k, P s v -> k <= stop (buf s) - next (buf s) ->
      take k (drop (next (buf s)) (data (buf s))) = take k (rest v) }.

  Section reading.
    Context (Q P : stream -> @file_view A -> Prop) (HR : reader Q P).
  Lemma element_ok s v :
    P s v -> next (buf s) < stop (buf s) ->
    exists x l, rest v = x :: l /\ vread (data (buf s)) (next (buf s)) = Val x.
  Proof.
    intros H Hlt. pose proof (rd_chunk _ _ HR s v 1 H ltac:(lia)) as Hc.
    destruct (rd_bounds _ _ HR s v H) as (Hb1 & Hb2 & Hb3). unfold size_of in Hb2.
    destruct (rest v) as [|x l] eqn:E; [cbn in Hb3; lia|].
    exists x, l. split; [done|]. apply vread_val.
    destruct (drop (next (buf s)) (data (buf s))) as [|y l'] eqn:Ed; [done|].
    injection Hc as ->. rewrite <- (Nat.add_0_r (next (buf s))), <- lookup_drop, Ed. done.
  Qed.

  Lemma read_loop_ok m : forall s v sb into start i e sup,
    P s v -> (sb = false -> rest v = []) ->
    (0 <= i)%Z -> (i <= e)%Z -> (e <= zlen into)%Z ->
    (if sb then 2 * Z.to_nat (e - i) + (if stop (buf s) <=? next (buf s) then 1 else 0) else 0) <= m ->
    let got := take (Z.to_nat (e - i)) (rest v) in
    let into' := take (Z.to_nat i) into ++ got ++ drop (Z.to_nat i + length got) into in
    exists s',
      (forall fuel, m < fuel ->
        read_loop zero short fuel s sb into start i e sup =
        Val (s', (into', if (e - i <=? zlen (rest v))%Z then Ret (e - start)%Z
                         else if sup then EosValue else IncompleteRead (i + zlen (rest v) - start)%Z into'))) /\
      P s' (forward v (length got)).
  Proof.
    induction m as [m IH] using lt_wf_ind. intros s v sb into start i e sup Hs Hsb Hi Hie He Hm. cbn zeta.
    destruct (Z.ltb_spec i e) as [Hlt|Hge].
    2:{ assert (e = i) as -> by lia.
        rewrite Z.sub_diag. change (take (Z.to_nat 0) (rest v)) with (@nil A). cbn [app length].
        exists s. split.
        - intros [|fuel] Hf; [lia|]. cbn [read_loop]. replace (i <? i)%Z with false by lia.
          rewrite Nat.add_0_r, take_drop. replace (0 <=? zlen (rest v))%Z with true by (unfold zlen; lia). done.
        - replace (forward v 0) with v; [done|]. unfold forward. rewrite Nat.add_0_r. by destruct v. }
    destruct sb.
    2:{ rewrite (Hsb eq_refl). rewrite take_nil. cbn [length app zlen Z.of_nat].
        exists s. split.
        - intros [|fuel] Hf; [lia|]. cbn [read_loop]. replace (i <? e)%Z with true by lia.
          rewrite Nat.add_0_r, take_drop. unfold zlen. cbn [length]. rewrite Z.add_0_r.
          by replace (e - i <=? Z.of_nat 0)%Z with false by lia.
        - replace (forward v 0) with v; [done|]. unfold forward. rewrite Nat.add_0_r. by destruct v. }
    destruct (Nat.leb_spec (stop (buf s)) (next (buf s))) as [Hns|Hns].
    - destruct (rd_next _ _ HR s v Hs Hns) as (s1 & E1 & Hs1 & Hn1).
      destruct (IH (m - 1) ltac:(lia) s1 v (position_of v <? length (contents_of v)) into start i e sup) as (s' & E & Hs');
        try done.
      { intros Hf. apply nil_length_inv. rewrite rest_length. lia. }
      { destruct (Nat.ltb_spec (position_of v) (length (contents_of v))) as [Hp|Hp]; [|lia].
        specialize (Hn1 Hp). replace (stop (buf s1) <=? next (buf s1)) with false by lia. lia. }
      exists s'. split; [|done].
      intros [|fuel] Hf; [lia|]. cbn [read_loop]. replace (i <? e)%Z with true by lia.
      replace (stop (buf s) <=? next (buf s)) with true by lia. rewrite E1. cbn [obind].
      apply E. lia.
    - set (k := Nat.min (stop (buf s) - next (buf s)) (Z.to_nat (e - i))).
      pose proof (rd_forward _ _ HR s v k Hs ltac:(lia)) as Hf1.
      pose proof (rd_chunk _ _ HR s v k Hs ltac:(lia)) as Hch.
      assert (Hkl : k <= length (rest v)).
      { destruct (rd_bounds _ _ HR s v Hs). lia. }
      assert (Hkz : length (take k (rest v)) = k) by (rewrite take_length; lia).
      set (into1 := take (Z.to_nat i) into ++ take k (rest v) ++ drop (Z.to_nat i + k) into).
      assert (Hl1 : length into1 = length into).
      { unfold into1. rewrite !app_length, Hkz, take_length, drop_length. unfold zlen in He. lia. }
      destruct (IH (m - 1) ltac:(lia) (with_buf s (with_next (buf s) (next (buf s) + k))) (forward v k) true into1 start
                  (i + Z.of_nat k)%Z e sup) as (s' & E & Hs'); try done; try lia.
      { unfold zlen in *. rewrite Hl1. lia. }
      { cbn. destruct (_ <=? _); lia. }
      exists s'. rewrite rest_forward in E, Hs'.
      replace (Z.to_nat (e - (i + Z.of_nat k))) with (Z.to_nat (e - i) - k) in E, Hs' by lia.
      assert (Htk : take (Z.to_nat (e - i)) (rest v) = take k (rest v) ++ take (Z.to_nat (e - i) - k) (drop k (rest v))).
      { rewrite <- (take_drop k (rest v)) at 1. rewrite take_app_ge by lia. by rewrite Hkz. }
      split.
      2:{ rewrite Htk, app_length, Hkz. unfold forward in *. cbn in Hs'. by rewrite <- Nat.add_assoc in Hs'. }
      intros [|fuel] Hf; [lia|]. cbn [read_loop]. replace (i <? e)%Z with true by lia.
      replace (stop (buf s) <=? next (buf s)) with false by lia.
      fold k. rewrite <- (Z2Nat.id i) at 1 by done.
      rewrite copy_bytes_ok; [|unfold zlen in *; lia|destruct (rd_bounds _ _ HR s v Hs); unfold size_of in *; lia].
      rewrite Hch. fold into1. rewrite E by lia.
      set (got2 := take (Z.to_nat (e - i) - k) (drop k (rest v))) in *.
      assert (Hinto : take (Z.to_nat (i + Z.of_nat k)) into1 ++ got2 ++ drop (Z.to_nat (i + Z.of_nat k) + length got2) into1 =
                      take (Z.to_nat i) into ++ take (Z.to_nat (e - i)) (rest v) ++
                      drop (Z.to_nat i + length (take (Z.to_nat (e - i)) (rest v))) into).
      { replace (Z.to_nat (i + Z.of_nat k)) with (Z.to_nat i + k) by lia.
        rewrite Htk, app_length, Hkz. unfold into1.
        assert (Hti : length (take (Z.to_nat i) into) = Z.to_nat i) by (rewrite take_length; unfold zlen in *; lia).
        rewrite take_app_ge, drop_app_ge by lia. rewrite Hti.
        rewrite take_app_le, drop_app_ge by lia. rewrite Hkz.
        rewrite (take_ge (take k (rest v))) by lia. rewrite drop_drop, <- !app_assoc. do 4 f_equal. lia. }
      rewrite Hinto.
      assert (Hz : zlen (drop k (rest v)) = (zlen (rest v) - Z.of_nat k)%Z) by (unfold zlen; rewrite drop_length; lia).
      rewrite Hz.
      replace (e - (i + Z.of_nat k) <=? zlen (rest v) - Z.of_nat k)%Z with (e - i <=? zlen (rest v))%Z by lia.
      replace (i + Z.of_nat k + (zlen (rest v) - Z.of_nat k) - start)%Z with (i + zlen (rest v) - start)%Z by lia.
      done.
  Qed.

  Lemma skip_loop_ok m : forall s v sb i e,
    P s v -> (sb = false -> rest v = []) -> (i <= e)%Z ->
    (if sb then 2 * Z.to_nat (e - i) + (if stop (buf s) <=? next (buf s) then 1 else 0) else 0) <= m ->
    exists s',
      (forall fuel, m < fuel -> skip_loop zero short fuel s sb i e = Val s') /\
      P s' (forward v (Nat.min (Z.to_nat (e - i)) (length (rest v)))).
  Proof.
    assert (F0 : forall v : @file_view A, forward v 0 = v).
    { intros v. unfold forward. rewrite Nat.add_0_r. by destruct v. }
    induction m as [m IH] using lt_wf_ind. intros s v sb i e Hs Hsb Hie Hm.
    destruct (Z.ltb_spec i e) as [Hlt|Hge].
    2:{ exists s. split.
        - intros [|fuel] Hf; [lia|]. cbn [skip_loop]. by replace (i <? e)%Z with false by lia.
        - replace (Nat.min _ _) with 0 by lia. by rewrite F0. }
    destruct sb.
    2:{ exists s. split.
        - intros [|fuel] Hf; [lia|]. cbn [skip_loop]. by replace (i <? e)%Z with true by lia.
        - rewrite (Hsb eq_refl). cbn [length]. rewrite Nat.min_0_r. by rewrite F0. }
    destruct (Nat.leb_spec (stop (buf s)) (next (buf s))) as [Hns|Hns].
    - destruct (rd_next _ _ HR s v Hs Hns) as (s1 & E1 & Hs1 & Hn1).
      destruct (IH (m - 1) ltac:(lia) s1 v (position_of v <? length (contents_of v)) i e) as (s' & E & Hs');
        try done.
      { intros Hf. apply nil_length_inv. rewrite rest_length. lia. }
      { destruct (Nat.ltb_spec (position_of v) (length (contents_of v))) as [Hp|Hp]; [|lia].
        specialize (Hn1 Hp). replace (stop (buf s1) <=? next (buf s1)) with false by lia. lia. }
      exists s'. split; [|done].
      intros [|fuel] Hf; [lia|]. cbn [skip_loop]. replace (i <? e)%Z with true by lia.
      replace (stop (buf s) <=? next (buf s)) with true by lia. rewrite E1. cbn [obind].
      apply E. lia.
    - set (k := Nat.min (stop (buf s) - next (buf s)) (Z.to_nat (e - i))).
      pose proof (rd_forward _ _ HR s v k Hs ltac:(lia)) as Hf1.
      assert (Hkl : k <= length (rest v)).
      { destruct (rd_bounds _ _ HR s v Hs). lia. }
      destruct (IH (m - 1) ltac:(lia) (with_buf s (with_next (buf s) (next (buf s) + k))) (forward v k) true
                  (i + Z.of_nat k)%Z e) as (s' & E & Hs'); try done; try lia.
      { cbn. destruct (_ <=? _); lia. }
      exists s'. split.
      + intros [|fuel] Hf; [lia|]. cbn [skip_loop]. replace (i <? e)%Z with true by lia.
        replace (stop (buf s) <=? next (buf s)) with false by lia.
        fold k. apply E. lia.
      + rewrite rest_forward, drop_length in Hs'.
        replace (Nat.min (Z.to_nat (e - i)) (length (rest v)))
          with (k + Nat.min (Z.to_nat (e - (i + Z.of_nat k))) (length (rest v) - k)) by lia.
        unfold forward in *. cbn in Hs'. by rewrite <- Nat.add_assoc in Hs'.
  Qed.

  (** Lines *)
  Lemma scan_none l b : scan is_nl is_cr l = (b, None) ->
    b = l /\ forall t, split_line is_nl is_cr (l ++ t) =
                       (l ++ (split_line is_nl is_cr t).1, (split_line is_nl is_cr t).2).
  Proof.
    revert b. induction l as [|x l IH]; intros b; cbn.
    { intros [= <-]. split; [done|]. intros t. by destruct (split_line _ _ t). }
    destruct (is_nl x); cbn; [done|]. destruct (is_cr x); cbn; [done|].
    destruct (scan is_nl is_cr l) as [b' m']. intros [= <- ->].
    destruct (IH b' eq_refl) as [-> Hs]. split; [done|]. intros t. rewrite Hs. done.
  Qed.
  Lemma scan_some l b c : scan is_nl is_cr l = (b, Some c) ->
    exists l', l = b ++ c :: l' /\
    forall t, split_line is_nl is_cr (l ++ t) =
      (b, if is_nl c then 1 else match l' ++ t with y :: _ => if is_nl y then 2 else 1 | [] => 1 end).
  Proof.
    revert b. induction l as [|x l IH]; intros b; cbn; [done|].
    destruct (is_nl x) eqn:E1; cbn.
    { intros [= <- <-]. exists l. split; [done|]. intros t. by rewrite E1. }
    destruct (is_cr x) eqn:E2; cbn.
    { intros [= <- <-]. exists l. split; [done|]. intros t. by rewrite E1. }
    destruct (scan is_nl is_cr l) as [b' m'] eqn:E. intros [= <- ->].
    destruct (IH b' eq_refl) as (l' & -> & Hs). exists l'. split; [done|]. intros t.
    by rewrite Hs.
  Qed.

  Lemma line_loop_ok m : forall s v sb line,
    P s v -> (sb = false -> rest v = []) ->
    (if sb then 2 * length (rest v) + (if stop (buf s) <=? next (buf s) then 1 else 0) else 0) <= m ->
    let '(l, k) := split_line is_nl is_cr (rest v) in
    exists s',
      (forall fuel, m < fuel ->
        line_loop zero is_nl is_cr short fuel s sb line =
        Val (s', (match rest v with [] => line | _ => Some (default [] line ++ l) end, 0 <? k))) /\
      P s' (forward v (length l + k)).
  Proof.
    assert (F0 : forall v : @file_view A, forward v 0 = v).
    { intros v. unfold forward. rewrite Nat.add_0_r. by destruct v. }
    assert (FF : forall (v : @file_view A) a b, forward (forward v a) b = forward v (a + b)).
    { intros v a b. unfold forward. cbn. by rewrite Nat.add_assoc. }
    induction m as [m IH] using lt_wf_ind. intros s v sb line Hs Hsb Hm.
    destruct sb.
    2:{ rewrite (Hsb eq_refl). cbn [split_line length Nat.add]. exists s. split.
        - intros [|fuel] Hf; [lia|]. done.
        - by rewrite F0. }
    destruct (Nat.leb_spec (stop (buf s)) (next (buf s))) as [Hns|Hns].
    - destruct (rd_next _ _ HR s v Hs Hns) as (s1 & E1 & Hs1 & Hn1).
      pose proof (IH (m - 1) ltac:(lia) s1 v (position_of v <? length (contents_of v)) line) as IH'.
      destruct (split_line is_nl is_cr (rest v)) as [l k].
      destruct IH' as (s' & E & Hs'); try done.
      { intros Hf. apply nil_length_inv. rewrite rest_length. lia. }
      { destruct (Nat.ltb_spec (position_of v) (length (contents_of v))) as [Hp|Hp]; [|lia].
        specialize (Hn1 Hp). replace (stop (buf s1) <=? next (buf s1)) with false by lia. lia. }
      exists s'. split; [|done].
      intros [|fuel] Hf; [lia|]. cbn [line_loop].
      replace (stop (buf s) <=? next (buf s)) with true by lia. rewrite E1. cbn [obind].
      apply E. lia.
    - set (n := stop (buf s) - next (buf s)).
      pose proof (rd_chunk _ _ HR s v n Hs ltac:(lia)) as Hch.
      assert (Hkl : n <= length (rest v)).
      { destruct (rd_bounds _ _ HR s v Hs). lia. }
      assert (Hne : exists x r, rest v = x :: r).
      { destruct (rest v) as [|x r]; [cbn in Hkl; lia|by eauto]. }
      assert (Hstop : size_of (buf s) <? stop (buf s) = false) by (destruct (rd_bounds _ _ HR s v Hs); lia).
      destruct (scan is_nl is_cr (take n (rest v))) as [before [c|]] eqn:Es.
      + destruct (scan_some _ _ _ Es) as (l' & El' & Hsplit).
        specialize (Hsplit (drop n (rest v))). rewrite take_drop in Hsplit. rewrite Hsplit.
        assert (Hbl : length before + 1 + length l' = n).
        { apply (f_equal length) in El'. rewrite app_length, take_length in El'. cbn in El'. lia. }
        assert (Hrest : rest v = before ++ c :: l' ++ drop n (rest v)).
        { rewrite <- (take_drop n (rest v)) at 1. rewrite El'. by rewrite <- app_assoc. }
        pose proof (rd_forward _ _ HR s v (length before + 1) Hs ltac:(lia)) as Hs1.
        rewrite Nat.add_assoc in Hs1.
        set (s1 := with_buf s (with_next (buf s) (next (buf s) + length before + 1))) in *.
        assert (Hrest1 : rest (forward v (length before + 1)) = l' ++ drop n (rest v)).
        { rewrite rest_forward. rewrite Hrest at 1. rewrite drop_app_ge by lia.
          replace (length before + 1 - length before) with 1 by lia. done. }
        assert (Hun : forall fuel, 0 < fuel -> line_loop zero is_nl is_cr short fuel s true line =
           if is_nl c then Val (s1, (Some (default [] line ++ before), true))
           else obind (if stop (buf s) <=? next (buf s) + length before + 1 then do_next_input_buffer zero short s1
                       else Val (s1, true)) (fun '(s, more) =>
              if more then
                obind (vread (data (buf s)) (next (buf s))) (fun x =>
                Val (if is_nl x then with_buf s (with_next (buf s) (next (buf s) + 1)) else s,
                     (Some (default [] line ++ before), true)))
              else Val (s, (Some (default [] line ++ before), true)))).
        { intros [|fuel] Hf; [lia|]. cbn [line_loop].
          replace (stop (buf s) <=? next (buf s)) with false by lia. rewrite Hstop. fold n. rewrite Hch, Es. done. }
        destruct (is_nl c) eqn:Ec.
        { exists s1. split; [|done]. intros fuel Hf. rewrite Hun by lia.
          destruct Hne as (x & r & ->). done. }
        assert (Hmore : exists s2, (if stop (buf s) <=? next (buf s) + length before + 1 then do_next_input_buffer zero short s1
                       else Val (s1, true)) = Val (s2, match l' ++ drop n (rest v) with [] => false | _ => true end) /\
                   P s2 (forward v (length before + 1)) /\
                   (l' ++ drop n (rest v) <> [] -> next (buf s2) < stop (buf s2))).
        { assert (Hpos : (position_of (forward v (length before + 1)) <? length (contents_of (forward v (length before + 1)))) =
                         match l' ++ drop n (rest v) with [] => false | _ => true end).
          { rewrite <- Hrest1. pose proof (rest_length (forward v (length before + 1))) as Hl.
            destruct (rest (forward v (length before + 1))); cbn [length] in Hl; lia. }
          destruct (Nat.leb_spec (stop (buf s)) (next (buf s) + length before + 1)) as [Hc|Hc].
          - destruct (rd_next _ _ HR s1 _ Hs1) as (s2 & E2 & H2 & H3).
            { cbn. lia. }
            exists s2. rewrite E2, Hpos. split; [done|]. split; [done|].
            intros Hx. apply H3. rewrite <- Nat.ltb_lt. rewrite Hpos.
            by destruct (l' ++ drop n (rest v)).
          - exists s1. destruct l' as [|y l'']; [cbn in Hbl; lia|]. split; [done|]. split; [done|].
            intros _. cbn. lia. }
        destruct Hmore as (s2 & E2 & Hs2 & Hn2). rewrite E2 in Hun. cbn [obind] in Hun.
        destruct Hne as (x0 & r0 & Hx0). rewrite Hx0. rewrite <- Hx0.
        destruct (l' ++ drop n (rest v)) as [|y r] eqn:Er.
        { exists s2. split; [|done]. intros fuel Hf. rewrite Hun by lia. done. }
        destruct (element_ok s2 _ Hs2 (Hn2 ltac:(done))) as (x & l2 & Hx & Hread).
        rewrite Hrest1 in Hx. injection Hx as <- <-. rewrite Hread in Hun. cbn [obind] in Hun.
        destruct (is_nl y).
        * eexists. split. { intros fuel Hf. rewrite Hun by lia. reflexivity. }
          pose proof (rd_forward _ _ HR s2 _ 1 Hs2 ltac:(specialize (Hn2 ltac:(done)); lia)) as Hs3.
          rewrite FF in Hs3. by rewrite <- Nat.add_assoc in Hs3.
        * eexists. split. { intros fuel Hf. rewrite Hun by lia. reflexivity. } done.
      + destruct (scan_none _ _ Es) as [-> Hsplit]. specialize (Hsplit (drop n (rest v))).
        rewrite take_drop in Hsplit. rewrite Hsplit.
        pose proof (rd_forward _ _ HR s v n Hs ltac:(lia)) as Hs1.
        replace (next (buf s) + n) with (stop (buf s)) in Hs1 by lia.
        pose proof (IH (m - 1) ltac:(lia) _ _ true (Some (default [] line ++ take n (rest v))) Hs1 ltac:(done)) as IH'.
        rewrite rest_forward in IH'.
        destruct (split_line is_nl is_cr (drop n (rest v))) as [l k] eqn:Esp. cbn [fst snd].
        destruct IH' as (s' & E & Hs').
        { rewrite drop_length. cbn. destruct (_ <=? _); lia. }
        exists s'. split.
        2:{ rewrite FF in Hs'. rewrite app_length, take_length, Nat.min_l by done. by rewrite <- Nat.add_assoc. }
        intros [|fuel] Hf; [lia|]. cbn [line_loop].
        replace (stop (buf s) <=? next (buf s)) with false by lia. rewrite Hstop. fold n. rewrite Hch, Es.
        rewrite E by lia. destruct Hne as (x & r & Hx). rewrite Hx. rewrite <- Hx. do 3 f_equal.
        destruct (drop n (rest v)) as [|y t] eqn:Ed.
        * cbn in Esp. injection Esp as <- <-. by rewrite app_nil_r.
        * cbn [from_option]. unfold id. by rewrite <- app_assoc.
  Qed.

  Lemma read_into_ok s v n into start sup : Q s v ->
    (0 <= n)%Z -> (0 <= start)%Z -> (start + n <= zlen into)%Z ->
    let got := take (Z.to_nat n) (rest v) in
    let into' := take (Z.to_nat start) into ++ got ++ drop (Z.to_nat start + length got) into in
    exists s' enough, (forall fuel, enough <= fuel -> read_into zero short fuel s n into start sup =
        Val (s', (into', if (n <=? zlen (rest v))%Z then Ret n
                         else if sup then EosValue else IncompleteRead (zlen (rest v)) into'))) /\
      P s' (forward v (length got)).
  Proof.
    intros H Hn Hst Hl. cbn zeta. unfold read_into.
    destruct (rd_get _ _ HR s v H) as (s1 & E1 & H1 & Hlt). rewrite E1. cbn [obind].
    destruct (read_loop_ok (2 * Z.to_nat n + 2) s1 v (position_of v <? length (contents_of v)) into start start (start + n) sup)
      as (s2 & E2 & H2); try done; try lia.
    { intros Hf. apply nil_length_inv. rewrite rest_length. lia. }
    { destruct (position_of v <? length (contents_of v)); [|lia]. destruct (_ <=? _); lia. }
    replace (start + n - start)%Z with n in * by lia.
    exists s2, (S (2 * Z.to_nat n + 2)). split; [|done].
    intros fuel Hf. rewrite E2 by lia. by replace (start + zlen (rest v) - start)%Z with (zlen (rest v)) by lia.
  Qed.

  Lemma read_ok s v n sup : Q s v -> (0 <= n)%Z ->
    exists s' enough, (forall fuel, enough <= fuel -> read zero blank short fuel s n sup =
        Val (s', if (n <=? zlen (rest v))%Z then Ret (take (Z.to_nat n) (rest v))
                 else if sup then EosValue
                      else IncompleteRead (zlen (rest v)) (rest v ++ replicate (Z.to_nat n - length (rest v)) blank))) /\
      P s' (forward v (length (take (Z.to_nat n) (rest v)))).
  Proof.
    intros H Hn. unfold read. replace (n <? 0)%Z with false by lia.
    destruct (read_into_ok s v n (replicate (Z.to_nat n) blank) 0 sup H) as (s' & enough & E & H'); try done; try lia.
    { unfold zlen. rewrite replicate_length. lia. }
    exists s', enough. split; [|done]. intros fuel Hf. rewrite E by done. cbn [obind].
    change (take (Z.to_nat 0) (replicate (Z.to_nat n) blank)) with (@nil A). cbn [app]. rewrite drop_replicate.
    do 2 f_equal. unfold zlen. destruct (Z.leb_spec n (Z.of_nat (length (rest v)))).
    - rewrite take_length. replace (Z.to_nat n - _) with 0 by lia. cbn. by rewrite app_nil_r.
    - rewrite take_ge by lia. by destruct sup.
  Qed.

  (** The calls that only read. *)
  Definition reading (o : @file_op A) : bool :=
    match o with FReadElement _ | FPeek _ | FRead _ _ | FReadInto _ _ _ _ | FReadSkip _ | FReadLine _ | FAtEnd => true | _ => false end.
  Theorem reading_call r s v o : Q s v -> proper o -> reading o = true -> readable r = true ->
    exists s', file_calls zero blank newline is_nl is_cr short s o s' (file_spec zero blank newline is_nl is_cr r v o).2 /\
      Q s' (file_spec zero blank newline is_nl is_cr r v o).1.
  Proof.
    intros H Hp Ho Hrr. unfold file_calls. pose proof (rd_weaken _ _ HR) as W.
    destruct (rd_dir _ _ HR s v H) as [Hnc Hrd].
    assert (Hat : forall s1, (position_of v < length (contents_of v) -> next (buf s1) < stop (buf s1)) -> P s1 v ->
              (rest v = [] /\ (position_of v <? length (contents_of v)) = false) \/
              exists x l, rest v = x :: l /\ (position_of v <? length (contents_of v)) = true /\
                          vread (data (buf s1)) (next (buf s1)) = Val x /\
                          P (with_buf s1 (with_next (buf s1) (next (buf s1) + 1))) (forward v 1)).
    { intros s1 Hn H1. destruct (Nat.ltb_spec (position_of v) (length (contents_of v))) as [Hlt|Hge].
      - right. destruct (element_ok s1 v H1 (Hn Hlt)) as (x & l & Hx & Hr). exists x, l. split; [done|]. split; [done|].
        split; [done|]. apply (rd_forward _ _ HR); [done|]. specialize (Hn Hlt). lia.
      - left. split; [|done]. apply nil_length_inv. rewrite rest_length. lia. }
    destruct o; try discriminate; cbn [file_spec]; rewrite ?Hrr; cbn [negb orb andb] in *.
    - (* read-element *)
      unfold file_call, read_element.
      destruct (rd_get _ _ HR s v H) as (s1 & E1 & H1 & Hlt). rewrite E1. unfold andthen. cbn [obind].
      destruct (Hat s1 Hlt H1) as [[-> ->]|(x & l & -> & -> & Hr & Hf)].
      + exists s1. split; [|auto]. exists 0. intros fuel _. by destruct supplied.
      + eexists. split; [|apply W; exact Hf]. exists 0. intros fuel _. by rewrite Hr.
    - (* peek *)
      unfold file_call, peek.
      destruct (rd_get _ _ HR s v H) as (s1 & E1 & H1 & Hlt). rewrite E1. unfold andthen. cbn [obind].
      destruct (Hat s1 Hlt H1) as [[-> ->]|(x & l & -> & -> & Hr & Hf)].
      + exists s1. split; [|auto]. exists 0. intros fuel _. by destruct supplied.
      + exists s1. split; [|auto]. exists 0. intros fuel _. by rewrite Hr.
    - (* read *)
      unfold file_call. destruct (Z.ltb_spec n 0).
      + exists s. split; [|auto]. exists 0. intros fuel _. unfold read. by replace (n <? 0)%Z with true by lia.
      + destruct (read_ok s v n supplied H) as (s' & enough & E & H'); [lia|].
        exists s'. split.
        * exists enough. intros fuel Hf. rewrite E by done. cbn [obind]. by destruct (n <=? zlen (rest v))%Z.
        * rewrite take_length in H'. unfold zlen in *. destruct (Z.leb_spec n (Z.of_nat (length (rest v)))); cbn [fst].
          -- apply W. by rewrite Nat.min_l in H' by lia.
          -- apply W. by rewrite Nat.min_r in H' by lia.
    - (* read-into! *)
      destruct Hp as (Hp1 & Hp2 & Hp3).
      destruct (read_into_ok s v n into start supplied H) as (s' & enough & E & H'); [done..|].
      exists s'. split; [|auto]. exists enough. intros fuel Hf. cbn [file_call]. rewrite E by done. done.
    - (* read-skip *)
      unfold file_call, read_skip. destruct (Z.ltb_spec 0 n).
      + destruct (rd_get _ _ HR s v H) as (s1 & E1 & H1 & Hlt). rewrite E1. unfold andthen. cbn [obind].
        destruct (skip_loop_ok (2 * Z.to_nat n + 2) s1 v (position_of v <? length (contents_of v)) 0 n)
          as (s2 & E2 & H2); try done; try lia.
        { intros Hf. apply nil_length_inv. rewrite rest_length. lia. }
        { destruct (position_of v <? length (contents_of v)); [|lia]. destruct (_ <=? _); lia. }
        rewrite Z.sub_0_r in H2.
        exists s2. split; [|auto]. exists (S (2 * Z.to_nat n + 2)). intros fuel Hf. rewrite E2 by lia. done.
      + exists s. split; [by exists 0|]. cbn [fst]. replace (Nat.min _ _) with 0 by lia. by rewrite forward_0.
    - (* read-line *)
      unfold file_call, read_line. cbv beta.
      assert (Hcl : forall X (a b : X), match dir s with Closed => a | _ => b end = b) by (intros; by destruct (dir s)).
      destruct (rd_get _ _ HR s v H) as (s1 & E1 & H1 & Hlt). 
      pose proof (line_loop_ok (2 * length (rest v) + 2) s1 v (position_of v <? length (contents_of v)) None H1) as HL.
      destruct (split_line is_nl is_cr (rest v)) as [l k] eqn:Es.
      destruct HL as (s2 & E2 & H2).
      { intros Hf. apply nil_length_inv. rewrite rest_length. lia. }
      { destruct (position_of v <? length (contents_of v)); [|lia]. destruct (_ <=? _); lia. }
      exists s2. split.
      + exists (S (2 * length (rest v) + 2)). intros fuel Hf. rewrite Hcl, E1. unfold andthen. cbn [obind]. rewrite E2 by lia. cbn [obind].
        destruct (rest v); cbn [default app]; [by destruct supplied|done].
      + apply W. destruct (rest v); [|auto]. cbn in Es. injection Es as <- <-. cbn in H2. by rewrite forward_0 in H2.
    - (* stream-at-end? *)
      unfold file_call, stream_at_end. rewrite Hrd.
      destruct (rd_get _ _ HR s v H) as (s1 & E1 & H1 & Hlt). rewrite E1. unfold andthen. cbn [obind].
      exists s1. split; [|auto]. exists 0. intros fuel _. by rewrite <- Nat.leb_antisym.
  Qed.
  End reading.

  (** * Input streams *)
  Record shows (s : stream) (v : @file_view A) : Prop := {
    sh_dir : dir s = Input; sh_in : has_in s = true; sh_out : has_out s = false;
    sh_bytes : bytes (disk_of s) = contents_of v; sh_sound : sound (disk_of s);
    sh_size : 0 < size_of (buf s); sh_dirty : dirty (buf s) = false;
    sh_first : first (buf s) <= next (buf s); sh_next : next (buf s) <= stop (buf s);
    sh_stop : stop (buf s) <= size_of (buf s);
    sh_position : base (buf s) + next (buf s) = position_of v;
    sh_end : base (buf s) + stop (buf s) <= length (contents_of v);
    sh_data : forall i, first (buf s) <= i < stop (buf s) -> data (buf s) !! i = contents_of v !! (base (buf s) + i) }.

  Lemma shows_inside s v : shows s v -> position_of v <= length (contents_of v).
  Proof. intros []. lia. Qed.

  Lemma do_next_input_ok s v :
    shows s v -> stop (buf s) <= next (buf s) ->
    exists s', do_next_input_buffer zero short s = Val (s', position_of v <? length (contents_of v)) /\ shows s' v /\
      (position_of v < length (contents_of v) -> next (buf s') < stop (buf s')).
  Proof.
    intros H Hns. pose proof (shows_inside _ _ H). destruct H. unfold do_next_input_buffer.
    unfold force_buffer. rewrite sh_dirty0. cbn [obind].
    destruct (load_ok (disk_of s) (buf s) (base (buf s) + stop (buf s))) as (d & l & n & E & H1 & H2 & H3 & H4 & H5 & H6 & H7);
      [done| rewrite sh_bytes0; lia | done|].
    rewrite E. cbn [obind]. rewrite sh_bytes0 in *.
    eexists. split.
    { f_equal. f_equal. apply Bool.eq_iff_eq_true. rewrite !Nat.ltb_lt.
      lia. }
    split; [|cbn; lia].
    unfold size_of in *.
    constructor; unfold size_of; cbn; try done; try lia.
    intros i Hi. apply H7. lia.
  Qed.

  Lemma get_input_ok s v :
    shows s v ->
    exists s', get_input_buffer zero short s = Val (s', Ret (position_of v <? length (contents_of v))) /\ shows s' v /\
      (position_of v < length (contents_of v) -> next (buf s') < stop (buf s')).
  Proof.
    intros H. unfold get_input_buffer. rewrite (sh_in _ _ H).
    destruct (Nat.leb_spec (stop (buf s)) (next (buf s))).
    - destruct (do_next_input_ok s v) as (s' & -> & H1 & H2); [done..|]. by exists s'.
    - exists s. split; [|done]. do 2 f_equal.
      destruct H. f_equal. lia.
  Qed.

  (** The unread part of the buffer. *)
  Lemma shows_chunk s v k :
    shows s v -> k <= stop (buf s) - next (buf s) ->
    take k (drop (next (buf s)) (data (buf s))) = take k (rest v).
  Proof.
    intros [] Hk. apply list_eq. intros i. destruct (decide (i < k)).
    - rewrite !lookup_take by done. unfold rest. rewrite !lookup_drop.
      rewrite sh_data0 by lia. f_equal. lia.
    - rewrite !lookup_take_ge by lia. done.
  Qed.
  Lemma shows_forward s v k :
    shows s v -> k <= stop (buf s) - next (buf s) ->
    shows (with_buf s (with_next (buf s) (next (buf s) + k))) (forward v k).
  Proof. intros [] Hk. constructor; cbn; try done; try lia. Qed.
  Lemma input_reader : reader shows shows.
  Proof.
    constructor.
    - done.
    - intros s v []. rewrite sh_dir0. done.
    - apply get_input_ok.
    - apply do_next_input_ok.
    - intros s v []. rewrite rest_length. lia.
    - apply shows_forward.
    - apply shows_chunk.
  Qed.

  Lemma size_ok s v : shows s v ->
    exists s', stream_size s = (s', Ret (length (contents_of v))) /\ shows s' v.
  Proof.
    intros [].
    exists (with_disk s (lseek (disk_of s) (file_position (disk_of s))) (buf s)).
    unfold stream_size. rewrite sh_dir0, sh_dirty0. cbn [accessor_size]. rewrite sh_bytes0.
    split; [done|]. destruct sh_sound0 as [Ha Hb].
    constructor; cbn; try done.
    split; cbn; [done|]. rewrite Ha. done.
  Qed.

  Lemma page_split (b : @buffer A) p : 0 < size_of b -> page_of b p + on_page b p = p /\ on_page b p < size_of b.
  Proof.
    intros H. unfold page_of, on_page. pose proof (Nat.mod_upper_bound p (size_of b) ltac:(lia)).
    pose proof (Nat.mod_le p (size_of b) ltac:(lia)). lia.
  Qed.

  Lemma adjust_input_ok s v p : shows s v -> p <= length (contents_of v) ->
    exists s', adjust_input s p (length (contents_of v)) = Val (s', Ret ()) /\ shows s' (FileView (contents_of v) p).
  Proof.
    intros [] Hp. unfold adjust_input. replace (length (contents_of v) <? p) with false by lia.
    destruct (page_split (buf s) p sh_size0) as [Hpage Hon].
    destruct (_ && _ && _) eqn:E.
    - eexists. split; [reflexivity|].
      apply andb_true_iff in E as [E Ha]. apply andb_true_iff in E as [E Hb]. apply andb_true_iff in E as [E Hc].
      constructor; cbn; try done; try lia.
    - eexists. split; [reflexivity|]. constructor; unfold size_of in *; cbn; try done; try lia.
  Qed.

  Lemma set_position_ok s v p : shows s v ->
    exists s', set_stream_position zero short s p = Val (s', if ((p <? 0) || (zlen (contents_of v) <? p))%Z then Failed else Ret ()) /\
      shows s' (if ((p <? 0) || (zlen (contents_of v) <? p))%Z then v else FileView (contents_of v) (Z.to_nat p)).
  Proof.
    intros H. unfold set_stream_position.
    destruct (size_ok s v H) as (s1 & -> & H1). unfold zlen.
    destruct ((p <? 0) || (Z.of_nat (length (contents_of v)) <? p))%Z eqn:E.
    - replace ((0 <=? p) && (p <=? Z.of_nat (length (contents_of v))))%Z with false by lia. by exists s1.
    - replace ((0 <=? p) && (p <=? Z.of_nat (length (contents_of v))))%Z with true by lia.
      unfold adjust_from_start. rewrite (sh_dir _ _ H1).
      destruct (adjust_input_ok s1 v (Z.to_nat p) H1) as (s2 & -> & H2); [lia|]. by exists s2.
  Qed.

  Lemma position_ok s v : shows s v -> stream_position s = position_of v.
  Proof. intros []. unfold stream_position. rewrite sh_in0. cbn [orb]. done. Qed.

  Lemma adjust_ok s v delta from p : shows s v ->
    p = match from with FromCurrent => Z.of_nat (position_of v) + delta | FromStart => delta
                      | FromEnd => zlen (contents_of v) + delta end%Z ->
    exists s', adjust_stream_position zero short s delta from =
        Val (s', if ((p <? 0) || (zlen (contents_of v) <? p))%Z then Failed else Ret ()) /\
      shows s' (if ((p <? 0) || (zlen (contents_of v) <? p))%Z then v else FileView (contents_of v) (Z.to_nat p)).
  Proof.
    intros H Hp. unfold adjust_stream_position.
    destruct (size_ok s v H) as (s1 & -> & H1).
    rewrite (position_ok s1 v H1). rewrite (sh_dir _ _ H1). cbn [write_only andb].
    replace (match from with FromStart => delta | FromCurrent => (Z.of_nat (position_of v) + delta)%Z
             | FromEnd => (Z.of_nat (length (contents_of v)) + delta)%Z end) with p
      by (rewrite Hp; by destruct from).
    unfold zlen in *. clear Hp.
    rewrite orb_false_r.
    destruct (p <? 0)%Z eqn:E; cbn [orb]; [by exists s1|].
    unfold adjust_from_start. rewrite (sh_dir _ _ H1).
    destruct (Z.of_nat (length (contents_of v)) <? p)%Z eqn:E2.
    - exists s1. split; [|done]. unfold adjust_input.
      by replace (length (contents_of v) <? Z.to_nat p) with true by lia.
    - destruct (adjust_input_ok s1 v (Z.to_nat p) H1) as (s2 & -> & H2); [lia|]. by exists s2.
  Qed.

  Theorem input_call s v o : shows s v -> proper o ->
    exists s', file_calls zero blank newline is_nl is_cr short s o s' (file_spec zero blank newline is_nl is_cr Input v o).2 /\
      shows s' (file_spec zero blank newline is_nl is_cr Input v o).1.
  Proof.
    intros H Hp. destruct (reading o) eqn:Ho.
    { by apply (reading_call _ _ input_reader). }
    unfold file_calls.
    pose proof (sh_dir _ _ H) as Hdir. pose proof (sh_out _ _ H) as Hout.
    assert (Hwr : get_output_buffer zero short s = Val (s, Failed)).
    { unfold get_output_buffer, do_get_output_buffer. by rewrite Hout, Hdir. }
    destruct o; try discriminate; cbn [file_spec go_far readable writable negb orb andb] in *.
    - (* unread-element *)
      unfold file_call, unread_element.
      destruct (adjust_ok s v (-1) FromCurrent _ H eq_refl) as (s1 & E1 & H1). rewrite E1.
      pose proof (shows_inside _ _ H).
      destruct (Nat.ltb_spec 0 (position_of v)).
      + replace ((_ <? 0)%Z || _) with false in * by (unfold zlen; lia).
        exists s1. split; [by exists 0|]. cbn [fst]. by replace (position_of v - 1) with (Z.to_nat (Z.of_nat (position_of v) + -1)) by lia.
      + replace ((_ <? 0)%Z || _) with true in * by lia.
        exists s1. split; [by exists 0|]. done.
    - (* read-to-end *)
      unfold file_call, read_to_end. rewrite Hdir.
      destruct (size_ok s v H) as (s1 & E1 & H1). rewrite E1. rewrite (position_ok _ _ H1).
      pose proof (shows_inside _ _ H).
      destruct (read_ok _ _ input_reader s1 v (Z.of_nat (length (contents_of v)) - Z.of_nat (position_of v)) false H1) as (s' & enough & E & H');
        [lia|].
      assert (Hz : Z.to_nat (Z.of_nat (length (contents_of v)) - Z.of_nat (position_of v)) = length (rest v)).
      { rewrite rest_length. lia. }
      rewrite Hz in *. rewrite take_ge in * by lia.
      exists s'. split; [|done]. exists enough. intros fuel Hf. rewrite E by done. cbn [obind].
      replace (_ <=? _)%Z with true; [done|]. unfold zlen. lia.
    - exists s. split; [|done]. exists 0. intros fuel _. cbn [file_call]. unfold write_element. by rewrite Hwr.
    - exists s. split; [|done]. exists 0. intros fuel _. cbn [file_call]. unfold write. by rewrite Hwr.
    - exists s. split; [|done]. exists 0. intros fuel _. cbn [file_call]. unfold write_line. by rewrite Hwr.
    - exists s. split; [|done]. exists 0. intros fuel _. cbn [file_call]. unfold write_fill. by rewrite Hwr.
    - unfold file_call. destruct (size_ok s v H) as (s1 & E1 & H1). rewrite E1.
      exists s1. split; [|done]. by exists 0.
    - exists s. split; [|done]. exists 0. intros fuel _. cbn [file_call]. by rewrite (position_ok _ _ H).
    - unfold file_call. destruct (set_position_ok s v p H) as (s1 & E1 & H1). rewrite E1. cbn [obind].
      exists s1. unfold go. destruct (_ || _); (split; [by exists 0|done]).
    - unfold file_call.
      destruct (adjust_ok s v delta from _ H eq_refl) as (s1 & E1 & H1). rewrite E1. cbn [obind].
      exists s1. unfold go. destruct from; destruct (_ || _); (split; [by exists 0|done]).
    - (* stream-contents *)
      unfold file_call, stream_contents. rewrite Hdir. cbn [readable negb].
      unfold force_output. rewrite Hdir. cbn [writable]. unfold andthen at 1. cbn [obind].
      destruct (set_position_ok s v 0 H) as (s1 & E1 & H1). rewrite E1.
      replace ((0 <? 0)%Z || _) with false in * by (unfold zlen; lia). unfold andthen at 1. cbn [obind].
      destruct (size_ok s1 _ H1) as (s2 & E2 & H2). rewrite E2. cbn [contents_of] in *.
      destruct (read_ok _ _ input_reader s2 _ (Z.of_nat (length (contents_of v))) false H2) as (s3 & enough & E3 & H3); [lia|].
      change (rest (FileView (contents_of v) (Z.to_nat 0))) with (contents_of v) in *.
      rewrite Nat2Z.id in *. rewrite firstn_all in *.
      replace (Z.of_nat (length (contents_of v)) <=? zlen (contents_of v))%Z with true in E3 by (unfold zlen; lia).
      destruct (set_position_ok s3 _ (Z.of_nat (stream_position s)) H3) as (s4 & E4 & H4).
      rewrite (position_ok _ _ H) in *. cbn [contents_of] in *.
      pose proof (shows_inside _ _ H).
      replace ((_ <? 0)%Z || _) with false in * by (unfold zlen, forward; cbn; lia).
      exists s4. split.
      + exists enough. intros fuel Hf. rewrite E3 by done. unfold andthen. cbn [obind]. rewrite E4. done.
      + cbn in H4. rewrite Nat2Z.id in H4. by rewrite view_eta in H4.
    - exists s. split; [|done]. exists 0. intros fuel _. cbn [file_call]. unfold force_output. by rewrite Hdir.
  Qed.

  Theorem input_history os : forall s v, shows s v -> Forall proper os ->
    exists s', file_runs zero blank newline is_nl is_cr short s os s' (file_spec_history zero blank newline is_nl is_cr Input v os).2 /\
      shows s' (file_spec_history zero blank newline is_nl is_cr Input v os).1.
  Proof.
    induction os as [|o os IH]; intros s v H Hp.
    - exists s. split; [constructor|done].
    - inversion_clear Hp as [|?? Hp1 Hp2]. destruct (input_call s v o H) as (s1 & E1 & H1); [done|].
      cbn [file_spec_history]. destruct (file_spec zero blank newline is_nl is_cr Input v o) as [v1 r1]. cbn [fst snd] in *.
      destruct (IH s1 v1 H1) as (s2 & E2 & H2); [done|].
      destruct (file_spec_history zero blank newline is_nl is_cr Input v1 os) as [v2 r2]. cbn [fst snd] in *.
      exists s2. split; [|done]. by econstructor.
  Qed.

  Theorem make_input l start size : 0 < size -> start <= length l ->
    exists s, make_stream zero blank short l start size Input = Val (s, Ret ()) /\ shows s (FileView l start).
  Proof.
    intros Hs Hst. unfold make_stream, set_stream_position, stream_size. cbn [dir accessor_size].
    cbn [disk_of buf dirty bytes]. replace ((0 <=? _) && _)%Z with true by lia.
    unfold adjust_from_start, with_disk. cbn [dir]. unfold adjust_input. cbn [buf has_in andb].
    rewrite Nat2Z.id. replace (length l <? start) with false by lia.
    eexists. split; [reflexivity|].
    destruct (page_split (Buffer (replicate size blank) 0 0 0 false 0) start) as [Ha Hb].
    { unfold size_of. cbn. by rewrite replicate_length. }
    constructor; cbn; try done; try lia.
    - unfold size_of. cbn. by rewrite replicate_length.
    - unfold size_of in *. cbn in *. lia.
  Qed.

  (** * Output streams *)
  Record owns (s : stream) (v : @file_view A) (stale : bool) : Prop := {
    ow_dir : dir s = Output; ow_in : has_in s = false; ow_out : has_out s = true;
    ow_sound : sound (disk_of s);
    ow_size : 0 < size_of (buf s);
    ow_first : first (buf s) <= stop (buf s); ow_stop : stop (buf s) <= size_of (buf s);
    ow_next : next (buf s) <= stop (buf s);
    ow_fresh : stale = false -> first (buf s) <= next (buf s);
    ow_clean : dirty (buf s) = false -> first (buf s) = stop (buf s);
    ow_inside : base (buf s) + first (buf s) <= length (bytes (disk_of s));
    ow_contents : contents_of v = overlay (bytes (disk_of s)) (base (buf s) + first (buf s))
                                    (take (stop (buf s) - first (buf s)) (drop (first (buf s)) (data (buf s))));
    ow_position : position_of v = base (buf s) + next (buf s) }.

  Lemma owns_length s v st : owns s v st ->
    length (contents_of v) = Nat.max (length (bytes (disk_of s))) (base (buf s) + stop (buf s)).
  Proof.
    intros []. rewrite ow_contents0, overlay_length by done. rewrite take_length, drop_length.
    unfold size_of in *. lia.
  Qed.
  Lemma owns_inside s v st : owns s v st -> position_of v <= length (contents_of v).
  Proof. intros H. rewrite (owns_length _ _ _ H). destruct H. lia. Qed.

  Lemma write_from_ok fuel : forall (d : @disk A) from i count,
    sound d -> i + count <= length from -> 0 < count <= fuel -> offset d <= length (bytes d) ->
    exists d', accessor_write_from zero short fuel d from i count = Val d' /\
      file_position d' = offset d' /\ at_end d' = at_end d /\ offset d' = offset d + count /\
      bytes d' = overlay (bytes d) (offset d) (take count (drop i from)).
  Proof.
    induction fuel as [|fuel IH]; intros d from i count Hs Hi Hc Ho; [lia|].
    cbn [accessor_write_from]. replace (length from <? i + count) with false by lia.
    unfold sys_write.
    assert (Hl : length (take count (drop i from)) = count) by (rewrite take_length, drop_length; lia).
    rewrite Hl.
    destruct (transferred_ok d count) as [Ht1 Ht2]. set (t := transferred short d count) in *. clearbody t.
    cbn [bytes offset system_calls at_end file_position].
    rewrite take_take, Nat.min_l by done.
    destruct Hs as [Hs1 Hs2].
    destruct (Nat.ltb_spec t count) as [Htc|Htc].
    - edestruct (IH (Disk (overlay (bytes d) (offset d) (take t (drop i from))) (offset d + t) (S (system_calls d)) (at_end d)
                     (file_position d + t)) from (i + t) (count - t)) as (d' & E & H1 & H2 & H3 & H4); try lia.
      { split; cbn; [lia|]. intros Ha. specialize (Hs2 Ha). rewrite overlay_length by done.
        rewrite take_length, drop_length. lia. }
      { cbn. rewrite overlay_length, take_length, drop_length by done. lia. }
      rewrite E. exists d'. cbn in *. split_and!; try done; try lia.
      rewrite H4. replace (offset d + t) with (offset d + length (take t (drop i from))) by (rewrite take_length, drop_length; lia).
      rewrite overlay_overlay by done. f_equal.
      rewrite <- (drop_drop from t i), take_take_drop. f_equal. lia.
    - assert (t = count) as -> by lia. eexists. split; [reflexivity|]. cbn. split_and!; try done; lia.
  Qed.

  Lemma force_ok s v st : owns s v st ->
    exists d, force_buffer zero short Output (disk_of s) (buf s) =
        Val (d, Buffer (data (buf s)) (next (buf s)) (stop (buf s)) (base (buf s)) false (stop (buf s))) /\
      sound d /\ bytes d = contents_of v.
  Proof.
    intros H. pose proof (owns_length _ _ _ H) as HL. destruct H. unfold force_buffer.
    destruct (dirty (buf s)) eqn:Ed.
    - destruct (seek_ok (disk_of s) (base (buf s) + first (buf s)) ow_sound0) as (Hs' & Hbytes & Hoff).
      set (d1 := if _ =? _ then disk_of s else _) in *. clearbody d1.
      destruct (Nat.ltb_spec 0 (stop (buf s) - first (buf s))) as [Hc|Hc].
      + destruct (write_from_ok (stop (buf s) - first (buf s)) d1 (data (buf s)) (first (buf s)) (stop (buf s) - first (buf s)))
          as (d' & E & H1 & H2 & H3 & H4); try done; try lia.
        { unfold size_of in *. lia. } { rewrite Hoff, Hbytes. lia. }
        rewrite E. cbn [obind write_only]. exists d'.
        replace (first (buf s) + (stop (buf s) - first (buf s))) with (stop (buf s)) by lia.
        split; [done|]. rewrite H4, Hbytes, Hoff, <- ow_contents0. split; [|done].
        split; [done|]. rewrite H2. intros Ha. destruct Hs' as [_ Hs']. specialize (Hs' Ha).
        rewrite H4, H3, Hbytes, Hoff, <- ow_contents0. rewrite Hbytes, Hoff in Hs'. lia.
      + exists d1. replace (first (buf s)) with (stop (buf s)) by lia. split; [done|]. split; [done|].
        rewrite Hbytes, ow_contents0. replace (stop (buf s) - first (buf s)) with 0 by lia. cbn [take].
        by rewrite overlay_nil.
    - exists (disk_of s). specialize (ow_clean0 eq_refl). split; [|split; [done|]].
      + destruct (buf s). cbn in *. by subst.
      + rewrite ow_contents0, ow_clean0, Nat.sub_diag. change (take 0 ?x) with (@nil A). rewrite overlay_nil; [done|lia].
  Qed.

  Lemma next_output_ok s v st : owns s v st -> size_of (buf s) <= next (buf s) ->
    exists s', do_next_output_buffer zero short s = Val (s', Ret ()) /\ owns s' v false /\
      next (buf s') = 0 /\ size_of (buf s') = size_of (buf s).
  Proof.
    intros H Hn. unfold do_next_output_buffer. pose proof (owns_length _ _ _ H) as HL.
    destruct (force_ok s v st H) as (d & E & Hs & Hb). destruct H.
    replace (stop (buf s) =? size_of (buf s)) with true by lia. cbn [negb].
    rewrite ow_dir0, E. cbn [obind]. eexists. split; [reflexivity|]. split.
    - constructor; cbn; try done; try lia.
      + unfold size_of in *. cbn. by rewrite replicate_length.
      + rewrite Hb. lia.
      + rewrite Hb, overlay_nil by lia. done.
    - cbn. split; [done|]. unfold size_of. cbn. by rewrite replicate_length.
  Qed.

  Lemma get_output_ok s v st : owns s v st ->
    exists s', get_output_buffer zero short s = Val (s', Ret ()) /\ owns s' v st /\ next (buf s') < size_of (buf s').
  Proof.
    intros H. unfold get_output_buffer. rewrite (ow_out _ _ _ H).
    destruct (Nat.leb_spec (size_of (buf s)) (next (buf s))) as [Hl|Hl].
    - destruct (next_output_ok s v st H Hl) as (s' & E & H' & Hn & Hz). rewrite E. exists s'. split; [done|].
      split; [|rewrite Hn, Hz; destruct H; lia]. destruct H'. constructor; try done. auto.
    - exists s. done.
  Qed.

  (** Writing a chunk into the buffer. *)
  Lemma chunk_ok s v l k src : owns s v false ->
    k = length src -> next (buf s) + k <= size_of (buf s) -> 0 < k ->
    l = take (next (buf s)) (data (buf s)) ++ src ++ drop (next (buf s) + k) (data (buf s)) ->
    owns (with_buf s (Buffer l (next (buf s) + k) (Nat.max (next (buf s) + k) (stop (buf s))) (base (buf s)) true (first (buf s))))
      (put v src) false.
  Proof.
    intros H Hk Hfit Hpos Hl. pose proof (owns_inside _ _ _ H) as Hin. pose proof (owns_length _ _ _ H) as HL.
    destruct H. specialize (ow_fresh0 eq_refl).
    assert (Hll : length l = size_of (buf s)).
    { rewrite Hl, !app_length, take_length, drop_length. unfold size_of in *. lia. }
    assert (Hlook : forall j, l !! j = if decide (j < next (buf s)) then data (buf s) !! j
                       else if decide (j < next (buf s) + k) then src !! (j - next (buf s)) else data (buf s) !! j).
    { intros j.
      rewrite Hl, Hk, <- (overlay_inside (data (buf s)) src (next (buf s))) by (unfold size_of in *; lia).
      rewrite overlay_lookup by (unfold size_of in *; lia). done. }
    constructor; unfold size_of in *; cbn; try done; try lia.
    - unfold put. cbn.
      rewrite <- (overlay_inside (contents_of v) src (position_of v)) by done.
      apply list_eq. intros j.
      rewrite overlay_lookup by done. rewrite overlay_lookup by done.
      assert (Hseg : length (take (Nat.max (next (buf s) + k) (stop (buf s)) - first (buf s)) (drop (first (buf s)) l)) =
                     Nat.max (next (buf s) + k) (stop (buf s)) - first (buf s)).
      { rewrite take_length, drop_length, Hll. lia. }
      rewrite Hseg. rewrite ow_contents0, overlay_lookup by done.
      rewrite take_length, drop_length, ow_position0. rewrite Nat.min_l by (unfold size_of in *; lia).
      repeat destruct (decide _); try lia; try done.
      all: rewrite ?lookup_take by lia; rewrite ?lookup_drop, ?Hlook.
      all: repeat destruct (decide _); try lia; try done; f_equal; lia.
  Qed.

  Lemma put_nil (v : @file_view A) : put v [] = v.
  Proof.
    unfold put. cbn. rewrite Nat.add_0_r, take_drop. by destruct v.
  Qed.
  Lemma put_put (v : @file_view A) a b : position_of v <= length (contents_of v) -> put (put v a) b = put v (a ++ b).
  Proof.
    intros H. unfold put. cbn. rewrite app_length, Nat.add_assoc. f_equal.
    rewrite <- (overlay_inside (contents_of v) a) by done.
    rewrite <- (overlay_inside (overlay _ _ _) b) by (rewrite overlay_length; lia).
    rewrite overlay_overlay by done. rewrite overlay_inside by done. by rewrite app_length, Nat.add_assoc.
  Qed.

  Lemma write_loop_ok m : forall s v src (i e : nat),
    owns s v false -> i <= e -> e <= length src ->
    2 * (e - i) + (if size_of (buf s) <=? next (buf s) then 1 else 0) <= m ->
    exists s',
      (forall fuel, m < fuel -> write_loop zero short fuel s src (Z.of_nat i) (Z.of_nat e) = Val (s', Ret ())) /\
      owns s' (put v (take (e - i) (drop i src))) false.
  Proof.
    induction m as [m IH] using lt_wf_ind. intros s v src i e H Hie He Hm.
    destruct (Nat.lt_ge_cases i e) as [Hlt|Hge].
    2:{ exists s. split.
        - intros [|fuel] Hf; [lia|]. cbn [write_loop]. by replace (Z.of_nat i <? Z.of_nat e)%Z with false by lia.
        - replace (e - i) with 0 by lia. change (take 0 ?x) with (@nil A). by rewrite put_nil. }
    destruct (Nat.leb_spec (size_of (buf s)) (next (buf s))) as [Hn|Hn].
    - destruct (next_output_ok s v false H Hn) as (s1 & E1 & H1 & Hn1 & Hz1).
      destruct (IH (m - 1) ltac:(lia) s1 v src i e H1 Hie He) as (s' & E & H').
      { rewrite Hn1, Hz1. destruct H. replace (size_of (buf s) <=? 0) with false by lia. lia. }
      exists s'. split; [|done]. intros [|fuel] Hf; [lia|]. cbn [write_loop].
      replace (Z.of_nat i <? Z.of_nat e)%Z with true by lia.
      replace (size_of (buf s) <=? next (buf s)) with true by lia. rewrite E1. unfold andthen. cbn [obind]. apply E. lia.
    - set (k := Nat.min (size_of (buf s) - next (buf s)) (e - i)).
      assert (Hk : length (take k (drop i src)) = k) by (rewrite take_length, drop_length; lia).
      pose proof (chunk_ok s v _ k (take k (drop i src)) H ltac:(lia) ltac:(lia) ltac:(lia) eq_refl) as H1.
      destruct (IH (m - 1) ltac:(lia) _ _ src (i + k) e H1) as (s' & E & H'); try lia.
      { cbn. destruct (_ <=? _); lia. }
      exists s'. split.
      + intros [|fuel] Hf; [lia|]. cbn [write_loop].
        replace (Z.of_nat i <? Z.of_nat e)%Z with true by lia.
        replace (size_of (buf s) <=? next (buf s)) with false by lia.
        replace (Z.to_nat (Z.of_nat e - Z.of_nat i)) with (e - i) by lia. fold k.
        rewrite copy_bytes_ok by (unfold size_of in *; lia).
        replace (Z.of_nat i + Z.of_nat k)%Z with (Z.of_nat (i + k)) by lia. apply E. lia.
      + rewrite put_put in H' by (eapply owns_inside; eassumption).
        rewrite <- drop_drop, take_take_drop in H'. by replace (k + (e - (i + k))) with (e - i) in H' by lia.
  Qed.

  Lemma fill_loop_ok m : forall s v x (i e : nat),
    owns s v false -> i <= e ->
    2 * (e - i) + (if size_of (buf s) <=? next (buf s) then 1 else 0) <= m ->
    exists s',
      (forall fuel, m < fuel -> fill_loop zero short fuel s x (Z.of_nat i) (Z.of_nat e) = Val (s', Ret ())) /\
      owns s' (put v (replicate (e - i) x)) false.
  Proof.
    induction m as [m IH] using lt_wf_ind. intros s v x i e H Hie Hm.
    destruct (Nat.lt_ge_cases i e) as [Hlt|Hge].
    2:{ exists s. split.
        - intros [|fuel] Hf; [lia|]. cbn [fill_loop]. by replace (Z.of_nat i <? Z.of_nat e)%Z with false by lia.
        - replace (e - i) with 0 by lia. cbn [replicate]. by rewrite put_nil. }
    destruct (Nat.leb_spec (size_of (buf s)) (next (buf s))) as [Hn|Hn].
    - destruct (next_output_ok s v false H Hn) as (s1 & E1 & H1 & Hn1 & Hz1).
      destruct (IH (m - 1) ltac:(lia) s1 v x i e H1 Hie) as (s' & E & H').
      { rewrite Hn1, Hz1. destruct H. replace (size_of (buf s) <=? 0) with false by lia. lia. }
      exists s'. split; [|done]. intros [|fuel] Hf; [lia|]. cbn [fill_loop].
      replace (Z.of_nat i <? Z.of_nat e)%Z with true by lia.
      replace (size_of (buf s) <=? next (buf s)) with true by lia. rewrite E1. unfold andthen. cbn [obind]. apply E. lia.
    - set (k := Nat.min (size_of (buf s) - next (buf s)) (e - i)).
      pose proof (chunk_ok s v _ k (replicate k x) H ltac:(by rewrite replicate_length) ltac:(lia) ltac:(lia) eq_refl) as H1.
      destruct (IH (m - 1) ltac:(lia) _ _ x (i + k) e H1) as (s' & E & H'); try lia.
      { cbn. destruct (_ <=? _); lia. }
      exists s'. split.
      + intros [|fuel] Hf; [lia|]. cbn [fill_loop].
        replace (Z.of_nat i <? Z.of_nat e)%Z with true by lia.
        replace (size_of (buf s) <=? next (buf s)) with false by lia.
        replace (Z.to_nat (Z.of_nat e - Z.of_nat i)) with (e - i) by lia. fold k.
        unfold buffer_fill. replace (_ && _) with true by lia. cbn [obind data with_data].
        replace (next (buf s) + k - next (buf s)) with k by lia.
        replace (Z.of_nat i + Z.of_nat k)%Z with (Z.of_nat (i + k)) by lia. apply E. lia.
      + rewrite put_put in H' by (eapply owns_inside; eassumption).
        rewrite <- replicate_add in H'. by replace (k + (e - (i + k))) with (e - i) in H' by lia.
  Qed.

  Lemma osize_ok s v st : owns s v st ->
    exists s', stream_size s = (s', Ret (length (contents_of v))) /\ owns s' v st.
  Proof.
    intros H. pose proof (owns_length _ _ _ H) as HL. destruct H.
    exists (with_disk s (lseek (disk_of s) (file_position (disk_of s))) (buf s)).
    unfold stream_size. rewrite ow_dir0. cbn [accessor_size]. split.
    - do 2 f_equal. destruct (dirty (buf s)) eqn:E; [lia|]. specialize (ow_clean0 eq_refl). lia.
    - constructor; cbn; try done. destruct ow_sound0 as [Ha Hb]. split; cbn; [done|]. by rewrite Ha.
  Qed.

  Lemma adjust_output_ok s v st p : owns s v st -> p <= length (contents_of v) ->
    exists s', adjust_output zero short s p (length (contents_of v)) = Val (s', Ret ()) /\
      owns s' (FileView (contents_of v) p) false.
  Proof.
    intros H Hp. unfold adjust_output. destruct (force_ok s v st H) as (d & E & Hs & Hb).
    pose proof (ow_dir _ _ _ H) as Hdir.
    destruct (page_split (buf s) p) as [Hpage Hon]; [by destruct H|].
    destruct (_ && _) eqn:Et.
    - eexists. split; [reflexivity|]. apply andb_true_iff in Et as [Et Ha]. apply andb_true_iff in Et as [Et Hc].
      destruct H. constructor; cbn; try done; try lia.
    - rewrite Hdir, E. cbn [obind]. replace (length (contents_of v) <? p) with false by lia.
      eexists. split; [reflexivity|]. destruct H. constructor; cbn; try done; try lia.
      + unfold size_of in *. cbn. lia.
      + rewrite Hb. lia.
      + rewrite Nat.sub_diag. change (take 0 ?x) with (@nil A). rewrite Hb. rewrite overlay_nil; [done|lia].
  Qed.

  Lemma oposition_ok s v st : owns s v st -> stream_position s = position_of v.
  Proof. intros []. unfold stream_position. rewrite ow_out0, orb_true_r. done. Qed.

  Lemma set_oposition_ok s v st p : owns s v st ->
    exists s', set_stream_position zero short s p = Val (s', if ((p <? 0) || (zlen (contents_of v) <? p))%Z then Failed else Ret ()) /\
      owns s' (if ((p <? 0) || (zlen (contents_of v) <? p))%Z then v else FileView (contents_of v) (Z.to_nat p))
        (if ((p <? 0) || (zlen (contents_of v) <? p))%Z then st else false).
  Proof.
    intros H. unfold set_stream_position.
    destruct (osize_ok s v st H) as (s1 & -> & H1). unfold zlen.
    destruct ((p <? 0) || (Z.of_nat (length (contents_of v)) <? p))%Z eqn:E.
    - replace ((0 <=? p) && (p <=? Z.of_nat (length (contents_of v))))%Z with false by lia. by exists s1.
    - replace ((0 <=? p) && (p <=? Z.of_nat (length (contents_of v))))%Z with true by lia.
      unfold adjust_from_start. rewrite (ow_dir _ _ _ H1).
      destruct (adjust_output_ok s1 v st (Z.to_nat p) H1) as (s2 & -> & H2); [lia|]. by exists s2.
  Qed.
  Lemma oadjust_ok s v st delta from p : owns s v st ->
    p = match from with FromCurrent => Z.of_nat (position_of v) + delta | FromStart => delta
                      | FromEnd => zlen (contents_of v) + delta end%Z ->
    exists s', adjust_stream_position zero short s delta from =
        Val (s', if ((p <? 0) || (zlen (contents_of v) <? p))%Z then Failed else Ret ()) /\
      owns s' (if ((p <? 0) || (zlen (contents_of v) <? p))%Z then v else FileView (contents_of v) (Z.to_nat p))
        (if ((p <? 0) || (zlen (contents_of v) <? p))%Z then st else false).
  Proof.
    intros H Hp. unfold adjust_stream_position.
    destruct (osize_ok s v st H) as (s1 & -> & H1).
    rewrite (oposition_ok s1 v st H1). rewrite (ow_dir _ _ _ H1). cbn [write_only andb].
    replace (match from with FromStart => delta | FromCurrent => (Z.of_nat (position_of v) + delta)%Z
             | FromEnd => (Z.of_nat (length (contents_of v)) + delta)%Z end) with p
      by (rewrite Hp; by destruct from).
    unfold zlen in *. clear Hp.
    destruct ((p <? 0) || (Z.of_nat (length (contents_of v)) <? p))%Z eqn:E; [by exists s1|].
    unfold adjust_from_start. rewrite (ow_dir _ _ _ H1).
    destruct (adjust_output_ok s1 v st (Z.to_nat p) H1) as (s2 & -> & H2); [lia|]. by exists s2.
  Qed.

  Lemma force_output_ok s v st : owns s v st ->
    exists s', force_output zero short s = Val (s', Ret ()) /\
      owns s' v (st || (position_of v <? length (contents_of v))) /\ bytes (disk_of s') = contents_of v.
  Proof.
    intros H. unfold force_output. rewrite (ow_dir _ _ _ H). cbn [writable].
    destruct (get_output_ok s v st H) as (s1 & E1 & H1 & Hn1). rewrite E1. unfold andthen. cbn [obind].
    destruct (force_ok s1 v st H1) as (d & E & Hs & Hb).
    rewrite (ow_dir _ _ _ H1), E. cbn [obind]. eexists. split; [reflexivity|]. split; [|done].
    pose proof (owns_length _ _ _ H1) as HL.
    assert (Hst : st || (position_of v <? length (contents_of v)) = false -> length (contents_of v) <= position_of v) by lia.
    set (st' := st || _) in *. clearbody st'.
    destruct H1. constructor; cbn; try done; try lia.
    - rewrite Hb. lia.
    - rewrite Nat.sub_diag. change (take 0 ?x) with (@nil A). rewrite Hb. rewrite overlay_nil; [done|lia].
  Qed.

  Lemma write_part_ok s v src start e : owns s v false ->
    (0 <= start)%Z -> (default (zlen src) e <= zlen src)%Z ->
    exists s' enough, (forall fuel, enough <= fuel -> write_loop zero short fuel s src start (default (zlen src) e) = Val (s', Ret ())) /\
      owns s' (put v (part src start e)) false.
  Proof.
    intros H Hs He. unfold part.
    destruct (Z.ltb_spec start (default (zlen src) e)) as [Hlt|Hge].
    - destruct (write_loop_ok (2 * length src + 1) s v src (Z.to_nat start) (Z.to_nat (default (zlen src) e)) H)
        as (s' & E & H'); try (unfold zlen in *; lia).
      { unfold zlen in *. destruct (_ <=? _); lia. }
      rewrite !Z2Nat.id in E by lia.
      exists s', (S (2 * length src + 1)). split; [intros fuel Hf; apply E; lia|].
      by replace (Z.to_nat (default (zlen src) e - start)) with (Z.to_nat (default (zlen src) e) - Z.to_nat start) by lia.
    - exists s, 1. split.
      + intros [|fuel] Hf; [lia|]. cbn [write_loop]. by replace (_ <? _)%Z with false by lia.
      + replace (Z.to_nat (default (zlen src) e - start)) with 0 by lia. change (take 0 ?x) with (@nil A). by rewrite put_nil.
  Qed.

  Theorem output_call s v st o : owns s v st -> proper o -> (writes o = true -> st = false) ->
    (forall x, o <> FUnreadElement x) ->
    exists s', file_calls zero blank newline is_nl is_cr short s o s' (file_spec zero blank newline is_nl is_cr Output v o).2 /\
      owns s' (file_spec zero blank newline is_nl is_cr Output v o).1 (next_stale zero blank newline is_nl is_cr v o st).
  Proof.
    intros H Hp Hw Hu. unfold file_calls.
    pose proof (ow_dir _ _ _ H) as Hdir. pose proof (ow_in _ _ _ H) as Hin.
    assert (Hrd : get_input_buffer zero short s = Val (s, Failed)).
    { unfold get_input_buffer, do_get_input_buffer. by rewrite Hin, Hdir. }
    destruct o; cbn [file_spec go_far readable writable negb orb andb next_stale writes fst snd] in *.
    - exists s. split; [|done]. exists 0. intros fuel _. cbn [file_call]. unfold read_element. by rewrite Hrd.
    - by destruct (Hu x).
    - exists s. split; [|done]. exists 0. intros fuel _. cbn [file_call]. unfold peek. by rewrite Hrd.
    - exists s. split; [|done]. exists 0. intros fuel _. cbn [file_call]. unfold read, read_into.
      destruct (n <? 0)%Z; [done|]. by rewrite Hrd.
    - exists s. split; [|done]. exists 0. intros fuel _. cbn [file_call]. unfold read_into. by rewrite Hrd.
    - exists s. split; [|done]. exists 0. intros fuel _. cbn [file_call]. unfold read_skip.
      destruct (0 <? n)%Z; [|done]. by rewrite Hrd.
    - cbn [file_call]. destruct (osize_ok s v st H) as (s1 & E1 & H1).
      exists s1. split; [|done]. exists 0. intros fuel _. unfold read_to_end. rewrite Hdir, E1.
      unfold read, read_into.
      assert (Hrd1 : get_input_buffer zero short s1 = Val (s1, Failed)).
      { unfold get_input_buffer, do_get_input_buffer. by rewrite (ow_in _ _ _ H1), (ow_dir _ _ _ H1). }
      destruct (_ <? 0)%Z; [done|]. by rewrite Hrd1.
    - exists s. split; [|done]. exists 0. intros fuel _. cbn [file_call]. unfold read_line. by rewrite Hdir, Hrd.
    - (* write-element *)
      specialize (Hw eq_refl). subst st.
      destruct (get_output_ok s v false H) as (s1 & E1 & H1 & Hn1).
      pose proof (chunk_ok s1 v _ 1 [x] H1 eq_refl ltac:(lia) ltac:(lia) eq_refl) as H2.
      eexists. split; [|exact H2]. exists 0. intros fuel _. cbn [file_call]. unfold write_element. rewrite E1.
      unfold andthen. cbn [obind]. rewrite vwrite_val by (unfold size_of in *; lia). cbn [obind].
      rewrite insert_take_drop by (unfold size_of in *; lia). cbn [app]. by rewrite (Nat.add_comm _ 1).
    - (* write *)
      specialize (Hw eq_refl). subst st. destruct Hp as [Hp1 Hp2].
      destruct (get_output_ok s v false H) as (s1 & E1 & H1 & Hn1).
      destruct (write_part_ok s1 v src start stop H1 Hp1 Hp2) as (s2 & enough & E2 & H2).
      exists s2. split; [|done]. exists enough. intros fuel Hf. cbn [file_call]. unfold write. rewrite E1.
      unfold andthen. cbn [obind]. by rewrite E2.
    - (* write-line *)
      specialize (Hw eq_refl). subst st. destruct Hp as [Hp1 Hp2].
      destruct (get_output_ok s v false H) as (s1 & E1 & H1 & Hn1).
      destruct (write_part_ok s1 v src start stop H1 Hp1 Hp2) as (s2 & enough & E2 & H2).
      destruct (write_part_ok s2 _ [newline] 0 None H2) as (s3 & enough3 & E3 & H3); [done|done|].
      exists s3. split.
      + exists (enough + enough3). intros fuel Hf. cbn [file_call]. unfold write_line. rewrite E1.
        unfold andthen. cbn [obind]. rewrite E2 by lia. cbn [obind]. change 1%Z with (default (zlen [newline]) None).
        rewrite E3 by lia. done.
      + rewrite put_put in H3 by (eapply owns_inside; eassumption). done.
    - (* write-fill *)
      specialize (Hw eq_refl). subst st.
      destruct (get_output_ok s v false H) as (s1 & E1 & H1 & Hn1).
      destruct (Z.ltb_spec 0 n).
      + destruct (fill_loop_ok (2 * Z.to_nat n + 1) s1 v x 0 (Z.to_nat n) H1) as (s2 & E2 & H2); [lia| |].
        { destruct (_ <=? _); lia. }
        rewrite Nat.sub_0_r in H2. rewrite Z2Nat.id in E2 by lia.
        exists s2. split; [|done]. exists (S (2 * Z.to_nat n + 1)). intros fuel Hf. cbn [file_call]. unfold write_fill. rewrite E1.
        unfold andthen. cbn [obind]. by rewrite E2 by lia.
      + exists s1. split.
        * exists 1. intros [|fuel] Hf; [lia|]. cbn [file_call]. unfold write_fill. rewrite E1. unfold andthen. cbn [obind fill_loop].
          by replace (0 <? n)%Z with false by lia.
        * replace (Z.to_nat n) with 0 by lia. cbn [replicate]. by rewrite put_nil.
    - exists s. split; [|done]. exists 0. intros fuel _. cbn [file_call]. unfold stream_at_end. by rewrite Hdir.
    - cbn [file_call]. destruct (osize_ok s v st H) as (s1 & E1 & H1). rewrite E1.
      exists s1. split; [|done]. by exists 0.
    - exists s. split; [|done]. exists 0. intros fuel _. cbn [file_call]. by rewrite (oposition_ok _ _ _ H).
    - cbn [file_call]. destruct (set_oposition_ok s v st p H) as (s1 & E1 & H1). rewrite E1. cbn [obind].
      exists s1. unfold go in *. destruct (_ || _); (split; [by exists 0|done]).
    - cbn [file_call].
      destruct (oadjust_ok s v st delta from _ H eq_refl) as (s1 & E1 & H1). rewrite E1. cbn [obind].
      exists s1. unfold go in *. destruct from; destruct (_ || _); (split; [by exists 0|done]).
    - exists s. split; [|done]. exists 0. intros fuel _. cbn [file_call]. unfold stream_contents. by rewrite Hdir.
    - cbn [file_call]. destruct (force_output_ok s v st H) as (s1 & E1 & H1 & Hb). rewrite E1.
      exists s1. split; [by exists 0|]. done.
  Qed.

  Theorem output_run os : forall s v st, owns s v st -> output_history zero blank newline is_nl is_cr v st os ->
    exists s' st', file_runs zero blank newline is_nl is_cr short s os s' (file_spec_history zero blank newline is_nl is_cr Output v os).2 /\
      owns s' (file_spec_history zero blank newline is_nl is_cr Output v os).1 st'.
  Proof.
    induction os as [|o os IH]; intros s v st H Hp.
    - exists s, st. split; [constructor|done].
    - destruct Hp as (Hp1 & Hp2 & Hp3 & Hp4).
      destruct (output_call s v st o H) as (s1 & E1 & H1); [done..|].
      cbn [file_spec_history]. destruct (file_spec zero blank newline is_nl is_cr Output v o) as [v1 r1]. cbn [fst snd] in *.
      destruct (IH s1 v1 _ H1) as (s2 & st' & E2 & H2); [done|].
      destruct (file_spec_history zero blank newline is_nl is_cr Output v1 os) as [v2 r2]. cbn [fst snd] in *.
      exists s2, st'. split; [|done]. by econstructor.
  Qed.

  Theorem make_output l start size : 0 < size -> start <= length l ->
    exists s, make_stream zero blank short l start size Output = Val (s, Ret ()) /\ owns s (FileView l start) false.
  Proof.
    intros Hs Hst. unfold make_stream, set_stream_position, stream_size. cbn [dir accessor_size].
    cbn [disk_of buf dirty bytes]. replace ((0 <=? _) && _)%Z with true by lia.
    unfold adjust_from_start, with_disk. cbn [dir]. unfold adjust_output. cbn [buf has_in].
    rewrite Nat2Z.id. replace (length l <? start) with false by lia.
    destruct (page_split (Buffer (replicate size blank) 0 0 0 false 0) start) as [Ha Hb].
    { unfold size_of. cbn. by rewrite replicate_length. }
    unfold size_of in Hb. cbn in Hb. rewrite replicate_length in Hb.
    destruct (_ && _) eqn:E; cbn [force_buffer dirty obind]; eexists; (split; [reflexivity|]).
    - cbn in E.
      constructor; unfold size_of in *; cbn; rewrite ?replicate_length; try done; try lia.
    - constructor; unfold size_of in *; cbn; rewrite ?replicate_length; try done; try lia.
      rewrite Nat.sub_diag. change (take 0 ?x) with (@nil A). rewrite overlay_nil; [done|lia].
  Qed.

  Theorem close_output s v st : owns s v st ->
    exists s', close zero short s false = Val (s', Ret ()) /\ bytes (disk_of s') = contents_of v /\ dir s' = Closed.
  Proof.
    intros H. unfold close. rewrite (ow_dir _ _ _ H).
    destruct (force_output_ok s v st H) as (s1 & E1 & H1 & Hb). rewrite E1. unfold andthen. cbn [obind].
    eexists. split; [reflexivity|]. done.
  Qed.
End proofs.
