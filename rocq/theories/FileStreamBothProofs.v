(** Input-output streams on files that stay smaller than the buffer. *)
From Coq Require Import ZifyBool ZifyNat ZifyN.
From Verif Require Import Base SeqStreamModel SeqStreamSpec FileStreamModel FileStreamSpec FileStreamProofs.
Local Open Scope nat_scope.

Section proofs.
  Context {A : Type} (zero blank newline : A) (is_nl is_cr : A -> bool) (short : nat -> nat).
  (** The system transfers as much as a buffer holds. *)
  Context (N : nat) (Hfull : forall k, N <= short k) (HN0 : 0 < N).
  Notation stream := (@FileStreamModel.stream A).
  Notation result := (@SeqStreamSpec.result A).
  Notation overlay := (overlay zero).
  Local Arguments FileStreamModel.overlay : simpl never.
  Notation seek_ok := (FileStreamProofs.seek_ok newline is_nl is_cr short).
  Notation copy_bytes_ok := (FileStreamProofs.copy_bytes_ok newline is_nl is_cr short).
  Notation overlay_inside := (FileStreamProofs.overlay_inside zero newline is_nl is_cr short).
  Notation overlay_length := (FileStreamProofs.overlay_length zero newline is_nl is_cr short).
  Notation overlay_lookup := (FileStreamProofs.overlay_lookup zero newline is_nl is_cr short).
  Notation overlay_nil := (FileStreamProofs.overlay_nil zero newline is_nl is_cr short).
  Notation write_from_ok := (FileStreamProofs.write_from_ok zero newline is_nl is_cr short).

  Record both (s : stream) (v : @file_view A) : Prop := {
    bo_dir : dir s = InputOutput; bo_flag : has_out s = negb (has_in s);
    bo_sound : sound (disk_of s); bo_size : size_of (buf s) = N;
    bo_first : first (buf s) = 0; bo_next : next (buf s) <= stop (buf s);
    bo_small : length (contents_of v) < N;
    bo_end : base (buf s) + stop (buf s) = length (contents_of v);
    bo_inside : base (buf s) <= length (bytes (disk_of s));
    bo_contents : contents_of v = overlay (bytes (disk_of s)) (base (buf s)) (take (stop (buf s)) (data (buf s)));
    bo_clean : dirty (buf s) = false -> bytes (disk_of s) = contents_of v;
    bo_zero : base (buf s) = 0 -> forall i, stop (buf s) <= i < N -> data (buf s) !! i = Some zero;
    bo_position : position_of v = base (buf s) + next (buf s) }.

  Lemma overlay_again (l src : list A) p : p <= length l -> overlay (overlay l p src) p src = overlay l p src.
  Proof.
    intros H. apply list_eq. intros j. rewrite (overlay_lookup (overlay l p src)) by (rewrite overlay_length by done; lia).
    rewrite overlay_lookup by done. repeat destruct (decide _); done.
  Qed.

  Lemma load_full (d : @disk A) (b : @buffer A) p :
    sound d -> p <= length (bytes d) -> size_of b = N ->
    exists d', let n := Nat.min N (length (bytes d) - p) in
      load_buffer short d b p 0 N = Val (d', with_stop (with_data b (take n (drop p (bytes d)) ++ drop n (data b))) n, n) /\
      sound d' /\ bytes d' = bytes d.
  Proof.
    intros Hs Hp Hb. unfold load_buffer.
    destruct (seek_ok d p Hs) as (Hs' & Hbytes & Hoff).
    set (d1 := if p =? file_position d then d else set_accessor_position d p) in *. clearbody d1.
    destruct Hs' as [H1 H2].
    unfold accessor_read_into. destruct (at_end d1) eqn:E; cbn [obind].
    { exists d1. specialize (H2 eq_refl).
      replace (Nat.min _ _) with 0 by (rewrite <- Hbytes; lia). cbn zeta. change (take 0 ?x) with (@nil A).
      rewrite drop_0. cbn [app]. split; [done|]. split; [|done]. by split. }
    unfold sys_read. cbn [obind].
    set (m := Nat.min N (length (bytes d1) - offset d1)).
    assert (Ht : transferred short d1 m = m).
    { unfold transferred. pose proof (Hfull (system_calls d1)). destruct m eqn:Em; lia. }
    rewrite Ht.
    assert (Hlen : length (take m (drop (offset d1) (bytes d1))) = m).
    { rewrite take_length, drop_length. lia. }
    rewrite Hlen. cbn [fst snd bytes offset system_calls at_end file_position].
    unfold size_of in *.
    replace (length (data b) <? 0 + m) with false by lia. cbn [obind].
    assert (Hm : Nat.min N (length (bytes d) - p) = m) by (subst m; by rewrite Hbytes, Hoff).
    rewrite Hm, Hbytes, Hoff in *. clearbody m.
    eexists. split; [reflexivity|]. split; [|by destruct (m =? 0)].
    destruct (Nat.eqb_spec m 0); split; cbn; try lia; congruence.
  Qed.

  Lemma force_both (d : @disk A) (b : @buffer A) (C : list A) :
    sound d -> first b = 0 -> stop b <= size_of b -> base b <= length (bytes d) ->
    C = overlay (bytes d) (base b) (take (stop b) (data b)) -> length C = base b + stop b ->
    (dirty b = false -> bytes d = C) ->
    exists d', force_buffer zero short InputOutput d b = Val (d', Buffer (data b) (next b) (stop b) (base b) false 0) /\
      sound d' /\ bytes d' = C.
  Proof.
    intros Hs Hf Hst Hb HC HL Hcl. unfold force_buffer. destruct (dirty b) eqn:Ed.
    - rewrite Hf, Nat.add_0_r, Nat.sub_0_r.
      destruct (seek_ok d (base b) Hs) as (Hs' & Hbytes & Hoff).
      set (d1 := if _ =? _ then d else _) in *. clearbody d1.
      destruct (Nat.ltb_spec 0 (stop b)) as [Hc|Hc].
      + destruct (write_from_ok (stop b) d1 (data b) 0 (stop b)) as (d' & E & H1 & H2 & H3 & H4); try done; try lia.
        { rewrite Hoff, Hbytes. lia. }
        rewrite E. cbn [obind write_only]. exists d'. split; [done|].
        rewrite drop_0 in H4. rewrite H4, Hbytes, Hoff, <- HC. split; [|done].
        split; [done|]. intros _. rewrite H4, H3, Hbytes, Hoff, <- HC. lia.
      + exists d1. split; [done|]. split; [done|]. rewrite HC. replace (stop b) with 0 by lia.
        change (take 0 ?x) with (@nil A). rewrite Hbytes. by rewrite overlay_nil.
    - exists d. split; [|auto]. destruct b. cbn in *. by subst.
  Qed.
  Lemma force_both' s v : both s v ->
    exists d', force_buffer zero short InputOutput (disk_of s) (buf s) =
        Val (d', Buffer (data (buf s)) (next (buf s)) (stop (buf s)) (base (buf s)) false 0) /\
      sound d' /\ bytes d' = contents_of v.
  Proof. intros []. apply force_both; try done; lia. Qed.

  Lemma both_inside s v : both s v -> position_of v <= length (contents_of v).
  Proof. intros []. lia. Qed.

  Definition inputs (s : stream) (v : @file_view A) : Prop := both s v /\ has_in s = true.

  Lemma both_next s v : inputs s v -> stop (buf s) <= next (buf s) ->
    exists s', do_next_input_buffer zero short s = Val (s', position_of v <? length (contents_of v)) /\ inputs s' v /\
      (position_of v < length (contents_of v) -> next (buf s') < stop (buf s')).
  Proof.
    intros [H Hin] Hn. unfold do_next_input_buffer.
    destruct (force_both' s v H) as (d & E & Hs & Hb). pose proof (bo_size _ _ H) as HN.
    rewrite (bo_dir _ _ H), E. cbn [obind]. unfold size_of in *. cbn [data]. rewrite HN.
    destruct (load_full d (Buffer (data (buf s)) (next (buf s)) (stop (buf s)) (base (buf s)) false 0)
                (base (buf s) + stop (buf s))) as (d' & E' & Hs' & Hb'); [done|rewrite Hb; destruct H; lia|done|].
    rewrite E'. cbn [obind]. destruct H.
    replace (Nat.min _ _) with 0 by (rewrite Hb; lia). eexists. split; [|split; [split|]].
    - do 2 f_equal. lia.
    - constructor; cbn; try done; try lia.
      + rewrite Hb', Hb. lia.
      + rewrite Hb', Hb, overlay_nil; [done|lia].
      + intros _. congruence.
      + intros H0 i Hi. rewrite drop_0. apply bo_zero0; lia.
    - done.
    - lia.
  Qed.

  Lemma both_get s v : both s v ->
    exists s', get_input_buffer zero short s = Val (s', Ret (position_of v <? length (contents_of v))) /\ inputs s' v /\
      (position_of v < length (contents_of v) -> next (buf s') < stop (buf s')).
  Proof.
    intros H. unfold get_input_buffer. destruct (has_in s) eqn:Hin.
    - destruct (Nat.leb_spec (stop (buf s)) (next (buf s))) as [Hn|Hn].
      + destruct (both_next s v (conj H Hin) Hn) as (s' & E & H' & Hx). rewrite E. cbn [obind]. by exists s'.
      + exists s. split; [|split; [done|lia]]. do 3 f_equal. destruct H. lia.
    - unfold do_get_input_buffer. rewrite (bo_dir _ _ H). cbn [readable negb].
      pose proof (bo_flag _ _ H) as Hf. rewrite Hin in Hf. cbn in Hf. rewrite Hf. cbn [buf disk_of dir].
      destruct (Nat.leb_spec (stop (buf s)) (next (buf s))) as [Hn|Hn].
      2:{ eexists. split; [|split; [split|]].
          - do 3 f_equal. destruct H. lia.
          - destruct H. by constructor.
          - done.
          - cbn. lia. }
      replace (size_of (buf s) <=? stop (buf s)) with false by (destruct H; lia).
      rewrite Nat.sub_diag. unfold load_buffer.
      destruct (seek_ok (disk_of s) (base (buf s) + stop (buf s)) (bo_sound _ _ H)) as (Hs' & Hbytes & Hoff).
      set (d1 := if _ =? _ then disk_of s else _) in *. clearbody d1.
      assert (HR : exists d2, accessor_read_into short d1 (data (buf s)) (stop (buf s)) 0 = Val (d2, data (buf s), 0) /\
                 sound d2 /\ bytes d2 = bytes (disk_of s)).
      { unfold accessor_read_into. destruct (at_end d1) eqn:Ea; [by exists d1|]. unfold sys_read.
        cbn [Nat.min]. change (transferred short d1 0) with 0. change (take 0 ?x) with (@nil A). cbn [length].
        cbn [Nat.eqb]. replace (length (data (buf s)) <? stop (buf s) + 0) with false by (destruct H; unfold size_of in *; lia).
        rewrite !Nat.add_0_r. cbn [app]. rewrite take_drop. eexists. split; [reflexivity|]. cbn. split; [|done].
        destruct Hs' as [Hs1 Hs2]. split; cbn; [lia|]. intros _. rewrite Hbytes, Hoff.
        pose proof (bo_contents _ _ H) as HC. pose proof (bo_end _ _ H) as He. apply (f_equal length) in HC.
        rewrite overlay_length in HC by apply (bo_inside _ _ H). lia. }
      destruct HR as (d2 & -> & Hs2 & Hb2). cbn [obind]. rewrite Nat.add_0_r.
      cbn [stop with_stop next with_data data]. replace (stop (buf s) <=? next (buf s)) with true by lia.
      assert (HF := force_both d2 (with_stop (with_data (buf s) (data (buf s))) (stop (buf s))) (contents_of v)).
      destruct HF as (d3 & E3 & Hs3 & Hb3);
        [done|by destruct H|destruct H; unfold size_of in *; cbn; lia|rewrite Hb2; by destruct H|rewrite Hb2; by destruct H
        |by destruct H|rewrite Hb2; by destruct H|].
      rewrite E3. cbn [obind]. eexists. split; [|split; [split|]].
      + do 3 f_equal. destruct H. lia.
      + destruct H. constructor; cbn; try done; try lia.
        * rewrite Hb3. lia.
        * rewrite Hb3. rewrite bo_contents0 at 1. rewrite bo_contents0.
          by rewrite overlay_again.
      + done.
      + destruct H. lia.
  Qed.

  Lemma both_reader : reader zero short both inputs.
  Proof.
    constructor.
    - by intros s v [].
    - intros s v H. by rewrite (bo_dir _ _ H).
    - apply both_get.
    - apply both_next.
    - intros s v [[] _]. rewrite rest_length. lia.
    - intros s v k [[] Hin] Hk. split; [|done]. constructor; cbn; try done; try lia.
    - intros s v k [[] Hin] Hk. apply list_eq. intros i.
      destruct (decide (i < k)); [|rewrite !lookup_take_ge by lia; done].
      rewrite !lookup_take by lia. unfold rest. rewrite !lookup_drop. rewrite bo_contents0.
      rewrite overlay_lookup by done. rewrite take_length. unfold size_of in *.
      repeat destruct (decide _); try lia.
      rewrite lookup_take by lia. f_equal. lia.
  Qed.

  (** *** Writing *)
  Lemma both_output s v : both s v ->
    exists s', get_output_buffer zero short s = Val (s', Ret ()) /\ both s' v /\ has_in s' = false.
  Proof.
    intros H. unfold get_output_buffer. pose proof (bo_flag _ _ H) as Hf. destruct (has_in s) eqn:Hin.
    - cbn in Hf. rewrite Hf. unfold do_get_output_buffer. rewrite (bo_dir _ _ H). cbn [writable negb]. rewrite Hin.
      unfold buffer_fill. replace (_ && _) with true by (destruct H; lia). cbn [obind].
      eexists. split; [reflexivity|]. split; [|done]. destruct H. unfold size_of in *. constructor; unfold size_of; cbn; try done; try lia.
      + rewrite !app_length, take_length, drop_length, replicate_length. lia.
      + rewrite take_app_le by (rewrite take_length; lia). by rewrite take_take, Nat.min_id.
      + intros H0 i Hi. rewrite lookup_app_r by (rewrite take_length; lia). rewrite take_length.
        rewrite lookup_app_l by (rewrite replicate_length; lia). apply lookup_replicate. split; [done|lia].
    - cbn in Hf. rewrite Hf. replace (size_of (buf s) <=? next (buf s)) with false by (destruct H; lia). by exists s.
  Qed.

  Lemma both_chunk s v l k src : both s v -> k = length src -> length (contents_of (put v src)) < N ->
    l = take (next (buf s)) (data (buf s)) ++ src ++ drop (next (buf s) + k) (data (buf s)) -> 0 < k ->
    both (with_buf s (Buffer l (next (buf s) + k) (Nat.max (next (buf s) + k) (stop (buf s))) (base (buf s)) true (first (buf s))))
      (put v src).
  Proof.
    intros H Hk Hsm Hl Hpos. pose proof (both_inside _ _ H) as Hin.
    assert (HLP : length (contents_of (put v src)) = Nat.max (length (contents_of v)) (position_of v + k)).
    { unfold put. cbn. rewrite <- (overlay_inside (contents_of v) src (position_of v)) by done.
      rewrite overlay_length by done. lia. }
    destruct H. unfold size_of in *.
    assert (Hll : length l = N).
    { rewrite Hl, !app_length, take_length, drop_length. lia. }
    assert (Hlook : forall j, l !! j = if decide (j < next (buf s)) then data (buf s) !! j
                       else if decide (j < next (buf s) + k) then src !! (j - next (buf s)) else data (buf s) !! j).
    { intros j.
      rewrite Hl, Hk, <- (overlay_inside (data (buf s)) src (next (buf s))) by lia.
      by rewrite overlay_lookup by lia. }
    constructor; unfold size_of; cbn [dir has_out has_in with_buf disk_of buf first next stop base data dirty]; try done; try lia.
    - unfold put. cbn [contents_of].
      rewrite <- (overlay_inside (contents_of v) src (position_of v)) by done.
      apply list_eq. intros j. rewrite overlay_lookup by done. rewrite overlay_lookup by done.
      rewrite take_length, Hll. rewrite bo_contents0, overlay_lookup by done. rewrite take_length, bo_position0.
      rewrite Nat.min_l by lia. rewrite Nat.min_l by lia.
      repeat destruct (decide _); try lia; try done.
      all: rewrite ?lookup_take by lia; rewrite ?lookup_drop, ?Hlook.
      all: repeat destruct (decide _); try lia; try done; f_equal; lia.
    - intros H0 i Hi. rewrite Hlook. repeat destruct (decide _); try lia. apply bo_zero0; lia.
    - unfold put. cbn [position_of]. lia.
  Qed.

  (** As long as it fits, one round writes everything. *)
  Lemma both_write s v src start e : both s v -> has_in s = false ->
    (0 <= start)%Z -> (default (zlen src) e <= zlen src)%Z -> length (contents_of (put v (part src start e))) < N ->
    exists s', (forall fuel, 2 <= fuel -> write_loop zero short fuel s src start (default (zlen src) e) = Val (s', Ret ())) /\
      both s' (put v (part src start e)) /\ has_in s' = false.
  Proof.
    intros H Hin Hs He Hsm. pose proof (both_inside _ _ H) as Hi.
    destruct (Z.ltb_spec start (default (zlen src) e)) as [Hlt|Hge].
    - set (k := Z.to_nat (default (zlen src) e - start)).
      assert (Hk : length (part src start e) = k).
      { unfold part. rewrite take_length, drop_length. unfold zlen in *. lia. }
      assert (HLP : length (contents_of (put v (part src start e))) = Nat.max (length (contents_of v)) (position_of v + k)).
      { unfold put. cbn. rewrite <- (overlay_inside (contents_of v) _ (position_of v)) by done.
        rewrite overlay_length by done. lia. }
      pose proof (both_chunk s v _ k _ H (eq_sym Hk) Hsm eq_refl ltac:(lia)) as HC.
      eexists. split; [|split; [exact HC|done]].
      intros [|[|fuel]] Hf; try lia. cbn [write_loop]. replace (_ <? _)%Z with true by lia.
      destruct H. unfold size_of in *.
      replace (length (data (buf s)) <=? next (buf s)) with false by lia.
      fold k. rewrite Nat.min_r by lia.
      rewrite <- (Z2Nat.id start) at 1 by done. rewrite copy_bytes_ok by (unfold zlen in *; lia).
      replace (start + Z.of_nat k <? default (zlen src) e)%Z with false by lia. done.
    - exists s. split.
      + intros [|fuel] Hf; [lia|]. cbn [write_loop]. by replace (_ <? _)%Z with false by lia.
      + unfold part. replace (Z.to_nat (default (zlen src) e - start)) with 0 by lia.
        change (take 0 ?x) with (@nil A). by rewrite put_nil.
  Qed.
  Lemma both_fill s v x n : both s v -> has_in s = false ->
    length (contents_of (put v (replicate (Z.to_nat n) x))) < N ->
    exists s', (forall fuel, 2 <= fuel -> fill_loop zero short fuel s x 0 n = Val (s', Ret ())) /\
      both s' (put v (replicate (Z.to_nat n) x)).
  Proof.
    intros H Hin Hsm. pose proof (both_inside _ _ H) as Hi.
    destruct (Z.ltb_spec 0 n) as [Hlt|Hge].
    - set (k := Z.to_nat n) in *.
      assert (HLP : length (contents_of (put v (replicate k x))) = Nat.max (length (contents_of v)) (position_of v + k)).
      { unfold put. cbn. rewrite <- (overlay_inside (contents_of v) _ (position_of v)) by done.
        rewrite overlay_length by done. by rewrite replicate_length. }
      pose proof (both_chunk s v _ k _ H (eq_sym (replicate_length k x)) Hsm eq_refl ltac:(lia)) as HC.
      eexists. split; [|exact HC].
      intros [|[|fuel]] Hf; try lia. cbn [fill_loop]. replace (0 <? n)%Z with true by lia.
      destruct H. unfold size_of in *.
      replace (length (data (buf s)) <=? next (buf s)) with false by lia.
      rewrite Z.sub_0_r. fold k. rewrite Nat.min_r by lia.
      unfold buffer_fill, size_of. replace (_ && _) with true by lia. cbn [obind data with_data].
      replace (next (buf s) + k - next (buf s)) with k by lia.
      replace (0 + Z.of_nat k <? n)%Z with false by lia. done.
    - exists s. split.
      + intros [|fuel] Hf; [lia|]. cbn [fill_loop]. by replace (_ <? _)%Z with false by lia.
      + replace (Z.to_nat n) with 0 by lia. cbn [replicate]. by rewrite put_nil.
  Qed.

  (** *** Positions *)
  Lemma both_size s v : both s v ->
    exists s', stream_size s = (s', Ret (length (contents_of v))) /\ both s' v /\ has_in s' = has_in s.
  Proof.
    intros H.
    exists (with_disk s (lseek (disk_of s) (file_position (disk_of s))) (buf s)).
    unfold stream_size. rewrite (bo_dir _ _ H). cbn [accessor_size]. split; [|split].
    - do 2 f_equal. destruct H. pose proof (f_equal length bo_contents0) as HC.
      rewrite overlay_length in HC by done. rewrite take_length in HC. unfold size_of in *.
      destruct (dirty (buf s)) eqn:E; [lia|]. by rewrite bo_clean0.
    - destruct H. constructor; cbn; try done. destruct bo_sound0 as [Ha Hb]. split; cbn; [done|]. by rewrite Ha.
    - done.
  Qed.
  Lemma both_at s v : both s v -> stream_position s = position_of v.
  Proof. intros []. unfold stream_position. rewrite bo_flag0. by destruct (has_in s). Qed.

  Lemma both_adjust s v p : both s v -> p < N ->
    exists s', adjust_input_output zero short s p (length (contents_of v)) = Val (s', Ret ()) /\
      both s' (FileView (contents_of v ++ replicate (p - length (contents_of v)) zero) p).
  Proof.
    intros H Hp. unfold adjust_input_output.
    destruct (force_both' s v H) as (d & E & Hs & Hb).
    pose proof (bo_size _ _ H) as HN. rewrite (bo_dir _ _ H), E.
    unfold page_of, on_page, size_of in *. rewrite HN, Nat.mod_small by done. rewrite Nat.sub_diag.
    set (C := contents_of v) in *.
    assert (HCN : length C < N) by (destruct H; done).
    (* what is loaded after forcing *)
    assert (Hload : exists d', load_buffer_and_fill zero short d
                (Buffer (data (buf s)) (next (buf s)) (stop (buf s)) (base (buf s)) false 0) 0 0 N =
              Val (d', Buffer (C ++ replicate (N - length C) zero) (next (buf s)) (length C) (base (buf s)) false 0) /\
              sound d' /\ bytes d' = C).
    { unfold load_buffer_and_fill.
      destruct (load_full d (Buffer (data (buf s)) (next (buf s)) (stop (buf s)) (base (buf s)) false 0) 0)
        as (d' & E' & Hs' & Hb'); [done|lia|done|]. rewrite E'. cbn [obind].
      rewrite Hb, Nat.sub_0_r, drop_0, Nat.min_r by lia. rewrite firstn_all.
      unfold buffer_fill, size_of. cbn [stop with_stop with_data data]. rewrite app_length, drop_length, HN.
      replace (_ && _) with true by lia. cbn [obind].
      exists d'. split; [|by rewrite Hb', Hb]. do 2 f_equal. unfold with_data, with_stop. cbn. f_equal.
      rewrite take_app_le, firstn_all by done. replace (length C + (N - length C) - length C) with (N - length C) by lia.
      rewrite drop_ge; [|rewrite app_length, drop_length; lia]. by rewrite app_nil_r. }
    destruct Hload as (d' & El & Hs' & Hb').
    assert (Hlen : length (C ++ replicate (N - length C) zero) = N) by (rewrite app_length, replicate_length; lia).
    destruct (Nat.ltb_spec (length C) p) as [Hlt|Hge].
    - destruct (Nat.eqb_spec 0 (base (buf s))) as [Hz|Hz].
      + destruct H. fold C in bo_end0. replace (base (buf s) + stop (buf s) <? length C) with false by lia. cbn [obind].
        eexists. split; [reflexivity|]. rewrite <- Hz in *.
        assert (HdC : take (stop (buf s)) (data (buf s)) = C).
        { unfold C. rewrite bo_contents0. rewrite overlay_inside by lia. cbn [take app].
          rewrite drop_ge; [by rewrite app_nil_r|]. rewrite take_length. apply (f_equal length) in bo_contents0.
          rewrite overlay_length in bo_contents0 by lia. rewrite take_length in bo_contents0. fold C in bo_contents0. unfold size_of in *. lia. }
        assert (Hst : stop (buf s) = length C) by (fold C in bo_end0; lia).
        constructor; unfold size_of; cbn; try done; try lia.
        * rewrite app_length, replicate_length. lia.
        * rewrite app_length, replicate_length. lia.
        * rewrite overlay_inside by lia. cbn [take app].
          assert (HT : take p (data (buf s)) = C ++ replicate (p - length C) zero).
          { apply list_eq. intros i. destruct (decide (i < p)).
            2:{ rewrite lookup_take_ge by lia. symmetry. apply lookup_ge_None. rewrite app_length, replicate_length. lia. }
            rewrite lookup_take by done. destruct (decide (i < length C)).
            - rewrite lookup_app_l by done. rewrite <- HdC at 1. by rewrite lookup_take by lia.
            - rewrite lookup_app_r by lia. rewrite bo_zero0 by lia. symmetry. apply lookup_replicate. split; [done|lia]. }
          rewrite <- HT. rewrite (drop_ge (bytes (disk_of s))); [by rewrite app_nil_r|].
          rewrite take_length. apply (f_equal length) in bo_contents0.
          rewrite overlay_length in bo_contents0 by lia. fold C in bo_contents0. unfold size_of in *.
          rewrite take_length in bo_contents0. lia.
        * intros _ i Hi. apply bo_zero0; lia.
      + cbn [obind]. destruct (Nat.ltb_spec 0 (length C)) as [HC0|HC0].
        2:{ exfalso. destruct H. apply (f_equal length) in bo_contents0. fold C in bo_contents0.
            rewrite overlay_length in bo_contents0 by done. lia. }
        cbn [data]. rewrite HN, El. cbn [obind data next stop dirty].
        replace (p =? 0) with false by lia. cbn [obind].
        eexists. split; [reflexivity|]. destruct H. constructor; unfold size_of; cbn [dir has_out has_in disk_of buf first next stop base data dirty contents_of position_of negb]; try done; try lia.
        * rewrite app_length, replicate_length. lia.
        * rewrite app_length, replicate_length. lia.
        * rewrite overlay_inside by lia. rewrite take_app_ge by lia. rewrite take_replicate, Nat.min_l by lia. cbn [take app].
          rewrite (drop_ge (bytes d')); [by rewrite app_nil_r|]. rewrite app_length, replicate_length, Hb'. lia.
        * intros _ i Hi. rewrite lookup_app_r by lia. apply lookup_replicate. split; [done|lia].
    - replace (p - length C) with 0 by lia. cbn [replicate]. rewrite app_nil_r.
      destruct (Nat.eqb_spec 0 (base (buf s))) as [Hz|Hz].
      + replace (stop (buf s) <? N) with true by (destruct H; fold C in bo_end0; lia).
        replace (base (buf s) + stop (buf s) <? length C) with false by (destruct H; fold C in bo_end0; lia). cbn [obind].
        unfold buffer_fill, size_of. rewrite HN. replace (_ && _) with true by (destruct H; fold C in bo_end0; lia). cbn [obind].
        eexists. split; [reflexivity|]. destruct H. fold C in bo_end0.
        constructor; unfold size_of; cbn [with_data with_next dir has_out has_in disk_of buf first next stop base data dirty contents_of position_of negb]; try done; try lia.
        * rewrite !app_length, take_length, drop_length, replicate_length. lia.
        * rewrite take_app_le by (rewrite take_length; lia). by rewrite take_take, Nat.min_id.
        * intros _ i Hi. rewrite lookup_app_r by (rewrite take_length; lia). rewrite take_length.
          rewrite lookup_app_l by (rewrite replicate_length; lia). apply lookup_replicate. split; [done|lia].
      + cbn [obind data]. rewrite HN, El. cbn [obind data stop].
        eexists. split; [reflexivity|]. destruct H. fold C in bo_end0.
        constructor; unfold size_of; cbn [dir has_out has_in disk_of buf first next stop base data dirty contents_of position_of negb]; try done; try lia.
        * rewrite Hb', take_app_le, firstn_all by lia. rewrite overlay_inside by lia. cbn [take app].
          rewrite (drop_ge C); [by rewrite app_nil_r|lia].
        * intros _ i Hi. rewrite lookup_app_r by lia. apply lookup_replicate. split; [done|lia].
  Qed.

  Lemma both_inside_adjust s v p : both s v -> p <= length (contents_of v) ->
    exists s', adjust_input_output zero short s p (length (contents_of v)) = Val (s', Ret ()) /\
      both s' (FileView (contents_of v) p).
  Proof.
    intros H Hp. destruct (both_adjust s v p H) as (s' & E & H'); [destruct H; lia|].
    exists s'. split; [done|]. replace (p - length (contents_of v)) with 0 in H' by lia. cbn in H'.
    by rewrite app_nil_r in H'.
  Qed.

  Lemma both_set s v p : both s v ->
    exists s', set_stream_position zero short s p = Val (s', if ((p <? 0) || (zlen (contents_of v) <? p))%Z then Failed else Ret ()) /\
      both s' (if ((p <? 0) || (zlen (contents_of v) <? p))%Z then v else FileView (contents_of v) (Z.to_nat p)).
  Proof.
    intros H. unfold set_stream_position.
    destruct (both_size s v H) as (s1 & -> & H1 & _). unfold zlen.
    destruct ((p <? 0) || (Z.of_nat (length (contents_of v)) <? p))%Z eqn:E.
    - replace ((0 <=? p) && (p <=? Z.of_nat (length (contents_of v))))%Z with false by lia. by exists s1.
    - replace ((0 <=? p) && (p <=? Z.of_nat (length (contents_of v))))%Z with true by lia.
      unfold adjust_from_start. rewrite (bo_dir _ _ H1).
      destruct (both_inside_adjust s1 v (Z.to_nat p) H1) as (s2 & -> & H2); [lia|]. by exists s2.
  Qed.

  Lemma both_move s v delta from p : both s v ->
    p = match from with FromCurrent => Z.of_nat (position_of v) + delta | FromStart => delta
                      | FromEnd => zlen (contents_of v) + delta end%Z ->
    length (contents_of (go_far zero InputOutput v p).1) < N ->
    exists s', adjust_stream_position zero short s delta from = Val (s', if (p <? 0)%Z then Failed else Ret ()) /\
      both s' (go_far zero InputOutput v p).1 /\
      (go_far zero InputOutput v p).2 = RDone (if (p <? 0)%Z then Failed else Ret ()).
  Proof.
    intros H Hp. unfold adjust_stream_position.
    destruct (both_size s v H) as (s1 & -> & H1 & _).
    rewrite (both_at s1 v H1). rewrite (bo_dir _ _ H1). cbn [write_only andb].
    replace (match from with FromStart => delta | FromCurrent => (Z.of_nat (position_of v) + delta)%Z
             | FromEnd => (Z.of_nat (length (contents_of v)) + delta)%Z end) with p
      by (rewrite Hp; by destruct from).
    clear Hp. rewrite orb_false_r. unfold go_far, go, zlen.
    destruct (Z.ltb_spec p 0) as [Hp|Hp].
    { replace (Z.of_nat (length (contents_of v)) <? p)%Z with false by lia. cbn [orb fst snd]. intros _. by exists s1. }
    unfold adjust_from_start. rewrite (bo_dir _ _ H1).
    destruct (Z.ltb_spec (Z.of_nat (length (contents_of v))) p) as [Hl|Hl]; cbn [orb fst snd contents_of].
    - rewrite app_length, replicate_length. intros Hsm.
      destruct (both_adjust s1 v (Z.to_nat p) H1) as (s2 & -> & H2); [lia|]. by exists s2.
    - intros _. destruct (both_inside_adjust s1 v (Z.to_nat p) H1) as (s2 & -> & H2); [lia|]. by exists s2.
  Qed.

  Lemma both_force s v : both s v ->
    exists s', force_output zero short s = Val (s', Ret ()) /\ both s' v /\ bytes (disk_of s') = contents_of v.
  Proof.
    intros H. unfold force_output. rewrite (bo_dir _ _ H). cbn [writable].
    destruct (both_output s v H) as (s1 & -> & H1 & Hin). unfold andthen. cbn [obind].
    destruct (force_both' s1 v H1) as (d & E & Hs & Hb). rewrite (bo_dir _ _ H1), E. cbn [obind].
    eexists. split; [reflexivity|]. split; [|done]. destruct H1. constructor; cbn; try done; try lia.
    - rewrite Hb. lia.
    - rewrite Hb. rewrite bo_contents0 at 1. rewrite bo_contents0. by rewrite overlay_again.
  Qed.

  Notation says := (file_spec zero blank newline is_nl is_cr InputOutput).
  Theorem both_call s v o : both s v -> proper o -> length (contents_of (says v o).1) < N ->
    exists s', file_calls zero blank newline is_nl is_cr short s o s' (says v o).2 /\ both s' (says v o).1.
  Proof.
    intros H Hp Hsm. destruct (reading o) eqn:Ho.
    { by apply (reading_call _ _ _ _ _ _ _ _ both_reader). }
    unfold file_calls. pose proof (bo_dir _ _ H) as Hdir. pose proof (both_inside _ _ H) as Hi.
    destruct o; try discriminate; cbn [file_spec readable writable negb orb andb] in *.
    - (* unread-element *)
      unfold file_call, unread_element.
      destruct (both_move s v (-1) FromCurrent _ H eq_refl) as (s1 & E1 & H1 & _).
      { unfold go_far, go, zlen. replace (_ <? _)%Z with false by lia. destruct (_ || _); cbn; by destruct H. }
      rewrite E1. unfold go_far, go, zlen in H1. replace (Z.of_nat (length (contents_of v)) <? Z.of_nat (position_of v) + -1)%Z with false in H1 by lia.
      exists s1. rewrite orb_false_r in H1. destruct (Nat.ltb_spec 0 (position_of v)).
      + replace (_ <? 0)%Z with false in * by lia. split; [by exists 0|].
        cbn [fst] in *. by replace (position_of v - 1) with (Z.to_nat (Z.of_nat (position_of v) + -1)) by lia.
      + replace (_ <? 0)%Z with true in * by lia. split; [by exists 0|]. done.
    - (* read-to-end *)
      unfold file_call, read_to_end. rewrite Hdir.
      destruct (both_size s v H) as (s1 & E1 & H1 & _). rewrite E1. rewrite (both_at _ _ H1).
      destruct (read_ok zero blank newline is_nl is_cr short _ _ both_reader s1 v (Z.of_nat (length (contents_of v)) - Z.of_nat (position_of v)) false H1)
        as (s' & enough & E & H'); [lia|].
      assert (Hz : Z.to_nat (Z.of_nat (length (contents_of v)) - Z.of_nat (position_of v)) = length (rest v)).
      { rewrite rest_length. lia. }
      rewrite Hz in *. rewrite take_ge in * by lia.
      exists s'. split; [|by destruct H']. exists enough. intros fuel Hf. rewrite E by done. cbn [obind].
      replace (_ <=? _)%Z with true; [done|]. unfold zlen. lia.
    - (* write-element *)
      unfold file_call, write_element. destruct (both_output s v H) as (s1 & -> & H1 & Hin). unfold andthen. cbn [obind fst snd] in *.
      pose proof (both_chunk s1 v _ 1 [x] H1 eq_refl Hsm eq_refl ltac:(lia)) as H2.
      assert (Hn : next (buf s1) < length (data (buf s1))) by (destruct H1; unfold size_of in *; lia).
      destruct (lookup_lt_is_Some_2 _ _ Hn) as [y Hy].
      rewrite vwrite_val by done. cbn [obind].
      eexists. split; [by exists 0|]. rewrite insert_take_drop by done. cbn [app] in H2.
      by rewrite Nat.add_1_r in *.
    - (* write *)
      unfold file_call, write. destruct Hp as [Hp1 Hp2].
      destruct (both_output s v H) as (s1 & -> & H1 & Hin). unfold andthen. cbn [obind fst snd] in *.
      destruct (both_write s1 v src start stop H1 Hin Hp1 Hp2 Hsm) as (s2 & E & H2 & _).
      exists s2. split; [|done]. exists 2. intros fuel Hf. rewrite E by done. done.
    - (* write-line *)
      unfold file_call, write_line. destruct Hp as [Hp1 Hp2].
      destruct (both_output s v H) as (s1 & -> & H1 & Hin). unfold andthen. cbn [obind fst snd] in *.
      rewrite <- (put_put zero newline is_nl is_cr short) in * by done.
      assert (Hmono : length (contents_of (put v (part src start stop))) < N).
      { eapply Nat.le_lt_trans; [|exact Hsm]. unfold put at 2. cbn [contents_of].
        rewrite !app_length, take_length, drop_length. lia. }
      destruct (both_write s1 v src start stop H1 Hin Hp1 Hp2 Hmono) as (s2 & E & H2 & Hin2).
      destruct (both_write s2 _ [newline] 0 None H2 Hin2) as (s3 & E3 & H3 & _); try done.
      exists s3. split; [|done]. exists 2. intros fuel Hf. rewrite E by done. cbn [obind].
      change 1%Z with (default (zlen [newline]) None). rewrite E3 by done. done.
    - (* write-fill *)
      unfold file_call, write_fill.
      destruct (both_output s v H) as (s1 & -> & H1 & Hin). unfold andthen. cbn [obind fst snd] in *.
      destruct (both_fill s1 v x n H1 Hin Hsm) as (s2 & E & H2).
      exists s2. split; [|done]. exists 2. intros fuel Hf. rewrite E by done. done.
    - unfold file_call. destruct (both_size s v H) as (s1 & E1 & H1 & _). rewrite E1.
      exists s1. split; [|done]. by exists 0.
    - exists s. split; [|done]. exists 0. intros fuel _. cbn [file_call]. by rewrite (both_at _ _ H).
    - unfold file_call. destruct (both_set s v p H) as (s1 & E1 & H1). rewrite E1. cbn [obind].
      exists s1. unfold go. destruct (_ || _); (split; [by exists 0|done]).
    - unfold file_call. destruct (both_move s v delta from _ H eq_refl) as (s1 & E1 & H1 & E2); [by destruct from|].
      rewrite E1. cbn [obind]. exists s1. split; [|by destruct from].
      exists 0. intros fuel _. do 2 f_equal. rewrite <- E2. by destruct from.
    - (* stream-contents *)
      unfold file_call, stream_contents. rewrite Hdir. cbn [readable negb].
      destruct (both_force s v H) as (s0 & E0 & H0 & _). rewrite E0. unfold andthen at 1. cbn [obind].
      destruct (both_set s0 v 0 H0) as (s1 & E1 & H1). rewrite E1.
      replace ((0 <? 0)%Z || _) with false in * by (unfold zlen; lia). unfold andthen at 1. cbn [obind].
      destruct (both_size s1 _ H1) as (s2 & E2 & H2 & _). rewrite E2. cbn [contents_of] in *.
      destruct (read_ok zero blank newline is_nl is_cr short _ _ both_reader s2 _ (Z.of_nat (length (contents_of v))) false H2) as (s3 & enough & E3 & [H3 _]); [lia|].
      change (rest (FileView (contents_of v) (Z.to_nat 0))) with (contents_of v) in *.
      rewrite Nat2Z.id in *. rewrite firstn_all in *.
      replace (Z.of_nat (length (contents_of v)) <=? zlen (contents_of v))%Z with true in E3 by (unfold zlen; lia).
      destruct (both_set s3 _ (Z.of_nat (stream_position s)) H3) as (s4 & E4 & H4).
      rewrite (both_at _ _ H) in *. cbn [contents_of] in *.
      replace ((_ <? 0)%Z || _) with false in * by (unfold zlen, forward; cbn; lia).
      exists s4. split.
      + exists enough. intros fuel Hf. rewrite E3 by done. unfold andthen. cbn [obind]. rewrite E4. done.
      + cbn in H4. rewrite Nat2Z.id in H4. by rewrite view_eta in H4.
    - unfold file_call. destruct (both_force s v H) as (s1 & E1 & H1 & _). rewrite E1. cbn [obind].
      exists s1. split; [by exists 0|done].
  Qed.

  Theorem both_run os : forall s v, both s v -> small_history zero blank newline is_nl is_cr N v os ->
    exists s', file_runs zero blank newline is_nl is_cr short s os s' (file_spec_history zero blank newline is_nl is_cr InputOutput v os).2 /\
      both s' (file_spec_history zero blank newline is_nl is_cr InputOutput v os).1.
  Proof.
    induction os as [|o os IH]; intros s v H Hp.
    - exists s. split; [constructor|done].
    - destruct Hp as (Hp1 & Hp2 & Hp3). destruct (both_call s v o H) as (s1 & E1 & H1); [done..|].
      cbn [file_spec_history]. destruct (says v o) as [v1 r1]. cbn [fst snd] in *.
      destruct (IH s1 v1 H1) as (s2 & E2 & H2); [done|].
      destruct (file_spec_history zero blank newline is_nl is_cr InputOutput v1 os) as [v2 r2]. cbn [fst snd] in *.
      exists s2. split; [|done]. by econstructor.
  Qed.

  Theorem make_both l start : start <= length l -> length l < N ->
    exists s, make_stream zero blank short l start N InputOutput = Val (s, Ret ()) /\ both s (FileView l start).
  Proof.
    intros Hst Hl. unfold make_stream, set_stream_position, stream_size. cbn [dir accessor_size].
    cbn [disk_of buf dirty bytes]. replace ((0 <=? _) && _)%Z with true by lia.
    unfold adjust_from_start, with_disk. cbn [dir]. unfold adjust_input_output. cbn [buf disk_of].
    unfold page_of, on_page, size_of. cbn [data]. rewrite replicate_length, Nat2Z.id.
    rewrite Nat.mod_small by lia. rewrite Nat.sub_diag. cbn [base Nat.eqb stop].
    replace (length l <? start) with false by lia. replace (0 <? N) with true by lia.
    unfold lseek. cbn [bytes file_position system_calls at_end].
    rewrite Nat.add_0_r, Nat.sub_0_r.
    assert (HB : exists d, (if 0 <? length l
       then obind (load_buffer short (Disk l start 0 false start) (Buffer (replicate N blank) 0 0 0 false 0) 0 0 (N `min` length l))
              (fun '(d, b, _) => Val (d, b))
       else Val (Disk l start 0 false start, Buffer (replicate N blank) 0 0 0 false 0)) =
       Val (d, Buffer (l ++ replicate (N - length l) blank) 0 (length l) 0 false 0) /\ sound d /\ bytes d = l).
    { destruct (Nat.ltb_spec 0 (length l)) as [H0|H0].
      2:{ destruct l; [|cbn in H0; lia]. exists (Disk [] start 0 false start). split; [|split; [|done]].
          - cbn. by rewrite Nat.sub_0_r.
          - split; [done|]. cbn. done. }
      rewrite Nat.min_r by lia. unfold load_buffer.
      assert (Hs : sound (Disk l start 0 false start)) by (split; cbn; done).
      destruct (seek_ok _ 0 Hs) as ([Hs1 Hs2] & Hbytes & Hoff). cbn [file_position] in *.
      set (d1 := if 0 =? start then _ else _) in *.
      assert (Ha : at_end d1 = false).
      { unfold d1. destruct (Nat.eqb_spec 0 start); [done|]. unfold set_accessor_position. cbn [file_position].
        by replace (0 =? start) with false by lia. }
      clearbody d1. unfold accessor_read_into. rewrite Ha. unfold sys_read.
      rewrite Hbytes, Hoff. cbn [bytes]. rewrite Nat.sub_0_r, Nat.min_id, drop_0.
      assert (Ht : transferred short d1 (length l) = length l).
      { unfold transferred. pose proof (Hfull (system_calls d1)). destruct (length l); lia. }
      rewrite Ht, firstn_all. cbn [data]. rewrite replicate_length. replace (N <? 0 + length l) with false by lia.
      replace (length l =? 0) with false by lia. cbn [obind take app Nat.add].
      rewrite drop_replicate. eexists. split; [reflexivity|]. split; [|done].
      split; cbn; [lia|done]. }
    destruct HB as (d & -> & Hs & Hb). cbn [obind].
    unfold buffer_fill, size_of. cbn [data stop]. rewrite app_length, replicate_length.
    replace (_ && _) with true by lia. cbn [obind]. eexists. split; [reflexivity|].
    rewrite take_app_le, firstn_all by done. replace (length l + (N - length l) - length l) with (N - length l) by lia.
    rewrite drop_ge by (rewrite app_length, replicate_length; lia). rewrite app_nil_r.
    constructor; unfold size_of; cbn; try done; try lia.
    - rewrite app_length, replicate_length. lia.
    - rewrite Hb, take_app_le, firstn_all by lia. rewrite overlay_inside by lia. cbn [take app].
      rewrite (drop_ge l); [by rewrite app_nil_r|lia].
    - intros _ i Hi. rewrite lookup_app_r by lia. apply lookup_replicate. split; [done|lia].
  Qed.

  Theorem close_both s v : both s v ->
    exists s', close zero short s false = Val (s', Ret ()) /\ bytes (disk_of s') = contents_of v /\ dir s' = Closed.
  Proof.
    intros H. unfold close. rewrite (bo_dir _ _ H).
    destruct (both_force s v H) as (s1 & E1 & H1 & Hb). rewrite E1. unfold andthen. cbn [obind].
    eexists. split; [reflexivity|]. done.
  Qed.
End proofs.
