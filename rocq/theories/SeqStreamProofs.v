From Coq Require Import ZifyBool ZifyNat.
From Verif Require Import Base SeqStreamModel SeqStreamSpec.
Local Open Scope Z_scope.

Section proofs.
  Context {A : Type} (fill : A) (is_nl is_cr : A -> bool).
  Notation stream := (@stream A).
  Notation view := (@view A).

  Record shows (st : Z) (d : direction) (s : stream) (v : view) : Prop := {
    sh_dir : dir s = d;
    sh_open : d <> Closed;
    sh_st : initial s = st /\ 0 <= st;
    sh_start : writable d = true -> st = 0 /\ limit s = None;
    sh_cur : current s = st + Z.of_nat (position v);
    sh_bound : bound s = st + zlen (contents v);
    sh_len : st + zlen (contents v) <= zlen (seq s);
    sh_seq : contents v = take (length (contents v)) (drop (Z.to_nat st) (seq s));
    sh_fill : writable d = true -> pristine v = true ->
              drop (length (contents v)) (seq s) = replicate (length (seq s) - length (contents v)) fill }.

  Lemma at_index_shows st d s v x :
    shows st d s v -> head (remaining v) = Some x ->
    current s < bound s /\ at_index (seq s) (current s) = Some x.
  Proof.
    intros H Hx. destruct H as [? ? [? ?] ? Hc Hb Hl Hs _]. unfold remaining in Hx.
    rewrite head_lookup, lookup_drop, Nat.add_0_r in Hx.
    pose proof (lookup_lt_Some _ _ _ Hx) as Hlt.
    split; [unfold zlen in *; lia|].
    unfold at_index. rewrite Hc. replace (st + Z.of_nat (position v) <? 0) with false by lia.
    rewrite Hs in Hx. rewrite lookup_take in Hx by lia. rewrite lookup_drop in Hx.
    rewrite <- Hx. f_equal. lia.
  Qed.
  Lemma at_end_shows st d s v :
    shows st d s v -> remaining v = [] -> bound s <= current s.
  Proof.
    intros [] Hr. unfold remaining in Hr. apply (f_equal length) in Hr. rewrite drop_length in Hr. cbn in Hr.
    unfold zlen in *. lia.
  Qed.

  Lemma shows_move st d s v c p :
    shows st d s v -> c = st + Z.of_nat p -> shows st d (with_current s c) (move v p).
  Proof. intros [] ->. split; cbn; try done. Qed.

  Ltac rd :=
    match goal with
    | H : shows _ _ ?s _ |- context [dir ?s] => rewrite (sh_dir _ _ _ _ H)
    end.

  Lemma read_element_ok st d s v sup :
    shows st d s v ->
    match spec fill is_nl is_cr d v (ReadElement sup) with
    | (v', r) => exists s', call fill is_nl is_cr 0 s (ReadElement sup) = Val (s', r) /\ shows st d s' v'
    end.
  Proof.
    intros H. cbn. unfold read_element. rd. destruct (readable d) eqn:Hr; cbn; [|by eexists].
    destruct (remaining v) as [|x r] eqn:E.
    - pose proof (at_end_shows _ _ _ _ H E). replace (current s <? bound s) with false by lia. by eexists.
    - destruct (at_index_shows _ _ _ _ x H) as [Hlt ->]; [by rewrite E|].
      replace (current s <? bound s) with true by lia. eexists; split; [done|].
      unfold advance. apply (shows_move st d s v); [done|]. rewrite (sh_cur _ _ _ _ H). lia.
  Qed.

  Lemma peek_ok st d s v sup :
    shows st d s v ->
    match spec fill is_nl is_cr d v (Peek sup) with
    | (v', r) => exists s', call fill is_nl is_cr 0 s (Peek sup) = Val (s', r) /\ shows st d s' v'
    end.
  Proof.
    intros H. cbn. unfold peek. rd. destruct (readable d) eqn:Hr; cbn; [|by eexists].
    destruct (remaining v) as [|x r] eqn:E.
    - pose proof (at_end_shows _ _ _ _ H E). replace (current s <? bound s) with false by lia. by eexists.
    - destruct (at_index_shows _ _ _ _ x H) as [Hlt ->]; [by rewrite E|].
      replace (current s <? bound s) with true by lia. by eexists.
  Qed.

  Lemma take_seq st d s v p k :
    shows st d s v -> (p + k <= length (contents v))%nat ->
    take k (drop (Z.to_nat st + p) (seq s)) = take k (drop p (contents v)).
  Proof.
    intros H Hk. rewrite <- drop_drop, (take_drop_commute (drop _ _)), (take_drop_commute (contents v)).
    f_equal. rewrite (sh_seq _ _ _ _ H), take_take. f_equal. lia.
  Qed.

  Lemma unread_ok st d s v x :
    shows st d s v -> allowed d st v (UnreadElement x) ->
    match spec fill is_nl is_cr d v (UnreadElement x) with
    | (v', r) => exists s', call fill is_nl is_cr 0 s (UnreadElement x) = Val (s', r) /\ shows st d s' v'
    end.
  Proof.
    intros H [Hin Hp]. cbn. unfold unread_element, inside in *. rd. destruct (readable d) eqn:Hr; cbn; [|by eexists].
    pose proof H as [? ? [? ?] ? Hc Hb Hl Hs Hf].
    replace (0 <? current s) with true by lia. unfold set_index, zlen in *.
    replace ((0 <=? current s - 1) && (current s - 1 <? Z.of_nat (length (seq s)))) with true by lia.
    eexists; split; [done|].
    replace (Z.to_nat (current s - 1)) with (Z.to_nat st + (position v - 1))%nat by lia.
    split; cbn; rewrite ?insert_length; try done; unfold zlen in *; rewrite ?insert_length.
    - lia.
    - exact Hb.
    - lia.
    - rewrite Hs at 1. rewrite drop_insert_le by lia.
      replace (Z.to_nat st + (position v - 1) - Z.to_nat st)%nat with (position v - 1)%nat by lia.
      rewrite take_insert_lt by lia. done.
    - intros Hw Hpr. rewrite drop_insert_gt by lia. apply Hf; done.
  Qed.

  Lemma read_ok st d s v n sup :
    shows st d s v -> allowed d st v (Read n sup) ->
    match spec fill is_nl is_cr d v (Read n sup) with
    | (v', r) => exists s', call fill is_nl is_cr 0 s (Read n sup) = Val (s', r) /\ shows st d s' v'
    end.
  Proof.
    intros H Hin. cbn [allowed] in Hin. unfold inside in Hin. cbn. unfold read. rd.
    destruct (readable d) eqn:Hr; cbn; [|by eexists].
    pose proof H as [? ? [? ?] ? Hc Hb Hl Hs Hf]. unfold zlen in *.
    assert (Hrem : length (remaining v) = (length (contents v) - position v)%nat) by apply drop_length.
    destruct (n <? 0) eqn:Hn.
    { replace (bound s - current s <? n) with false by lia. unfold copy_sequence.
      replace ((0 <=? current s) && (current s <=? current s + n)) with false by lia. cbn. by eexists. }
    destruct (n <=? Z.of_nat (length (remaining v))) eqn:Hle.
    - replace (bound s - current s <? n) with false by lia. unfold copy_sequence, zlen.
      replace ((0 <=? current s) && (current s <=? current s + n) && (current s + n <=? Z.of_nat (length (seq s))))
        with true by lia.
      eexists; split.
      { do 4 f_equal. replace (current s + n - current s) with n by lia.
        replace (Z.to_nat (current s)) with (Z.to_nat st + position v)%nat by lia.
        rewrite (take_seq st d s v) by (done || lia). done. }
      unfold advance. apply (shows_move st d s v); [done|lia].
    - replace (bound s - current s <? n) with true by lia.
      assert (Hsh : shows st d (with_current s (current s + (bound s - current s))) (advance v (length (remaining v)))).
      { unfold advance. apply (shows_move st d s v); [done|lia]. }
      destruct sup; [by eexists|].
      destruct (remaining v) as [|x r] eqn:E.
      + replace (bound s - current s =? 0) with true by (cbn in *; lia). by eexists.
      + replace (bound s - current s =? 0) with false by (cbn in *; lia). unfold copy_sequence, zlen.
        replace ((0 <=? current s) && (current s <=? current s + (bound s - current s)) &&
                 (current s + (bound s - current s) <=? Z.of_nat (length (seq s)))) with true by (cbn in *; lia).
        eexists; split; [|exact Hsh]. rewrite <- E. do 4 f_equal; [rewrite E; cbn in *; lia|].
        replace (Z.to_nat (current s)) with (Z.to_nat st + position v)%nat by lia.
        rewrite (take_seq st d s v) by (done || lia).
        rewrite take_ge; [done|]. rewrite drop_length. lia.
  Qed.

  Lemma into_loop_ok k : forall i (src : list A) pos (dst : list A) start,
    0 <= i -> 0 <= pos -> 0 <= start -> i + Z.of_nat k + pos <= zlen src -> i + Z.of_nat k + start <= zlen dst ->
    into_loop k i src pos dst start =
      Some (take (Z.to_nat (i + start)) dst ++ take k (drop (Z.to_nat (i + pos)) src) ++ drop (Z.to_nat (i + start) + k) dst).
  Proof.
    induction k as [|k IH]; intros i src pos dst start Hi Hp Hs H1 H2; cbn [into_loop].
    - rewrite Nat.add_0_r, take_0, app_nil_l. by rewrite take_drop.
    - unfold zlen in *. unfold at_index, set_index, zlen. replace (i + pos <? 0) with false by lia.
      destruct (lookup_lt_is_Some_2 src (Z.to_nat (i + pos))) as [x Hx]; [lia|]. rewrite Hx.
      replace ((0 <=? i + start) && (i + start <? Z.of_nat (length dst))) with true by lia.
      rewrite IH by (unfold zlen; rewrite ?insert_length; lia). f_equal.
      replace (Z.to_nat (i + 1 + start)) with (S (Z.to_nat (i + start))) by lia.
      replace (Z.to_nat (i + 1 + pos)) with (S (Z.to_nat (i + pos))) by lia.
      rewrite (drop_S _ _ _ Hx). cbn [take].
      rewrite (take_S_r _ _ x) by (apply list_lookup_insert; lia).
      rewrite take_insert by lia. rewrite <- app_assoc. cbn. do 3 f_equal.
      rewrite drop_insert_gt by lia. f_equal. lia.
  Qed.

  Lemma read_into_ok st d s v n into start sup :
    shows st d s v -> allowed d st v (ReadInto n into start sup) ->
    match spec fill is_nl is_cr d v (ReadInto n into start sup) with
    | (v', r) => exists s', call fill is_nl is_cr 0 s (ReadInto n into start sup) = Val (s', r) /\ shows st d s' v'
    end.
  Proof.
    intros H (Hin & Hn & Hst & Hfit). unfold inside in Hin. cbn. unfold read_into. rd. destruct (readable d) eqn:Hr; cbn; [|by eexists].
    pose proof H as [? ? [? ?] ? Hc Hb Hl Hs Hf]. unfold zlen in *.
    assert (Hrem : length (remaining v) = (length (contents v) - position v)%nat) by apply drop_length.
    rewrite Z.min_l by lia. replace (n <? n) with false by lia.
    rewrite into_loop_ok by (unfold zlen; lia). rewrite !Z.add_0_l.
    eexists; split.
    + do 3 f_equal. f_equal. f_equal; [|f_equal; lia].
      replace (Z.to_nat (current s)) with (Z.to_nat st + position v)%nat by lia.
      rewrite (take_seq st d s v) by (done || lia). done.
    + unfold advance. apply (shows_move st d s v); [done|lia].
  Qed.

  (** *** Writing *)
  Lemma grow_length is_stretchy (l : list A) n :
    zlen l <= n -> n <= zlen (grow fill is_stretchy l n).
  Proof. unfold grow, zlen. intros. rewrite app_length, take_length, replicate_length. destruct is_stretchy; lia. Qed.
  Lemma grow_app is_stretchy (l : list A) n :
    zlen l <= n -> exists k, grow fill is_stretchy l n = l ++ replicate k fill.
  Proof.
    unfold grow, zlen. intros. rewrite take_ge; [by eexists|]. destruct is_stretchy; lia.
  Qed.

  Lemma shows_grow st d s v k :
    shows st d s v -> shows st d (with_seq s (seq s ++ replicate k fill)) v.
  Proof.
    intros H. pose proof H as [? ? [? ?] ? Hc Hb Hl Hs Hf]. unfold zlen in *.
    split; cbn; try done; unfold zlen in *; rewrite ?app_length.
    - lia.
    - rewrite drop_app_le by lia. rewrite take_app_le; [done|]. rewrite drop_length. lia.
    - intros Hw Hp. rewrite drop_app_le by lia. rewrite (Hf Hw Hp), <- replicate_add, replicate_length. f_equal. lia.
  Qed.

  Lemma shows_write s v src d :
    shows 0 d s v -> writable d = true ->
    (position v <= length (contents v))%nat \/ pristine v = true ->
    (position v + length src <= length (seq s))%nat ->
    shows 0 d (let p := Z.of_nat (position v + length src) in
               let s' := with_current (with_seq s (take (position v) (seq s) ++ src ++ drop (position v + length src) (seq s))) p in
               if final s <? p then with_final s' p else s') (overwrite fill v src).
  Proof.
    intros H Hw Hg Hlen. pose proof H as [? ? [? ?] Hlim Hc Hb Hl Hs Hf]. destruct (Hlim Hw) as [_ Hl0].
    unfold bound in Hb. rewrite Hl0 in Hb. cbn in Hb. unfold zlen in *.
    change (Z.to_nat 0) with 0%nat in *. rewrite drop_0 in Hs.
    assert (Hcl : length (contents (overwrite fill v src)) = Nat.max (length (contents v)) (position v + length src)%nat).
    { cbn. rewrite !app_length, take_length, replicate_length, drop_length. lia. }
    assert (Hpre : take (position v) (seq s) = take (position v) (contents v) ++ replicate (position v - length (contents v)) fill).
    { destruct (decide (position v <= length (contents v))%nat).
      - replace (position v - length (contents v))%nat with 0%nat by lia. cbn. rewrite app_nil_r, Hs, take_take. f_equal. lia.
      - destruct Hg as [?|Hp]; [lia|]. specialize (Hf Hw Hp).
        rewrite <- (take_drop (length (contents v)) (seq s)) at 1. rewrite <- Hs, Hf.
        rewrite take_app_ge by lia. rewrite (take_ge (contents v)) by lia. f_equal.
        rewrite take_replicate. f_equal. lia. }
    assert (Hc2 : contents (overwrite fill v src) = take (length (contents (overwrite fill v src)))
                    (take (position v) (seq s) ++ src ++ drop (position v + length src) (seq s))).
    { rewrite Hcl. cbn [overwrite contents]. rewrite Hpre, <- !app_assoc. 
      rewrite !app_assoc. rewrite take_app_ge.
      2: { rewrite !app_length, take_length, replicate_length. lia. }
      f_equal. rewrite !app_length, take_length, replicate_length.
      rewrite Hs at 1. rewrite skipn_firstn_comm. f_equal. lia. }
    assert (Hsl : length (take (position v) (seq s) ++ src ++ drop (position v + length src) (seq s)) = length (seq s)).
    { rewrite !app_length, take_length, drop_length. lia. }
    assert (Hfl : writable d = true -> pristine v = true ->
      drop (length (contents (overwrite fill v src))) (take (position v) (seq s) ++ src ++ drop (position v + length src) (seq s)) =
      replicate (length (take (position v) (seq s) ++ src ++ drop (position v + length src) (seq s)) - length (contents (overwrite fill v src))) fill).
    { intros _ Hp. rewrite Hsl, Hcl. rewrite app_assoc. rewrite drop_app_ge by (rewrite app_length, take_length; lia).
      rewrite drop_drop, app_length, take_length.
      replace (_ + (_ - _))%nat with (length (contents v) + (Nat.max (length (contents v)) (position v + length src) - length (contents v)))%nat by lia.
      rewrite <- drop_drop, (Hf Hw Hp), drop_replicate. f_equal. lia. }
    cbv zeta.
    destruct (final s <? Z.of_nat (position v + length src)) eqn:E; split; cbn [with_final with_current with_seq dir initial limit current final seq stretchy];
      try done; unfold bound, zlen; cbn [with_final with_current with_seq dir initial limit current final seq stretchy]; rewrite ?Hl0; cbn [default];
      rewrite ?Hsl, ?Hcl; try (cbn; lia).
  Qed.

  Definition room (d : direction) (v : view) : Prop := inside v \/ pristine v = true.

  Lemma write_element_ok st d s v x :
    shows st d s v -> room d v ->
    match spec fill is_nl is_cr d v (WriteElement x) with
    | (v', r) => exists s', call fill is_nl is_cr 0 s (WriteElement x) = Val (s', r) /\ shows st d s' v'
    end.
  Proof.
    intros H Hroom. cbn. unfold write_element. rd. destruct (writable d) eqn:Hw; cbn [negb]; [|by eexists].
    destruct (sh_start _ _ _ _ H Hw) as [-> Hl0].
    pose proof (sh_cur _ _ _ _ H) as Hc. rewrite Z.add_0_l in Hc.
    assert (exists k, (if zlen (seq s) <=? current s then grow fill (stretchy s) (seq s) (current s + 1) else seq s)
                      = seq s ++ replicate k fill /\ (position v < length (seq s ++ replicate k fill))%nat) as (k & Hk & Hlt).
    { destruct (zlen (seq s) <=? current s) eqn:E.
      - destruct (grow_app (stretchy s) (seq s) (current s + 1)) as [k Hk]; [lia|].
        exists k. split; [done|]. pose proof (grow_length (stretchy s) (seq s) (current s + 1)).
        rewrite Hk in *. unfold zlen in *. lia.
      - exists 0%nat. cbn. rewrite app_nil_r. unfold zlen in *. split; [done|lia]. }
    rewrite Hk. unfold set_index, zlen in *.
    replace ((0 <=? current s) && (current s <? Z.of_nat (length (seq s ++ replicate k fill)))) with true by lia.
    pose proof (shows_write (with_seq s (seq s ++ replicate k fill)) v [x] d (shows_grow 0 d s v k H) Hw Hroom) as Hsh.
    cbn [length] in Hsh. specialize (Hsh ltac:(cbn; lia)).
    eexists; split; [reflexivity|]. rewrite Hc, Nat2Z.id. cbn [with_seq seq] in Hsh.
    rewrite insert_take_drop by lia. cbv zeta in Hsh.
    replace (S (position v)) with (position v + 1)%nat by lia. cbn [app] in Hsh.
    cbn [final with_current with_seq] in *.
    replace (final s <=? Z.of_nat (position v)) with (final s <? Z.of_nat (position v + 1)) by lia.
    replace (Z.of_nat (position v) + 1) with (Z.of_nat (position v + 1)) by lia. exact Hsh.
  Qed.

  Lemma write_ok st d s v src start stop :
    shows st d s v -> room d v ->
    match spec fill is_nl is_cr d v (Write src start stop) with
    | (v', r) => exists s', call fill is_nl is_cr 0 s (Write src start stop) = Val (s', r) /\ shows st d s' v'
    end.
  Proof.
    intros H Hroom. cbn [spec call]. unfold write. rd. destruct (writable d) eqn:Hw; cbn [negb andb]; [|by eexists].
    destruct (sh_start _ _ _ _ H Hw) as [-> Hl0].
    pose proof (sh_cur _ _ _ _ H) as Hc. rewrite Z.add_0_l in Hc.
    set (e := default (zlen src) stop).
    assert (exists k, (if zlen (seq s) <? current s + (e - start) then grow fill (stretchy s) (seq s) (current s + (e - start)) else seq s)
                      = seq s ++ replicate k fill /\ current s + (e - start) <= zlen (seq s ++ replicate k fill)) as (k & Hk & Hlt).
    { destruct (zlen (seq s) <? current s + (e - start)) eqn:E.
      - destruct (grow_app (stretchy s) (seq s) (current s + (e - start))) as [k Hk]; [lia|].
        exists k. split; [done|]. pose proof (grow_length (stretchy s) (seq s) (current s + (e - start))).
        rewrite Hk in *. unfold zlen in *. lia.
      - exists 0%nat. cbn. rewrite app_nil_r. unfold zlen in *. split; [done|lia]. }
    rewrite Hk. unfold copy_bytes.
    pose proof (shows_grow 0 d s v k H) as Hg.
    destruct ((0 <=? start) && (start <=? e) && (e <=? zlen src)) eqn:Hv.
    - replace ((0 <=? e - start) && (0 <=? start) && (0 <=? current s) && (start + (e - start) <=? zlen src) &&
               (current s + (e - start) <=? zlen (seq s ++ replicate k fill))) with true by lia.
      set (data := take (Z.to_nat (e - start)) (drop (Z.to_nat start) src)).
      assert (Hd : length data = Z.to_nat (e - start)).
      { unfold data. rewrite take_length, drop_length. unfold zlen in *. lia. }
      pose proof (shows_write (with_seq s (seq s ++ replicate k fill)) v data d Hg Hw Hroom) as Hsh.
      specialize (Hsh ltac:(cbn [with_seq seq]; unfold zlen in *; lia)).
      eexists; split; [reflexivity|]. cbv zeta in Hsh. cbn [final with_current with_seq seq] in *.
      rewrite Hc, Nat2Z.id. replace (Z.to_nat (Z.of_nat (position v) + (e - start))) with (position v + length data)%nat by lia.
      replace (Z.of_nat (position v) + (e - start)) with (Z.of_nat (position v + length data)) by lia. exact Hsh.
    - replace ((0 <=? e - start) && (0 <=? start) && (0 <=? current s) && (start + (e - start) <=? zlen src)) with false by lia.
      cbn [andb]. eexists; split; [reflexivity|]. exact Hg.
  Qed.

  Lemma set_position_ok st d s v p :
    shows st d s v -> p < 0 \/ st <= p -> (readable d = true -> writable d = false -> p <= zlen (contents v)) ->
    exists s', set_stream_position s p = (s', if p <? 0 then Failed else Ret ()) /\
               shows st d s' (if p <? 0 then v else move v (Z.to_nat p)).
  Proof.
    intros H Hp Hle. unfold set_stream_position. pose proof H as [? ? [? ?] Hlim Hc Hb Hl Hs Hf].
    destruct (p <? 0) eqn:E.
    - replace (p <? initial s) with true by lia. by eexists.
    - replace (p <? initial s) with false by lia. cbn [orb].
      rewrite sh_dir0. assert (Hf2 : match (if read_only d then limit s else None) with Some l => l <? p + initial s | None => false end = false).
      { destruct (read_only d) eqn:Hro; [|done]. destruct (limit s) as [l|] eqn:El; [|done].
        unfold bound in Hb. rewrite El in Hb. cbn in Hb. destruct d; try done. specialize (Hle eq_refl eq_refl). lia. }
      rewrite Hf2. eexists; split; [reflexivity|]. apply shows_move; [done|lia].
  Qed.

  Lemma contents_ok st d s v clear :
    shows st d s v -> allowed d st v (Contents clear) ->
    match spec fill is_nl is_cr d v (Contents clear) with
    | (v', r) => exists s', call fill is_nl is_cr 0 s (Contents clear) = Val (s', r) /\ shows st d s' v'
    end.
  Proof.
    intros H Ha. cbn [allowed] in Ha. cbn [spec call]. unfold stream_contents. pose proof H as [? ? [Hi ?] Hlim Hc Hb Hl Hs Hf].
    rewrite Hb, Hi. unfold zlen in *. replace (st + Z.of_nat (length (contents v)) - st) with (Z.of_nat (length (contents v))) by lia.
    replace (Z.of_nat (length (contents v)) <? 0) with false by lia. unfold copy_bytes, zlen. rewrite replicate_length.
    replace (_ && _ && _ && _ && _) with true by lia.
    eexists; split.
    - do 4 f_equal. change (Z.to_nat 0) with 0%nat. rewrite take_0, app_nil_l, Nat2Z.id, Z.add_0_l, Nat2Z.id.
      rewrite (drop_ge (replicate _ _)) by (rewrite replicate_length; lia). rewrite app_nil_r. by rewrite <- Hs.
    - destruct clear; [|done]. specialize (Ha eq_refl). destruct (Hlim Ha) as [-> Hl0]. unfold clear_contents.
      split; cbn; rewrite ?Hl0; try done; unfold bound; cbn; rewrite ?Hl0; cbn; unfold zlen; try (cbn; lia).
  Qed.

  Lemma at_end_ok st d s v :
    shows st d s v -> stream_at_end s = readable d && (length (contents v) <=? position v)%nat.
  Proof.
    intros H. unfold stream_at_end. rd. pose proof H as [? ? [Hi ?] Hlim Hc Hb Hl Hs Hf]. unfold bound, zlen in *.
    destruct d; cbn; try done; [|destruct (Hlim eq_refl) as [-> Hl0]; rewrite Hl0 in Hb; cbn in Hb].
    - destruct (limit s); cbn in *; lia.
    - lia.
  Qed.

  (** *** The loops *)
  Lemma remaining_advance v x (r : list A) : remaining v = x :: r -> remaining (advance v 1) = r.
  Proof. unfold remaining. cbn. intros E. rewrite <- drop_drop, E. done. Qed.
  Lemma remaining_end st d s v :
    shows st d s v -> readable d = true -> stream_at_end s = match remaining v with [] => true | _ => false end.
  Proof.
    intros H Hr. rewrite (at_end_ok _ _ _ _ H), Hr. cbn [andb].
    assert (Hrem : length (remaining v) = (length (contents v) - position v)%nat) by apply drop_length.
    destruct (remaining v); cbn in Hrem; lia.
  Qed.
  Lemma advance_0 v : advance v 0 = v :> view.
  Proof. unfold advance. rewrite Nat.add_0_r. by destruct v. Qed.
  Lemma advance_advance v j k : advance (advance v j) k = advance v (j + k) :> view.
  Proof. unfold advance. cbn. f_equal. lia. Qed.
  Lemma read_element_some st d s v x r sup :
    shows st d s v -> readable d = true -> remaining v = x :: r ->
    exists s', read_element s sup = (s', Ret x) /\ shows st d s' (advance v 1).
  Proof.
    intros H Hr E. pose proof (read_element_ok st d s v sup H) as Hre. cbn [spec call] in Hre. rewrite Hr, E in Hre.
    destruct Hre as (s' & Hre & Hs'). destruct (read_element s sup) as [s1 a]. injection Hre as -> ->. by exists s'.
  Qed.

  Lemma until_ok test keep st d r : forall s v,
    shows st d s v -> readable d = true -> remaining v = r ->
    let '(b, m) := split_at test r in
    exists s', (forall fuel acc, (length r < fuel)%nat -> until_loop fuel test keep s acc =
                 Val (s', Ret (rev acc ++ b ++ (match m with Some x => if keep then [x] else [] | None => [] end),
                              match m with Some _ => true | None => false end))) /\
               shows st d s' (advance v (length b + match m with Some _ => 1 | None => 0 end)).
  Proof.
    induction r as [|x r IH]; intros s v H Hr E; cbn [split_at].
    - exists s. split; [|by rewrite advance_0]. intros [|fuel] acc Hf; [lia|].
      cbn [until_loop]. rewrite (remaining_end _ _ _ _ H Hr), E. cbn. by rewrite app_nil_r.
    - destruct (read_element_some st d s v x r false H Hr E) as (s1 & Hre & Hs1).
      destruct (test x) eqn:Ht.
      + exists s1. split; [|exact Hs1]. intros [|fuel] acc Hf; [lia|].
        cbn [until_loop]. rewrite (remaining_end _ _ _ _ H Hr), E, Hre, Ht. do 4 f_equal.
        destruct keep; cbn; [done|by rewrite app_nil_r].
      + specialize (IH s1 (advance v 1) Hs1 Hr (remaining_advance _ _ _ E)).
        destruct (split_at test r) as [b m]. destruct IH as (s2 & IH & Hs2). exists s2. split.
        * intros [|fuel] acc Hf; [lia|]. cbn [until_loop]. rewrite (remaining_end _ _ _ _ H Hr), E, Hre, Ht.
          rewrite IH by (cbn in Hf; lia). do 4 f_equal. cbn. by rewrite <- app_assoc.
        * rewrite advance_advance in Hs2. exact Hs2.
  Qed.

  Lemma until_unreadable st d s v test keep fuel acc :
    shows st d s v -> readable d = false -> (0 < fuel)%nat -> until_loop fuel test keep s acc = Val (s, Failed).
  Proof.
    intros H Hr Hf. destruct fuel; [lia|]. cbn. rewrite (at_end_ok _ _ _ _ H), Hr. cbn.
    unfold read_element. rd. by rewrite Hr.
  Qed.

  Lemma line_ok st d r : forall s v,
    shows st d s v -> readable d = true -> remaining v = r ->
    let '(line, k) := split_line is_nl is_cr r in
    exists s', (forall fuel acc, (length r < fuel)%nat ->
                  line_loop fuel is_nl is_cr s acc = Val (s', Ret (rev acc ++ line, (0 <? k)%nat))) /\
               shows st d s' (advance v (length line + k)).
  Proof.
    induction r as [|x r IH]; intros s v H Hr E; cbn [split_line].
    - exists s. split; [|by rewrite advance_0]. intros [|fuel] acc Hf; [lia|].
      cbn [line_loop]. rewrite (remaining_end _ _ _ _ H Hr), E. cbn. by rewrite app_nil_r.
    - destruct (read_element_some st d s v x r false H Hr E) as (s1 & Hre & Hs1).
      pose proof (remaining_advance _ _ _ E) as Hra.
      destruct (is_nl x) eqn:Hnl.
      { exists s1. split; [|exact Hs1]. intros [|fuel] acc Hf; [lia|].
        cbn [line_loop]. rewrite (remaining_end _ _ _ _ H Hr), E, Hre, Hnl. by rewrite app_nil_r. }
      destruct (is_cr x) eqn:Hcr.
      { pose proof (peek_ok st d s1 (advance v 1) true Hs1) as Hpk. cbn [spec call] in Hpk. rewrite Hr, Hra in Hpk.
        destruct r as [|y r].
        - destruct Hpk as (s2 & Hpk & Hs2). destruct (peek s1 true) as [s3 a] eqn:Epk. injection Hpk as -> ->.
          exists s2. split; [|exact Hs2]. intros [|fuel] acc Hf; [lia|].
          cbn [line_loop]. rewrite (remaining_end _ _ _ _ H Hr), E, Hre, Hnl, Hcr, Epk. by rewrite app_nil_r.
        - destruct Hpk as (s2 & Hpk & Hs2). destruct (peek s1 true) as [s3 a] eqn:Epk. injection Hpk as -> ->.
          destruct (is_nl y) eqn:Hny.
          + destruct (read_element_some st d s2 (advance v 1) y r false Hs2 Hr Hra) as (s4 & Hre2 & Hs4).
            exists s4. split; [|rewrite advance_advance in Hs4; exact Hs4]. intros [|fuel] acc Hf; [lia|].
            cbn [line_loop]. rewrite (remaining_end _ _ _ _ H Hr), E, Hre, Hnl, Hcr, Epk, Hny, Hre2. by rewrite app_nil_r.
          + exists s2. split; [|exact Hs2]. intros [|fuel] acc Hf; [lia|].
            cbn [line_loop]. rewrite (remaining_end _ _ _ _ H Hr), E, Hre, Hnl, Hcr, Epk, Hny. by rewrite app_nil_r. }
      specialize (IH s1 (advance v 1) Hs1 Hr Hra).
      destruct (split_line is_nl is_cr r) as [b m]. destruct IH as (s2 & IH & Hs2). exists s2. split.
      + intros [|fuel] acc Hf; [lia|]. cbn [line_loop]. rewrite (remaining_end _ _ _ _ H Hr), E, Hre, Hnl, Hcr.
        rewrite IH by (cbn in Hf; lia). do 4 f_equal. cbn. by rewrite <- app_assoc.
      + rewrite advance_advance in Hs2. exact Hs2.
  Qed.

  (** *** One call *)
  Lemma move_to_room d st v t :
    target_ok d st v t -> room d v -> room d (move_to v t).1.
  Proof.
    unfold target_ok, room, inside, move_to, zlen. intros Ht Hr. destruct (t <? 0) eqn:E; cbn; [done|].
    destruct Ht as [?|(? & [?|[? ?]])]; [lia|left; lia|by right].
  Qed.

  Lemma advance_room d v k : (k <= length (remaining v))%nat -> room d v -> room d (advance v k).
  Proof.
    unfold room, inside, advance, remaining. rewrite drop_length. cbn. intros ? [?|?]; [left; lia|by right].
  Qed.
  Lemma split_at_length (test : A -> bool) l b m :
    split_at test l = (b, m) -> (length b + match m with Some _ => 1 | None => 0 end <= length l)%nat.
  Proof.
    revert b m. induction l as [|x l IH]; intros b m; cbn; [intros [= <- <-]; cbn; lia|].
    destruct (test x); [intros [= <- <-]; cbn; lia|]. destruct (split_at test l) as [b' m']. intros [= <- <-].
    specialize (IH _ _ eq_refl). cbn. lia.
  Qed.
  Lemma split_line_length l b k :
    split_line is_nl is_cr l = (b, k) -> (length b + k <= length l)%nat.
  Proof.
    revert b k. induction l as [|x l IH]; intros b m; cbn; [intros [= <- <-]; cbn; lia|].
    destruct (is_nl x); [intros [= <- <-]; cbn; lia|].
    destruct (is_cr x); [destruct l as [|y l]; [|destruct (is_nl y)]; intros [= <- <-]; cbn; lia|].
    destruct (split_line is_nl is_cr l) as [b' m']. intros [= <- <-].
    specialize (IH _ _ eq_refl). cbn. lia.
  Qed.

  Lemma room_ok d st v o : allowed d st v o -> room d v -> room d (spec fill is_nl is_cr d v o).1.
  Proof.
    intros Ha Hr. destruct o; cbn [spec allowed] in *;
         repeat match goal with
         | |- context [if readable d then _ else _] => destruct (readable d)
         | |- context [if negb (readable d) then _ else _] => destruct (readable d); cbn [negb]
         | |- context [if writable d then _ else _] => destruct (writable d)
         end; try exact Hr.
    - destruct (remaining v) eqn:E; cbn; [done|]. apply advance_room; [rewrite E; cbn; lia|done].
    - left. unfold inside in *. cbn. rewrite insert_length. lia.
    - destruct (remaining v) eqn:E; cbn; done.
    - destruct (readable d); cbn [negb orb]; [|exact Hr]. destruct (n <? 0) eqn:En; cbn; [done|].
      destruct (n <=? _) eqn:El; cbn; apply advance_room; try done. lia.
    - apply advance_room; [lia|done].
    - destruct (remaining v) eqn:E; [done|]. rewrite <- E. destruct (split_at test (remaining v)) as [b [x|]] eqn:Es; cbn;
        apply split_at_length in Es; apply advance_room; try done; lia.
    - destruct (remaining v) eqn:E; [done|]. rewrite <- E. destruct (split_at test (remaining v)) as [b [x|]] eqn:Es; cbn;
        apply split_at_length in Es; apply advance_room; try done; lia.
    - apply advance_room; done.
    - destruct (split_at test (remaining v)) as [b [x|]] eqn:Es; cbn;
        apply split_at_length in Es; apply advance_room; try done; lia.
    - destruct (remaining v) eqn:E; [done|]. rewrite <- E. destruct (split_line is_nl is_cr (remaining v)) as [b k] eqn:Es; cbn.
      apply split_line_length in Es; apply advance_room; done.
    - left. unfold inside, overwrite. cbn [contents position fst]. rewrite !app_length, !take_length, replicate_length, ?drop_length. lia.
    - destruct (_ && _ && _ && _); [|done].
      left. unfold inside, overwrite. cbn [contents position fst]. rewrite !app_length, !take_length, replicate_length, ?drop_length. lia.
    - apply (move_to_room d st); [|done]. unfold target_ok. intuition lia.
    - destruct from; [| |done]; apply (move_to_room d st); done.
    - destruct clear; cbn; [|done]. left. unfold inside. cbn. lia.
  Qed.

  Lemma call_ok st d s v o :
    shows st d s v -> room d v -> allowed d st v o ->
    exists s', calls fill is_nl is_cr s o s' (spec fill is_nl is_cr d v o).2 /\ shows st d s' (spec fill is_nl is_cr d v o).1.
  Proof.
    intros H Hroom Ha.
    assert (Hsimple : (forall fuel, call fill is_nl is_cr fuel s o = call fill is_nl is_cr 0 s o) ->
      match spec fill is_nl is_cr d v o with
      | (v', r) => exists s', call fill is_nl is_cr 0 s o = Val (s', r) /\ shows st d s' v'
      end -> exists s', calls fill is_nl is_cr s o s' (spec fill is_nl is_cr d v o).2 /\ shows st d s' (spec fill is_nl is_cr d v o).1).
    { intros Hf Hm. destruct (spec fill is_nl is_cr d v o) as [v' r]. destruct Hm as (s' & Hs' & Hsh). exists s'. split; [|done].
      exists 0%nat. intros fuel _. by rewrite Hf. }
    assert (Hpos : forall t, target_ok d st v t ->
      (readable d = true -> writable d = false -> t <= zlen (contents v))).
    { intros t [?|(? & [?|[Hw _]])] _ Hnw; [unfold zlen; lia|done|congruence]. }
    destruct o.
    - apply Hsimple; [done|]. by apply read_element_ok.
    - apply Hsimple; [done|]. by apply unread_ok.
    - apply Hsimple; [done|]. by apply peek_ok.
    - apply Hsimple; [done|]. by apply read_ok.
    - apply Hsimple; [done|]. by apply read_into_ok.
    - (* read-to *)
      cbn [spec]. destruct (readable d) eqn:Hr; cbn [negb].
      2: { exists s. split; [|done]. exists 1%nat. intros fuel Hf. cbn. unfold read_to.
           rewrite (at_end_ok _ _ _ _ H), Hr. cbn. by rewrite (until_unreadable st d s v). }
      pose proof (until_ok test false st d _ s v H Hr eq_refl) as Hu. pose proof (remaining_end _ _ _ _ H Hr) as Hne.
      destruct (remaining v) as [|x r] eqn:E.
      + exists s. split; [|done]. exists 0%nat. intros fuel Hf. cbn. unfold read_to. by rewrite Hne.
      + destruct (split_at test (x :: r)) as [b m]. destruct Hu as (s' & Hu & Hs').
        exists s'. split; [|by destruct m; [|rewrite Nat.add_0_r in Hs']].
        exists (S (length (x :: r))). intros fuel Hf. cbn. unfold read_to. rewrite Hne, Hu by lia.
        destruct m; cbn; by rewrite app_nil_r.
    - (* read-through *)
      cbn [spec]. destruct (readable d) eqn:Hr; cbn [negb].
      2: { exists s. split; [|done]. exists 1%nat. intros fuel Hf. cbn. unfold read_through.
           rewrite (at_end_ok _ _ _ _ H), Hr. cbn. by rewrite (until_unreadable st d s v). }
      pose proof (until_ok test true st d _ s v H Hr eq_refl) as Hu. pose proof (remaining_end _ _ _ _ H Hr) as Hne.
      destruct (remaining v) as [|x r] eqn:E.
      + exists s. split; [|done]. exists 0%nat. intros fuel Hf. cbn. unfold read_through. by rewrite Hne.
      + destruct (split_at test (x :: r)) as [b m]. destruct Hu as (s' & Hu & Hs').
        exists s'. split; [|by destruct m; [|rewrite Nat.add_0_r in Hs']].
        exists (S (length (x :: r))). intros fuel Hf. cbn. unfold read_through. rewrite Hne, Hu by lia.
        destruct m; cbn; [done|by rewrite app_nil_r].
    - (* read-to-end *)
      cbn [spec]. destruct (readable d) eqn:Hr.
      2: { exists s. split; [|done]. exists 1%nat. intros fuel Hf. cbn. unfold read_to_end.
           by rewrite (until_unreadable st d s v). }
      pose proof (until_ok (fun _ => false) false st d _ s v H Hr eq_refl) as Hu.
      assert (Hsp : forall l : list A, split_at (fun _ => false) l = (l, None)).
      { induction l as [|x l IH]; cbn; [done|]. by rewrite IH. }
      rewrite Hsp in Hu. destruct Hu as (s' & Hu & Hs'). exists s'. rewrite Nat.add_0_r in Hs'. split; [|done].
      exists (S (length (remaining v))). intros fuel Hf. cbn. unfold read_to_end. rewrite Hu by lia. cbn. by rewrite app_nil_r.
    - (* skip-through *)
      cbn [spec]. destruct (readable d) eqn:Hr; cbn [negb].
      2: { exists s. split; [|done]. exists 1%nat. intros fuel Hf. cbn. unfold skip_through.
           by rewrite (until_unreadable st d s v). }
      pose proof (until_ok test false st d _ s v H Hr eq_refl) as Hu.
      destruct (split_at test (remaining v)) as [b m]. destruct Hu as (s' & Hu & Hs').
      exists s'. split; [|by destruct m; [|rewrite Nat.add_0_r in Hs']].
      exists (S (length (remaining v))). intros fuel Hf. cbn. unfold skip_through. rewrite Hu by lia.
      destruct m; done.
    - (* read-line *)
      cbn [spec]. destruct (readable d) eqn:Hr; cbn [negb].
      2: { exists s. split; [|done]. exists 1%nat. intros [|fuel] Hf; [lia|]. cbn. unfold read_line. cbn.
           rewrite (at_end_ok _ _ _ _ H), Hr. cbn. unfold read_element. rd. by rewrite Hr. }
      pose proof (line_ok st d _ s v H Hr eq_refl) as Hu. pose proof (remaining_end _ _ _ _ H Hr) as Hne.
      destruct (remaining v) as [|x r] eqn:E.
      + exists s. split; [|done]. exists 0%nat. intros fuel Hf. cbn. unfold read_line. by rewrite Hne.
      + destruct (split_line is_nl is_cr (x :: r)) as [b m]. destruct Hu as (s' & Hu & Hs').
        exists s'. split; [|done].
        exists (S (length (x :: r))). intros fuel Hf. cbn. unfold read_line. by rewrite Hne, Hu by lia.
    - apply Hsimple; [done|]. by apply write_element_ok.
    - apply Hsimple; [done|]. by apply write_ok.
    - apply Hsimple; [done|]. cbn. eexists; split; [|done]. by rewrite (at_end_ok _ _ _ _ H).
    - apply Hsimple; [done|]. cbn. eexists; split; [|done]. unfold stream_size. pose proof H as [? ? [? ?]]. do 3 f_equal. lia.
    - apply Hsimple; [done|]. cbn. eexists; split; [|done]. unfold stream_position. pose proof H as [? ? [? ?]]. do 3 f_equal. lia.
    - apply Hsimple; [done|]. cbn [spec call allowed] in *. unfold move_to.
      destruct (set_position_ok st d s v p H) as (s' & Hs' & Hsh); [lia|unfold zlen in *; lia|].
      rewrite Hs'. destruct (p <? 0); by eexists.
    - apply Hsimple; [done|]. destruct from; cbn [spec call allowed adjust_position] in *; [| |done].
      + unfold stream_position. replace (current s - initial s + delta) with (Z.of_nat (position v) + delta).
        2: { pose proof H as [? ? [? ?]]. lia. }
        unfold move_to. destruct (set_position_ok st d s v (Z.of_nat (position v) + delta) H) as (s' & Hs' & Hsh);
          [destruct Ha as [?|[? _]]; lia|by apply Hpos|].
        rewrite Hs'. destruct (_ <? 0); by eexists.
      + unfold move_to. destruct (set_position_ok st d s v delta H) as (s' & Hs' & Hsh);
          [destruct Ha as [?|[? _]]; lia|by apply Hpos|].
        rewrite Hs'. destruct (_ <? 0); by eexists.
    - apply Hsimple; [done|]. by apply contents_ok.
  Qed.

  Lemma history_ok st d os : forall s v,
    shows st d s v -> room d v -> allowed_history fill is_nl is_cr d st v os ->
    exists s', runs fill is_nl is_cr s os s' (spec_history fill is_nl is_cr d v os).2 /\
               shows st d s' (spec_history fill is_nl is_cr d v os).1.
  Proof.
    induction os as [|o os IH]; intros s v H Hr Ha; cbn [spec_history].
    - exists s. split; [constructor|done].
    - destruct Ha as [Ha Has]. destruct (call_ok st d s v o H Hr Ha) as (s1 & Hc & Hs1).
      pose proof (room_ok d st v o Ha Hr) as Hr1.
      destruct (spec fill is_nl is_cr d v o) as [v1 r1]. cbn in *.
      destruct (IH s1 v1 Hs1 Hr1 Has) as (s2 & Hc2 & Hs2). exists s2.
      destruct (spec_history fill is_nl is_cr d v1 os) as [v2 rs2]. cbn in *. split; [|done]. by econstructor.
  Qed.

  Lemma make_ok l is_stretchy d start stop s :
    make_stream l is_stretchy d start stop = Some s ->
    0 <= default 0 start <= default (zlen l) stop -> default (zlen l) stop <= zlen l ->
    shows (default 0 start) d s (new_view l d start stop) /\ room d (new_view l d start stop).
  Proof.
    unfold make_stream, zlen. intros Hm Hst Hsp. split.
    - destruct d; [|destruct start; [done|]; destruct stop; [done|]..|done]; injection Hm as <-.
      + assert (Hlen : length (contents (new_view l Input start stop)) = Z.to_nat (default (Z.of_nat (length l)) stop - default 0 start)).
        { cbn. rewrite take_length, drop_length. unfold zlen. lia. }
        split; try done; unfold zlen, bound; rewrite ?Hlen; cbn in *; try lia.
        unfold zlen. done.
      + cbn in *. split; try done; unfold bound, zlen; cbn; try lia. intros _ Hl. by destruct l.
      + cbn in *. rewrite drop_0. unfold zlen. rewrite Z.sub_0_r, Nat2Z.id.
        split; try done; unfold bound, zlen; cbn; rewrite ?take_length, ?drop_0; try lia.
        * f_equal. lia.
        * intros _ _. rewrite Nat.min_id, drop_all, Nat.sub_diag. done.
    - left. unfold inside, new_view. destruct d; cbn; lia.
  Qed.
End proofs.
