From Verif Require Import Base SplitModel SplitSpec.
From Coq Require Import ZifyBool ZifyNat ZifyN.
Local Open Scope Z_scope.
Local Open Scope outcome_scope.

Section split.
Context {A : Type}.
Implicit Types s p r : list A.

Lemma copy_sequence_ok s b e :
  0 <= b <= e -> e <= size s -> copy_sequence s b e = Val (subseq s b e).
Proof.
  intros H1 H2. unfold copy_sequence, check_start_compute_end.
  rewrite !bool_decide_false by lia. cbn [obind].
  rewrite bool_decide_true by lia. reflexivity.
Qed.

Lemma copy_sequence_bad s b e :
  b < 0 \/ e < b \/ size s < e -> exists m, copy_sequence s b e = Signal m.
Proof.
  intros H. unfold copy_sequence, check_start_compute_end.
  destruct (decide (b < 0)); [rewrite bool_decide_true by done; cbn; eauto|].
  rewrite (bool_decide_false (b < 0)) by done.
  destruct (decide (size s < e)); [rewrite bool_decide_true by done; cbn; eauto|].
  rewrite (bool_decide_false (size s < e)) by done.
  rewrite bool_decide_true by lia. cbn; eauto.
Qed.

Lemma subseq_length s b e :
  0 <= b <= e -> e <= size s -> Z.of_nat (length (subseq s b e)) = e - b.
Proof. unfold subseq, size. rewrite take_length, drop_length. lia. Qed.

Lemma subseq_split s b i e :
  0 <= b <= i -> i <= e -> e <= size s -> subseq s b e = subseq s b i ++ subseq s i e.
Proof.
  unfold subseq, size. intros H1 H2 H3.
  rewrite <- (take_drop (Z.to_nat (i - b)) (take (Z.to_nat (e - b)) (drop (Z.to_nat b) s))).
  rewrite take_take, skipn_firstn_comm, drop_drop. f_equal; f_equal; try lia. f_equal; lia.
Qed.

(** A search function that does its job. *)
Definition find_ok (is_sep : list A -> Prop) (find : list A -> Z -> Z -> outcome (option (Z * Z)))
    (s : list A) : Prop :=
  forall b e, 0 <= b <= e -> e <= size s ->
  (find s b e = Val None /\ ~ contains_sep is_sep (subseq s b e)) \/
  exists i j, find s b e = Val (Some (i, j)) /\ b <= i < j /\ j <= e /\
    first_sep is_sep (subseq s b e) (subseq s b i) (subseq s i j) (subseq s j e).

Lemma split_loop_ok is_sep find s e count fuel : find_ok is_sep find s ->
  forall b acc np,
  0 <= b <= e -> e <= size s -> (Z.to_nat (e - b) < fuel)%nat ->
  exists ps, split_loop find s e count false fuel b acc np = Val (rev ps ++ acc) /\
    SplitsUpTo is_sep (Z.to_nat (count - np + 1)) (subseq s b e) ps.
Proof.
  intros Hf. induction fuel as [|fuel IH]; [lia|]. intros b acc np Hb He Hfu.
  cbn [split_loop]. destruct (Hf b e Hb He) as [[Hn Hc]|(i&j&Hs&Hi&Hj&Hfirst)].
  - rewrite Hn. cbn [obind]. rewrite copy_sequence_ok by lia. cbn [obind andb].
    exists [subseq s b e]. split; [done|]. by apply splc_last.
  - rewrite Hs. cbn [obind]. rewrite bool_decide_true by lia. rewrite bool_decide_false by lia.
    rewrite copy_sequence_ok by lia. cbn [obind andb].
    destruct (decide (np < count)) as [Hlt|Hge].
    + rewrite bool_decide_true by done.
      destruct (IH j (subseq s b i :: acc) (np + 1)) as (ps & Hps & HS); [lia..|].
      exists (subseq s b i :: ps). split.
      * rewrite Hps. cbn [rev]. by rewrite <- app_assoc.
      * eapply splc_cons; [lia|exact Hfirst|].
        replace (Z.to_nat (count - np + 1) - 1)%nat with (Z.to_nat (count - (np + 1) + 1)) by lia.
        exact HS.
    + rewrite bool_decide_false by done. rewrite copy_sequence_ok by lia. cbn [obind].
      exists [subseq s b e]. split; [done|]. apply splc_stop. lia.
Qed.

Lemma split_loop_ne is_sep find s e count fuel : find_ok is_sep find s ->
  forall b acc np,
  0 <= b <= e -> e <= size s -> (Z.to_nat (e - b) < fuel)%nat ->
  exists ps, split_loop find s e count true fuel b acc np = Val (rev ps ++ acc) /\
    SplitsNonEmpty is_sep (Z.to_nat (count - np + 1)) (subseq s b e) ps.
Proof.
  intros Hf. induction fuel as [|fuel IH]; [lia|]. intros b acc np Hb He Hfu.
  cbn [split_loop]. destruct (Hf b e Hb He) as [[Hn Hc]|(i&j&Hs&Hi&Hj&Hfirst)].
  - rewrite Hn. cbn [obind]. rewrite copy_sequence_ok by lia. cbn [obind andb].
    destruct (subseq s b e) as [|x l] eqn:E.
    + exists []. split; [done|]. constructor.
    + exists [x :: l]. split; [done|]. by apply spn_last.
  - rewrite Hs. cbn [obind]. rewrite bool_decide_true by lia. rewrite bool_decide_false by lia.
    rewrite copy_sequence_ok by lia. cbn [obind andb].
    destruct (subseq s b i) as [|x l] eqn:E.
    + cbn [length]. rewrite bool_decide_true by done.
      destruct (IH j acc np) as (ps & Hps & HS); [lia..|].
      exists ps. split; [done|]. eapply spn_skip; eassumption.
    + cbn [length]. rewrite bool_decide_false by done.
      destruct (decide (np < count)) as [Hlt|Hge].
      * rewrite bool_decide_true by done.
        destruct (IH j ((x :: l) :: acc) (np + 1)) as (ps & Hps & HS); [lia..|].
        exists ((x :: l) :: ps). split.
        -- rewrite Hps. cbn [rev]. by rewrite <- app_assoc.
        -- eapply spn_cons; [lia|done|exact Hfirst|].
           replace (Z.to_nat (count - np + 1) - 1)%nat with (Z.to_nat (count - (np + 1) + 1)) by lia.
           exact HS.
      * rewrite bool_decide_false by done. rewrite copy_sequence_ok by lia. cbn [obind].
        exists [subseq s b e]. split; [done|]. eapply spn_stop; [lia| |exact Hfirst]. done.
Qed.

Lemma split_fn_ok is_sep find s start e count : find_ok is_sep find s ->
  0 <= start <= e -> e <= size s ->
  exists ps, split_fn find s start e count false = Val ps /\
    SplitsUpTo is_sep (Z.to_nat count) (subseq s start e) ps.
Proof.
  intros Hf H1 H2. unfold split_fn.
  destruct (split_loop_ok is_sep find s e count (split_fuel start e) Hf start [] 1)
    as (ps & -> & HS); [lia..|unfold split_fuel; lia|].
  cbn [obind]. exists ps. rewrite app_nil_r, rev_involutive. split; [done|].
  by replace (count - 1 + 1) with count in HS by lia.
Qed.

Lemma split_fn_ne is_sep find s start e count : find_ok is_sep find s ->
  0 <= start <= e -> e <= size s ->
  exists ps, split_fn find s start e count true = Val ps /\
    SplitsNonEmpty is_sep (Z.to_nat count) (subseq s start e) ps.
Proof.
  intros Hf H1 H2. unfold split_fn.
  destruct (split_loop_ne is_sep find s e count (split_fuel start e) Hf start [] 1)
    as (ps & -> & HS); [lia..|unfold split_fuel; lia|].
  cbn [obind]. exists ps. rewrite app_nil_r, rev_involutive. split; [done|].
  by replace (count - 1 + 1) with count in HS by lia.
Qed.

(** * The search functions *)

Lemma elt_lookup s i : 0 <= i < size s -> exists x, s !! Z.to_nat i = Some x /\ elt s i = Val x.
Proof.
  intros H. unfold elt, size in *. rewrite bool_decide_true by lia.
  destruct (lookup_lt_is_Some_2 s (Z.to_nat i)) as [x Hx]; [lia|]. exists x. by rewrite Hx.
Qed.

Definition here (is_sep : list A -> Prop) s (i : Z) : Prop :=
  exists m r, drop (Z.to_nat i) s = m ++ r /\ is_sep m.

Lemma looking_at_ok test s pat : forall i, 0 <= i ->
  exists b : bool, looking_at test s pat i = Val b /\ (b = true <-> here (matches test pat) s i).
Proof.
  induction pat as [|a pat IH]; intros i Hi; cbn [looking_at].
  - exists true. split; [done|]. split; [|done]. intros _. exists [], (drop (Z.to_nat i) s).
    split; [done|constructor].
  - destruct (decide (size s <= i)) as [Hge|Hlt].
    + rewrite bool_decide_true by done. exists false. split; [done|]. split; [done|].
      intros (m & r & Hd & HM). rewrite drop_ge in Hd by (unfold size in *; lia).
      destruct m; [inversion HM|done].
    + rewrite bool_decide_false by done.
      destruct (elt_lookup s i) as (x & Hx & Hex); [lia|]. rewrite Hex. cbn [obind].
      assert (HD : drop (Z.to_nat i) s = x :: drop (Z.to_nat (i + 1)) s).
      { rewrite (drop_S _ _ _ Hx). do 2 f_equal. lia. }
      destruct (test a x) eqn:Et; cbn [negb].
      * destruct (IH (i + 1)) as (b & Hb & Hiff); [lia|]. exists b. split; [done|].
        rewrite Hiff. unfold here. rewrite HD. split.
        -- intros (m & r & Hd & HM). exists (x :: m), r. rewrite Hd. split; [done|]. by constructor.
        -- intros (m & r & Hd & HM). destruct m as [|y m]; [inversion HM|].
           injection Hd as <- Hd. exists m, r. split; [done|]. by inversion HM.
      * exists false. split; [done|]. split; [done|]. intros (m & r & Hd & HM).
        rewrite HD in Hd. destruct m as [|y m]; [inversion HM|].
        injection Hd as <- Hd. inversion HM. congruence.
Qed.

(** Occurrences within a subsequence, by position. *)
Lemma occ_position (is_sep : list A -> Prop) s b e p m r : 0 <= b <= e -> e <= size s ->
  subseq s b e = p ++ m ++ r -> is_sep m ->
  here is_sep s (b + Z.of_nat (length p)) /\ b + Z.of_nat (length p) + Z.of_nat (length m) <= e.
Proof.
  intros Hb He Heq Hm. split.
  - exists m, (r ++ drop (Z.to_nat e) s). split; [|done].
    assert (Hd : drop (Z.to_nat b) s = (p ++ m ++ r) ++ drop (Z.to_nat e) s).
    { rewrite <- Heq. unfold subseq.
      rewrite <- (take_drop (Z.to_nat (e - b)) (drop (Z.to_nat b) s)) at 1.
      rewrite drop_drop. f_equal. f_equal. lia. }
    replace (Z.to_nat (b + Z.of_nat (length p))) with (Z.to_nat b + length p)%nat by lia.
    rewrite <- drop_drop, Hd, <- !app_assoc. by rewrite drop_app.
  - pose proof (subseq_length s b e Hb He) as HL. rewrite Heq, !app_length in HL. lia.
Qed.

Lemma subseq_here (is_sep : list A -> Prop) L s i :
  (forall m, is_sep m -> Z.of_nat (length m) = L) -> 0 <= i -> i + L <= size s ->
  here is_sep s i -> is_sep (subseq s i (i + L)).
Proof.
  intros HL Hi Hs (m & r & Hd & Hm). unfold subseq. rewrite Hd.
  pose proof (HL m Hm). rewrite take_app_le by lia. rewrite take_ge by lia. done.
Qed.

(** Any left-to-right scan for a separator of fixed length finds the first. *)
Lemma scan_first (is_sep : list A -> Prop) L s b i e :
  (forall m, is_sep m -> Z.of_nat (length m) = L) -> 0 < L ->
  0 <= b <= i -> i + L <= e -> e <= size s ->
  here is_sep s i -> (forall k, b <= k < i -> ~ here is_sep s k) ->
  first_sep is_sep (subseq s b e) (subseq s b i) (subseq s i (i + L)) (subseq s (i + L) e).
Proof.
  intros HL H0 Hb Hi He Hh Hno. split; [|split].
  - rewrite (subseq_split s b i e) by lia. f_equal. apply subseq_split; lia.
  - eapply subseq_here; [done|lia|lia|done].
  - intros p' m' r' Heq Hm'.
    destruct (occ_position is_sep s b e p' m' r') as [Hh' Hle]; [lia|lia|done|done|].
    pose proof (subseq_length s b i ltac:(lia) ltac:(lia)) as HL1.
    destruct (decide (length (subseq s b i) <= length p')%nat); [done|].
    exfalso. eapply (Hno (b + Z.of_nat (length p'))); [lia|done].
Qed.

Lemma scan_none (is_sep : list A -> Prop) L s b e :
  (forall m, is_sep m -> Z.of_nat (length m) = L) ->
  0 <= b <= e -> e <= size s ->
  (forall k, b <= k -> k + L <= e -> ~ here is_sep s k) ->
  ~ contains_sep is_sep (subseq s b e).
Proof.
  intros HL Hb He Hno (p & m & r & Heq & Hm).
  destruct (occ_position is_sep s b e p m r) as [Hh Hle]; [lia|lia|done|done|].
  rewrite (HL m Hm) in Hle. eapply Hno; [|exact Hle|exact Hh]. lia.
Qed.

Lemma find_separator_loop_ok test sep s b e fuel : forall i,
  0 <= b <= i -> (Z.to_nat (e - size sep + 1 - i) < fuel)%nat ->
  (forall k, b <= k < i -> ~ here (matches test sep) s k) ->
  (find_separator_loop test sep s (e - size sep) fuel i = Val None /\
   forall k, b <= k -> k + size sep <= e -> ~ here (matches test sep) s k) \/
  exists j, find_separator_loop test sep s (e - size sep) fuel i = Val (Some (j, j + size sep)) /\
    b <= j /\ j + size sep <= e /\ here (matches test sep) s j /\
    forall k, b <= k < j -> ~ here (matches test sep) s k.
Proof.
  induction fuel as [|fuel IH]; [lia|]. intros i Hi Hfu Hno. cbn [find_separator_loop].
  destruct (decide (i <= e - size sep)) as [Hle|Hgt].
  - rewrite bool_decide_true by done.
    destruct (looking_at_ok test s sep i) as (x & -> & Hx); [lia|]. cbn [obind].
    destruct x.
    + right. exists i. split; [done|]. repeat split; [lia|lia|by apply Hx|done].
    + apply IH; [lia|lia|]. intros k Hk. destruct (decide (k = i)) as [->|].
      * intros Hh. by apply Hx in Hh.
      * apply Hno. lia.
  - rewrite bool_decide_false by done. left. split; [done|]. intros k Hk1 Hk2. apply Hno. lia.
Qed.

Lemma matches_size test (sep m : list A) : matches test sep m -> Z.of_nat (length m) = size sep.
Proof. intros H. apply Forall2_length in H. unfold size. lia. Qed.

Lemma find_separator_ok test sep s : sep <> [] ->
  find_ok (matches test sep) (find_separator test sep) s.
Proof.
  intros Hsep b e Hb He. unfold find_separator.
  assert (0 < size sep) by (destruct sep; [done|unfold size; cbn; lia]).
  destruct (find_separator_loop_ok test sep s b e
     (S (S (Z.to_nat (e - size sep - b)))) b) as [[-> Hno]|(j & -> & Hj1 & Hj2 & Hh & Hno)];
    [lia|lia|intros; lia| |].
  - left. split; [done|]. eapply (scan_none _ (size sep)); [apply matches_size|lia|done|done].
  - right. exists j, (j + size sep). split; [done|]. repeat (split; [lia|]).
    apply scan_first; try done; try lia. apply matches_size.
Qed.

Lemma find_pos_loop_ok test sep s b e fuel : e <= size s -> forall i,
  0 <= b <= i -> (Z.to_nat (e - i) < fuel)%nat ->
  (forall k, b <= k < i -> ~ here (one test sep) s k) ->
  (find_pos_loop test sep s e fuel i = Val None /\
   forall k, b <= k -> k + 1 <= e -> ~ here (one test sep) s k) \/
  exists j, find_pos_loop test sep s e fuel i = Val (Some (j, j + 1)) /\
    b <= j /\ j + 1 <= e /\ here (one test sep) s j /\
    forall k, b <= k < j -> ~ here (one test sep) s k.
Proof.
  intros He. induction fuel as [|fuel IH]; [lia|]. intros i Hi Hfu Hno. cbn [find_pos_loop].
  destruct (decide (i < e)) as [Hlt|Hge].
  - rewrite bool_decide_true by done.
    destruct (elt_lookup s i) as (x & Hx & ->); [lia|]. cbn [obind].
    assert (HD : drop (Z.to_nat i) s = x :: drop (S (Z.to_nat i)) s) by by apply drop_S.
    destruct (test x sep) eqn:Et.
    + right. exists i. split; [done|]. repeat split; [lia|lia| |done].
      exists [x], (drop (S (Z.to_nat i)) s). split; [done|]. by exists x.
    + apply IH; [lia|lia|]. intros k Hk. destruct (decide (k = i)) as [->|].
      * intros (m & r & Hd & y & -> & Hy). rewrite HD in Hd. injection Hd as -> _. congruence.
      * apply Hno. lia.
  - rewrite bool_decide_false by done. left. split; [done|]. intros k Hk1 Hk2. apply Hno. lia.
Qed.

Lemma one_size test (sep : A) m : one test sep m -> Z.of_nat (length m) = 1.
Proof. by intros (x & -> & _). Qed.

Lemma find_pos_ok test sep s : find_ok (one test sep) (find_pos test sep) s.
Proof.
  intros b e Hb He. unfold find_pos.
  destruct (find_pos_loop_ok test sep s b e (S (Z.to_nat (e - b))) He b)
    as [[-> Hno]|(j & -> & Hj1 & Hj2 & Hh & Hno)]; [lia|lia|intros; lia| |].
  - left. split; [done|]. eapply (scan_none _ 1); [apply one_size|lia|done|done].
  - right. exists j, (j + 1). split; [done|]. repeat (split; [lia|]).
    apply scan_first; try done; try lia. apply one_size.
Qed.

(** * Out-of-range arguments *)

Definition signals {X} (o : outcome X) : Prop := exists m, o = Signal m.

Lemma split_loop_bad find s e count rie : size s < e ->
  (forall b, 0 <= b <= size s -> signals (find s b e) \/ find s b e = Val None \/
     exists i j, find s b e = Val (Some (i, j)) /\ b <= i < j /\ j <= size s) ->
  forall fuel b acc np, 0 <= b <= size s -> (Z.to_nat (e - b) < fuel)%nat ->
  signals (split_loop find s e count rie fuel b acc np).
Proof.
  intros He Hf. induction fuel as [|fuel IH]; [lia|]. intros b acc np Hb Hfu. cbn [split_loop].
  destruct (copy_sequence_bad s b e) as [msg Hbad]; [lia|].
  destruct (Hf b Hb) as [[m ->]|[->|(i & j & -> & Hij & Hj)]].
  - by exists m.
  - cbn [obind]. rewrite Hbad. by exists msg.
  - cbn [obind]. rewrite bool_decide_true by lia. rewrite bool_decide_false by lia.
    rewrite copy_sequence_ok by lia. cbn [obind].
    destruct (rie && _); [apply IH; lia|].
    destruct (bool_decide (np < count)); [apply IH; lia|].
    rewrite Hbad. by exists msg.
Qed.

Lemma split_fn_inverted find s start e count rie :
  e < start -> find s start e = Val None -> signals (split_fn find s start e count rie).
Proof.
  intros H1 H2. unfold split_fn, split_fuel. cbn [split_loop]. rewrite H2. cbn [obind].
  destruct (copy_sequence_bad s start e) as [m ->]; [lia|]. by exists m.
Qed.

Lemma find_separator_bound test sep s b e : 0 <= b ->
  signals (find_separator test sep s b e) \/ find_separator test sep s b e = Val None \/
  exists i, find_separator test sep s b e = Val (Some (i, i + size sep)) /\ b <= i /\
    here (matches test sep) s i.
Proof.
  intros Hb. unfold find_separator.
  destruct (find_separator_loop_ok test sep s b e
     (S (S (Z.to_nat (e - size sep - b)))) b) as [[-> _]|(j & -> & Hj1 & Hj2 & Hh & _)];
    [lia|lia|intros; lia|by right; left|right; right; by exists j].
Qed.

Lemma here_bound (is_sep : list A -> Prop) L s i :
  (forall m, is_sep m -> Z.of_nat (length m) = L) -> 0 <= i -> i <= size s -> here is_sep s i -> i + L <= size s.
Proof.
  intros HL Hi Hs (m & r & Hd & Hm). apply HL in Hm.
  apply (f_equal length) in Hd. rewrite drop_length, app_length in Hd. unfold size in *. lia.
Qed.

Lemma split_seq_bad test s sep start e count rie : sep <> [] -> 0 <= start ->
  e < start \/ size s < e -> signals (split_seq test s sep start e count rie).
Proof.
  intros Hsep H0 Hbad. unfold split_seq.
  assert (0 < size sep) by (destruct sep; [done|unfold size; cbn; lia]).
  destruct (decide (e < start)) as [|Hse].
  { apply split_fn_inverted; [done|]. unfold find_separator. cbn [find_separator_loop].
    rewrite bool_decide_false by lia. done. }
  destruct (decide (start <= size s)) as [Hss|Hss].
  - unfold split_fn.
    destruct (split_loop_bad (find_separator test sep) s e count rie ltac:(lia)) with
      (fuel := split_fuel start e) (b := start) (acc := @nil (list A)) (np := 1) as [m ->].
    + intros b Hb. destruct (find_separator_bound test sep s b e) as [H1|[H1|(i & Hi & Hi1 & Hi2)]];
        [lia|by left|by right; left|].
      right; right. exists i, (i + size sep). split; [done|].
      destruct (decide (i <= size s)) as [Hle|Hgt].
      * pose proof (here_bound _ _ s i (matches_size test sep) ltac:(lia) Hle Hi2). lia.
      * exfalso. destruct Hi2 as (m & r & Hd & Hm). rewrite drop_ge in Hd by (unfold size in *; lia).
        apply matches_size in Hm. destruct m; [cbn in Hm; lia|done].
    + lia.
    + unfold split_fuel. lia.
    + by exists m.
  - (* the search fails at once or signals; the final copy signals *)
    unfold split_fn, split_fuel. cbn [split_loop].
    destruct (copy_sequence_bad s start e) as [msg Hm]; [lia|].
    destruct (find_separator_bound test sep s start e) as [[m ->]|[->|(i & -> & Hi1 & Hi2)]]; [lia| | |].
    + by exists m.
    + cbn [obind]. rewrite Hm. by exists msg.
    + exfalso. destruct Hi2 as (m & r & Hd & HM). rewrite drop_ge in Hd by (unfold size in *; lia).
      apply matches_size in HM. destruct m; [cbn in HM; lia|done].
Qed.

Lemma elt_bad s i : ~ (0 <= i < size s) -> signals (elt s i).
Proof.
  intros H. unfold elt, size in *. destruct (decide (0 <= i)).
  - rewrite bool_decide_true by done. rewrite lookup_ge_None_2 by lia. by eexists.
  - rewrite bool_decide_false by done. by eexists.
Qed.

(** The search for an object reads every element up to the end it was given. *)
Lemma find_pos_bound test sep s e fuel : forall b, 0 <= b -> (Z.to_nat (e - b) < fuel)%nat ->
  signals (find_pos_loop test sep s e fuel b) \/ find_pos_loop test sep s e fuel b = Val None \/
  exists i, find_pos_loop test sep s e fuel b = Val (Some (i, i + 1)) /\ b <= i < size s.
Proof.
  induction fuel as [|fuel IH]; [lia|]. intros b Hb Hfu. cbn [find_pos_loop].
  destruct (decide (b < e)).
  - rewrite bool_decide_true by done. destruct (decide (b < size s)).
    + destruct (elt_lookup s b) as (x & _ & ->); [lia|]. cbn [obind]. destruct (test x sep).
      * right; right. exists b. split; [done|lia].
      * destruct (IH (b + 1)) as [H|[H|(i & H & ?)]]; [lia|lia|by left|by right; left|].
        right; right. exists i. split; [done|lia].
    + destruct (elt_bad s b) as [m ->]; [lia|]. left. by exists m.
  - rewrite bool_decide_false by done. by right; left.
Qed.

Lemma split_obj_bad test s sep start e count rie : 0 <= start ->
  e < start \/ size s < e -> signals (split_obj test s sep start e count rie).
Proof.
  intros H0 Hbad. unfold split_obj.
  destruct (decide (e < start)) as [|Hse].
  { apply split_fn_inverted; [done|]. unfold find_pos. cbn [find_pos_loop].
    rewrite bool_decide_false by lia. done. }
  destruct (decide (start <= size s)) as [Hss|Hss].
  - unfold split_fn.
    destruct (split_loop_bad (find_pos test sep) s e count rie ltac:(lia)) with
      (fuel := split_fuel start e) (b := start) (acc := @nil (list A)) (np := 1) as [m ->].
    + intros b Hb. destruct (find_pos_bound test sep s e (S (Z.to_nat (e - b))) b)
        as [H1|[H1|(i & Hi & Hi1)]]; [lia|lia|by left|by right; left|].
      right; right. exists i, (i + 1). split; [done|]. lia.
    + lia.
    + unfold split_fuel. lia.
    + by exists m.
  - unfold split_fn, split_fuel. cbn [split_loop].
    destruct (copy_sequence_bad s start e) as [msg Hm]; [lia|].
    destruct (find_pos_bound test sep s e (S (Z.to_nat (e - start))) start)
      as [[m Hf]|[Hf|(i & Hf & Hi1)]]; [lia|lia| | |]; unfold find_pos; rewrite Hf.
    + by exists m.
    + cbn [obind]. rewrite Hm. by exists msg.
    + lia.
Qed.

(** * Consequences of the specification *)

Lemma first_sep_first (is_sep : list A -> Prop) s p m r :
  (forall m, is_sep m -> m <> []) -> first_sep is_sep s p m r -> ~ contains_sep is_sep p.
Proof.
  intros Hne (-> & Hm & Hmin) (p1 & m1 & r1 & -> & Hm1).
  specialize (Hmin p1 m1 (r1 ++ m ++ r)). rewrite <- !app_assoc in Hmin.
  specialize (Hmin eq_refl Hm1). pose proof (Hne m1 Hm1). destruct m1; [done|].
  rewrite !app_length in Hmin. cbn in Hmin. lia.
Qed.

Lemma splits_up_to_all (is_sep : list A -> Prop) : (forall m, is_sep m -> m <> []) -> forall c s ps,
  SplitsUpTo is_sep c s ps -> (length s < c)%nat -> Splits is_sep s ps.
Proof.
  intros Hne c s ps H. induction H as [c s Hc|c s Hc|c s p m r ps Hc Hf HS IH]; intros Hlen.
  - apply spl_last. intros (p & m & r & -> & Hm). apply Hne in Hm. destruct m; [done|].
    rewrite !app_length in Hlen. cbn in Hlen. lia.
  - by apply spl_last.
  - eapply spl_cons; [done|]. apply IH. destruct Hf as (-> & Hm & _). apply Hne in Hm.
    destruct m; [done|]. rewrite !app_length in Hlen. cbn in Hlen. lia.
Qed.

Lemma splits_up_to_count (is_sep : list A -> Prop) c s ps :
  SplitsUpTo is_sep c s ps -> (1 <= length ps <= Nat.max 1 c)%nat.
Proof. induction 1; cbn [length]; lia. Qed.

Lemma splits_up_to_parts (is_sep : list A -> Prop) : (forall m, is_sep m -> m <> []) -> forall c s ps,
  SplitsUpTo is_sep c s ps ->
  forall i p, ps !! i = Some p -> (S i < Nat.max (length ps) c)%nat -> ~ contains_sep is_sep p.
Proof.
  intros Hne c s ps H. induction H as [c s Hc|c s Hc|c s p m r ps Hc Hf HS IH]; intros i q Hi Hlt.
  - apply list_lookup_singleton_Some in Hi as [-> ->]. cbn in Hlt. lia.
  - by apply list_lookup_singleton_Some in Hi as [-> ->].
  - destruct i as [|i].
    + injection Hi as <-. by eapply first_sep_first.
    + cbn in Hi. apply (IH i q Hi). cbn [length] in Hlt. lia.
Qed.

Lemma splits_parts (is_sep : list A -> Prop) : (forall m, is_sep m -> m <> []) -> forall s ps,
  Splits is_sep s ps -> Forall (fun p => ~ contains_sep is_sep p) ps.
Proof.
  intros Hne s ps H. induction H as [s Hc|s p m r ps Hf HS IH]; constructor; try done.
  by eapply first_sep_first.
Qed.

Lemma joined_cons (sep : list A) p ps : ps <> [] -> joined sep (p :: ps) = p ++ sep ++ joined sep ps.
Proof. by destruct ps. Qed.

Lemma splits_up_to_joined (is_sep : list A -> Prop) sep : (forall m, is_sep m -> m = sep) -> forall c s ps,
  SplitsUpTo is_sep c s ps -> joined sep ps = s.
Proof.
  intros Heq c s ps H. induction H as [c s Hc|c s Hc|c s p m r ps Hc Hf HS IH]; [done..|].
  rewrite joined_cons.
  - rewrite IH. destruct Hf as (-> & Hm & _). by rewrite (Heq m Hm).
  - apply splits_up_to_count in HS. destruct ps; [cbn in HS; lia|done].
Qed.

Lemma splits_first_det (is_sep : list A -> Prop) s p m r p' m' r' :
  (forall m m', is_sep m -> is_sep m' -> length m = length m') ->
  first_sep is_sep s p m r -> first_sep is_sep s p' m' r' -> p = p' /\ m = m' /\ r = r'.
Proof.
  intros Hlen (E1 & Hm & H1) (E2 & Hm' & H2).
  pose proof (H1 _ _ _ E2 Hm'). pose proof (H2 _ _ _ E1 Hm).
  pose proof (Hlen _ _ Hm Hm') as HL. rewrite E1 in E2.
  apply app_inj_1 in E2 as [-> E2]; [|lia]. apply app_inj_1 in E2 as [-> ->]; [|done]. done.
Qed.

Lemma first_sep_contains (is_sep : list A -> Prop) s p m r : first_sep is_sep s p m r -> contains_sep is_sep s.
Proof. intros (-> & Hm & _). by exists p, m, r. Qed.

Lemma splits_det (is_sep : list A -> Prop) :
  (forall m m', is_sep m -> is_sep m' -> length m = length m') -> forall s ps,
  Splits is_sep s ps -> forall ps', Splits is_sep s ps' -> ps = ps'.
Proof.
  intros Hlen s ps H. induction H as [s Hc|s p m r ps Hf HS IH]; intros ps' H'; inversion H'; subst.
  - done.
  - exfalso. apply Hc. by eapply first_sep_contains.
  - exfalso. apply H. by eapply first_sep_contains.
  - destruct (splits_first_det is_sep s p m r p0 m0 r0 Hlen Hf H) as (-> & -> & ->).
    f_equal. by apply IH.
Qed.

(** Leaving out empty parts of an unlimited split. *)
Lemma splits_ne_all (is_sep : list A -> Prop) : (forall m, is_sep m -> m <> []) -> forall c s ps,
  SplitsNonEmpty is_sep c s ps -> (length s < c)%nat ->
  exists full, Splits is_sep s full /\ ps = filter (fun p => p <> []) full.
Proof.
  intros Hne c s ps H.
  induction H as [c|c s Hs Hc|c s m r ps Hf HS IH|c s p m r Hc Hp Hf|c s p m r ps Hc Hp Hf HS IH];
    intros Hlen.
  - exists [[]]. split; [|done]. apply spl_last. intros (p & m & r & He & Hm).
    apply Hne in Hm. destruct p, m; done.
  - exists [s]. split; [by apply spl_last|]. rewrite filter_cons_True by done. done.
  - destruct IH as (full & HF & ->).
    { destruct Hf as (-> & Hm & _). cbn in Hlen. rewrite app_length in Hlen. lia. }
    exists ([] :: full). split; [by eapply spl_cons|]. rewrite filter_cons_False by tauto. done.
  - exfalso. destruct Hf as (-> & Hm & _). destruct p; [done|]. cbn in Hlen. lia.
  - destruct IH as (full & HF & ->).
    { destruct Hf as (-> & Hm & _). apply Hne in Hm. destruct m; [done|].
      rewrite !app_length in Hlen. cbn in Hlen. lia. }
    exists (p :: full). split; [by eapply spl_cons|]. rewrite filter_cons_True by done. done.
Qed.

Lemma splits_ne_parts (is_sep : list A -> Prop) c s ps :
  SplitsNonEmpty is_sep c s ps -> Forall (fun p => p <> []) ps /\ (length ps <= Nat.max 1 c)%nat.
Proof.
  induction 1 as [c|c s Hs Hc|c s m r ps Hf HS IH|c s p m r Hc Hp Hf|c s p m r ps Hc Hp Hf HS IH];
    cbn [length].
  - split; [constructor|lia].
  - split; [by repeat constructor|lia].
  - done.
  - split; [|lia]. constructor; [|done]. destruct Hf as (-> & _). by destruct p.
  - destruct IH as [H1 H2]. split; [by constructor|lia].
Qed.

(** Splitting what was joined. *)
Lemma splits_joined (is_sep : list A -> Prop) (sep : list A) ps :
  (forall m, is_sep m <-> m = sep) -> sep <> [] -> ps <> [] ->
  (forall p, last ps = Some p -> ~ contains_sep is_sep p) ->
  (forall i p, ps !! i = Some p -> (S i < length ps)%nat ->
     forall a b, p ++ sep = a ++ sep ++ b -> b = []) ->
  Splits is_sep (joined sep ps) ps.
Proof.
  intros Hs Hsep. induction ps as [|p ps IH]; [done|]. intros _ Hl Hi.
  destruct ps as [|q ps].
  - apply spl_last. by apply Hl.
  - rewrite joined_cons by done. eapply (spl_cons _ _ p sep (joined sep (q :: ps))).
    + split; [done|]. split; [by apply Hs|]. intros p' m' r' E Hm'. apply Hs in Hm' as ->.
      destruct (decide (length p <= length p')%nat); [done|]. exfalso.
      assert (Hlt : (length p' < length p)%nat) by lia.
      pose proof (Hi 0%nat p eq_refl ltac:(cbn; lia)) as H0.
      (* cut both sides after the first |p| + |sep| elements *)
      assert (E2 : p ++ sep = p' ++ sep ++ take (length p - length p') r').
      { apply (f_equal (take (length p + length sep))) in E.
        rewrite app_assoc in E. rewrite take_app_le in E by (rewrite app_length; lia).
        rewrite take_ge in E by (rewrite app_length; lia). rewrite E.
        rewrite take_app_ge by lia. rewrite take_app_ge by lia. do 3 f_equal. lia. }
      assert (HN := H0 _ _ E2). apply (f_equal length) in E2.
      rewrite !app_length, HN in E2. cbn in E2. lia.
    + apply IH; [done|by intros x Hx; apply Hl|]. intros i x Hx Hlt. eapply (Hi (S i)); [done|].
      cbn [length] in *. lia.
Qed.

(** * join *)

Lemma store_loop_ok (ins : list A) : forall target i last,
  0 <= i -> i + size ins <= last -> last <= size target ->
  store_loop target i last ins =
    Val (take (Z.to_nat i) target ++ ins ++ drop (Z.to_nat (i + size ins)) target).
Proof.
  induction ins as [|x ins IH]; intros target i last Hi Hle Hl; unfold size in *; cbn [store_loop length] in *.
  - f_equal. cbn [app]. replace (i + Z.of_nat 0) with i by lia. by rewrite take_drop.
  - rewrite bool_decide_true by lia. unfold zwrite, vwrite.
    rewrite bool_decide_true by done. rewrite bool_decide_true by lia. cbn [obind].
    rewrite IH by (rewrite ?insert_length; lia). f_equal.
    replace (Z.to_nat (i + 1)) with (S (Z.to_nat i)) by lia.
    rewrite (take_S_r _ _ x) by (apply list_lookup_insert; lia).
    rewrite take_insert by lia. rewrite drop_insert_gt by lia.
    rewrite <- !app_assoc. cbn [app]. do 4 f_equal. lia.
Qed.

Lemma replace_same (target ins : list A) i :
  0 <= i -> i + size ins <= size target ->
  replace_subsequence target ins i (i + size ins) =
    Val (take (Z.to_nat i) target ++ ins ++ drop (Z.to_nat (i + size ins)) target).
Proof.
  intros Hi Hl. unfold replace_subsequence, check_start_compute_end.
  assert (0 <= size ins) by (unfold size; lia).
  rewrite !bool_decide_false by lia. cbn [obind]. rewrite bool_decide_true by lia.
  apply store_loop_ok; lia.
Qed.

(** The result so far is a prefix that is right, and a rest to be overwritten. *)
Lemma copy_to_result_ok (pre rest : list A) s :
  size s <= size rest ->
  copy_to_result (pre ++ rest, size pre) s =
    Val ((pre ++ s) ++ drop (length s) rest, size (pre ++ s)).
Proof.
  intros Hle. unfold copy_to_result. cbn [fst snd].
  rewrite replace_same; [|unfold size; lia|unfold size in *; rewrite app_length; lia].
  cbn [obind]. f_equal. f_equal.
  - unfold size. rewrite Nat2Z.id, take_app. rewrite <- app_assoc. do 2 f_equal.
    replace (Z.to_nat (Z.of_nat (length pre) + Z.of_nat (length s)))%Z
      with (length pre + length s)%nat by lia.
    rewrite drop_app_ge by lia. f_equal. lia.
  - unfold size. rewrite app_length. lia.
Qed.

Definition total (seps : list (list A)) (seqs : list (list A)) : list A :=
  concat (zip_with app seps seqs).

Lemma join_loop_ok sep conj max_index : forall seqs i pre rest,
  let seps := imap (fun k _ => match conj with
                | Some c => if bool_decide (i + Z.of_nat k = max_index) then c else sep
                | None => sep end) seqs in
  size (total seps seqs) <= size rest ->
  join_loop sep conj max_index i seqs (pre ++ rest, size pre) =
    Val ((pre ++ total seps seqs) ++ drop (length (total seps seqs)) rest,
         size (pre ++ total seps seqs)).
Proof.
  induction seqs as [|s seqs IH]; intros i done rest seps Hle; cbn [join_loop].
  - subst seps. cbn. by rewrite app_nil_r.
  - set (sp := match conj with Some c => if bool_decide (i = max_index) then c else sep | None => sep end).
    assert (Hseps : seps = sp :: imap (fun k _ => match conj with
                | Some c => if bool_decide (i + 1 + Z.of_nat k = max_index) then c else sep
                | None => sep end) seqs).
    { subst seps sp. rewrite imap_cons. f_equal.
      - destruct conj; [|reflexivity]. replace (i + Z.of_nat 0) with i by lia. reflexivity.
      - apply imap_ext. intros k x _. cbn. destruct conj; [|reflexivity].
        replace (i + Z.of_nat (S k)) with (i + 1 + Z.of_nat k) by lia. reflexivity. }
    rewrite Hseps in Hle |- *. clear seps Hseps.
    set (seps := imap _ seqs) in *.
    assert (HT : total (sp :: seps) (s :: seqs) = sp ++ s ++ total seps seqs).
    { unfold total. cbn. by rewrite app_assoc. }
    rewrite HT in Hle |- *. clear HT.
    unfold size in Hle. rewrite !app_length in Hle.
    rewrite copy_to_result_ok by (unfold size; lia). cbn [obind].
    rewrite copy_to_result_ok by (unfold size; rewrite drop_length; lia). cbn [obind].
    rewrite (IH (i + 1)); fold seps; [|unfold size; rewrite !drop_length; lia].
    f_equal. f_equal.
    + rewrite !drop_drop, !app_length. rewrite <- !app_assoc. done.
    + rewrite <- !app_assoc. done.
Qed.

Lemma fold_size (seqs : list (list A)) : forall n,
  fold_left (fun n s => n + size s) seqs n = n + size (concat seqs).
Proof.
  induction seqs as [|s seqs IH]; intros n; cbn [fold_left concat].
  - unfold size. cbn. lia.
  - rewrite IH. unfold size. rewrite app_length. lia.
Qed.

Lemma total_size seps seqs : length seps = length seqs ->
  size (total seps seqs) = size (concat seps) + size (concat seqs).
Proof.
  revert seqs. induction seps as [|x seps IH]; intros [|y seqs] H; try done.
  injection H as H. specialize (IH _ H). unfold total, size in *. cbn [zip_with concat].
  rewrite !app_length. lia.
Qed.

Lemma total_joined (sep : list A) : forall seqs first,
  first ++ total (replicate (length seqs) sep) seqs = joined sep (first :: seqs).
Proof.
  induction seqs as [|s seqs IH]; intros first; [by rewrite app_nil_r|].
  rewrite joined_cons by done. rewrite <- IH. unfold total. cbn. by rewrite <- !app_assoc.
Qed.

Lemma concat_replicate_size n (sep : list A) : size (concat (replicate n sep)) = Z.of_nat n * size sep.
Proof.
  induction n as [|n IH]; [done|]. cbn [replicate concat]. unfold size in *. rewrite app_length. lia.
Qed.

Lemma join_ok fill seqs (sep : list A) : join fill seqs sep None = Val (joined sep seqs).
Proof.
  destruct seqs as [|first seqs]; [done|]. destruct seqs as [|second seqs]; [done|].
  unfold join. set (rest := second :: seqs).
  set (N := fold_left _ _ _ + _ + _).
  assert (Hseps : imap (fun (k : nat) (_ : list A) => match @None (list A) with
                | Some c => if bool_decide (1 + Z.of_nat k = Z.of_nat (length (first :: rest)) - 1) then c else sep
                | None => sep end) rest = replicate (length rest) sep).
  { clearbody rest. clear. generalize 0%nat. induction rest as [|x rest IH]; [done|].
    intros n. rewrite imap_cons. cbn [length replicate]. f_equal. by apply IH. }
  assert (HN : N = size (first ++ total (replicate (length rest) sep) rest)).
  { subst N. rewrite fold_size. unfold size. cbn [concat]. rewrite !app_length.
    pose proof (total_size (replicate (length rest) sep) rest ltac:(by rewrite replicate_length)) as HT.
    rewrite concat_replicate_size in HT. unfold size in HT |- *. cbn [length]. lia. }
  rewrite bool_decide_false by (rewrite HN; unfold size; lia).
  pose proof (copy_to_result_ok [] (replicate (Z.to_nat N) fill) first) as HC.
  cbn [app] in HC. change (size []) with 0 in HC. rewrite HC.
  2: { unfold size. rewrite replicate_length, HN. unfold size. rewrite app_length. lia. }
  cbn [obind]. rewrite join_loop_ok; rewrite Hseps.
  - cbn [obind fst]. f_equal. rewrite drop_ge, app_nil_r; [by apply total_joined|].
    rewrite drop_length, replicate_length, HN. unfold size. rewrite app_length. lia.
  - unfold size. rewrite drop_length, replicate_length, HN. unfold size. rewrite app_length. lia.
Qed.

Lemma total_joined_conj (sep c : list A) : forall seqs first, seqs <> [] ->
  first ++ total (replicate (length seqs - 1) sep ++ [c]) seqs = joined_conj sep c (first :: seqs).
Proof.
  induction seqs as [|s seqs IH]; intros first Hne; [done|].
  destruct seqs as [|t seqs].
  - unfold total. cbn. by rewrite app_nil_r.
  - change (joined_conj sep c (first :: s :: t :: seqs)) with
      (first ++ sep ++ joined_conj sep c (s :: t :: seqs)).
    rewrite <- IH by done. unfold total. cbn [length].
    replace (S (S (length seqs)) - 1)%nat with (S (S (length seqs) - 1)) by lia.
    cbn [replicate app zip_with concat]. by rewrite <- !app_assoc.
Qed.

Lemma imap_last_conj (sep c : list A) : forall (rest : list (list A)) a,
  imap (fun (k : nat) (_ : list A) =>
     if bool_decide (a + Z.of_nat k = a + Z.of_nat (length rest) - 1) then c else sep) rest
  = match rest with [] => [] | _ => replicate (length rest - 1) sep ++ [c] end.
Proof.
  induction rest as [|x rest IH]; intros a; [done|]. rewrite imap_cons. destruct rest as [|y rest].
  - cbn. rewrite bool_decide_true by lia. done.
  - rewrite bool_decide_false by (cbn [length]; lia).
    transitivity (sep :: (replicate (length (y :: rest) - 1) sep ++ [c])).
    + f_equal. rewrite <- (IH (a + 1)). apply imap_ext. intros k z _. cbn [compose length].
      destruct (decide (a + Z.of_nat (S k) = a + Z.of_nat (S (S (length rest))) - 1)) as [H|H].
      * rewrite (bool_decide_true _ H), bool_decide_true by lia. done.
      * rewrite (bool_decide_false _ H), bool_decide_false by lia. done.
    + cbn [length]. replace (S (S (length rest)) - 1)%nat with (S (S (length rest) - 1)) by lia. done.
Qed.

Lemma join_conj_ok fill seqs (sep c : list A) :
  join fill seqs sep (Some c) = Val (joined_conj sep c seqs).
Proof.
  destruct seqs as [|first seqs]; [done|]. destruct seqs as [|second seqs]; [done|].
  unfold join. set (rest := second :: seqs).
  assert (Hne : rest <> []) by done.
  set (N := fold_left _ _ _ + _ + _).
  assert (Hseps : imap (fun (k : nat) (_ : list A) =>
       if bool_decide (1 + Z.of_nat k = Z.of_nat (length (first :: rest)) - 1) then c else sep) rest
       = replicate (length rest - 1) sep ++ [c]).
  { pose proof (imap_last_conj sep c rest 1) as H.
    replace (1 + Z.of_nat (length rest) - 1) with (Z.of_nat (length (first :: rest)) - 1) in H
      by (cbn [length]; lia). rewrite H. by destruct rest. }
  assert (HL : (0 < length rest)%nat) by (subst rest; cbn; lia).
  assert (HN : N = size (first ++ total (replicate (length rest - 1) sep ++ [c]) rest)).
  { subst N. rewrite fold_size. unfold size. cbn [concat]. rewrite !app_length.
    pose proof (total_size (replicate (length rest - 1) sep ++ [c]) rest
      ltac:(rewrite app_length, replicate_length; cbn; lia)) as HT.
    rewrite concat_app in HT. unfold size at 2 in HT. rewrite app_length in HT.
    pose proof (concat_replicate_size (length rest - 1) sep) as HR.
    unfold size in HT, HR |- *. cbn [concat] in *. change (length (first :: rest)) with (S (length rest)). rewrite app_nil_r in HT. replace (Z.of_nat (length rest - 1)) with (Z.of_nat (length rest) - 1) in HR by lia. rewrite Nat2Z.inj_succ. lia. }
  rewrite bool_decide_false by (rewrite HN; unfold size; lia).
  pose proof (copy_to_result_ok [] (replicate (Z.to_nat N) fill) first) as HC.
  cbn [app] in HC. change (size []) with 0 in HC. rewrite HC.
  2: { unfold size. rewrite replicate_length, HN. unfold size. rewrite app_length. lia. }
  cbn [obind]. rewrite join_loop_ok; rewrite Hseps.
  - cbn [obind fst]. f_equal. rewrite drop_ge, app_nil_r; [by apply total_joined_conj|].
    rewrite drop_length, replicate_length, HN. unfold size. rewrite app_length. lia.
  - unfold size. rewrite drop_length, replicate_length, HN. unfold size. rewrite app_length. lia.
Qed.

Lemma split_seq_negative test s sep start e count rie : sep <> [] -> start < 0 ->
  signals (split_seq test s sep start e count rie).
Proof.
  intros Hsep H. unfold split_seq, split_fn, split_fuel. cbn [split_loop].
  unfold find_separator. cbn [find_separator_loop].
  destruct (copy_sequence_bad s start e) as [msg Hm]; [lia|].
  destruct (decide (start <= e - size sep)).
  - rewrite bool_decide_true by done. destruct sep as [|a sep]; [done|]. cbn [looking_at].
    rewrite bool_decide_false by (unfold size; lia).
    destruct (elt_bad s start) as [m ->]; [lia|]. by exists m.
  - rewrite bool_decide_false by done. cbn [obind]. rewrite Hm. by exists msg.
Qed.

Lemma split_obj_negative test s sep start e count rie : start < 0 ->
  signals (split_obj test s sep start e count rie).
Proof.
  intros H. unfold split_obj, split_fn, split_fuel. cbn [split_loop].
  unfold find_pos. cbn [find_pos_loop].
  destruct (copy_sequence_bad s start e) as [msg Hm]; [lia|].
  destruct (decide (start < e)).
  - rewrite bool_decide_true by done. 
    destruct (elt_bad s start) as [m ->]; [lia|]. by exists m.
  - rewrite bool_decide_false by done. cbn [obind]. rewrite Hm. by exists msg.
Qed.

End split.
