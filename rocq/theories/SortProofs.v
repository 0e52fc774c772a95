From Verif Require Import Base SortModel SortSpec.
From Coq Require Import Sorting.Sorted Lia.

Lemma vread_app {A} (l1 l2 : list A) x i :
  i = length l1 -> vread (l1 ++ x :: l2) i = Val x.
Proof. intros ->. apply vread_val. by rewrite list_lookup_middle. Qed.

Lemma vwrite_app {A} (l1 l2 : list A) y x i :
  i = length l1 -> vwrite (l1 ++ y :: l2) i x = Val (l1 ++ x :: l2).
Proof.
  intros ->. rewrite vwrite_val by (rewrite app_length; cbn; lia).
  f_equal. rewrite insert_app_r_alt by lia. by rewrite Nat.sub_diag.
Qed.

Section proofs.
Context {A : Type} (test : A -> A -> bool) (Hswo : strict_weak_order test).

Definition le x y := test y x = false.

Lemma le_trans x y z : le x y -> le y z -> le x z.
Proof.
  unfold le. destruct Hswo as [Hi Ht Hc]. intros H1 H2.
  destruct (test z x) eqn:Hzx; [|done]. exfalso.
  destruct (test x y) eqn:Hxy.
  - rewrite (Ht z x y) in H2; done.
  - destruct (test y z) eqn:Hyz.
    + rewrite (Ht y z x) in H1; done.
    + destruct (Hc x y z); congruence.
Qed.

Lemma le_refl x : le x x.
Proof. apply Hswo. Qed.

Lemma lt_le x y : test x y = true -> le x y.
Proof.
  unfold le. intros H. destruct (test y x) eqn:Hyx; [|done].
  rewrite <- (swo_irrefl _ Hswo x). symmetry. eapply (swo_trans _ Hswo); eauto.
Qed.

Lemma ordered_SS l : StronglySorted le l -> ordered test l.
Proof.
  induction 1 as [|x l Hs IH Hf]; intros i j a b Hij Ha Hb; [by rewrite lookup_nil in Ha|].
  destruct i as [|i], j as [|j]; cbn in *; try lia.
  - inversion Ha; subst. rewrite Forall_forall in Hf. apply Hf.
    by eapply elem_of_list_lookup_2.
  - eapply (IH i j); eauto. lia.
Qed.

Lemma SS_app (l1 l2 : list A) :
  StronglySorted le (l1 ++ l2) <->
  StronglySorted le l1 /\ StronglySorted le l2 /\ (forall x y, x ∈ l1 -> y ∈ l2 -> le x y).
Proof.
  induction l1 as [|x l1 IH]; cbn.
  - split; [intros H; split_and!; [constructor|done|intros ? ? ?%elem_of_nil; done]|naive_solver].
  - split.
    + intros H. inversion H as [|? ? H1 H2]; subst. apply IH in H1 as (Ha&Hb&Hc).
      apply Forall_app in H2 as [H2 H3]. split_and!.
      * by constructor.
      * done.
      * intros a b [->|Hin]%elem_of_cons Hb'; [|by apply Hc].
        rewrite Forall_forall in H3. by apply H3.
    + intros (H&H2&H3). inversion H as [|? ? Ha Hb]; subst. constructor.
      * apply IH. split_and!; [done|done|]. intros; apply H3; [by apply elem_of_list_further|done].
      * apply Forall_app. split; [done|]. apply Forall_forall. intros y Hy.
        apply H3; [apply elem_of_list_here|done].
Qed.

(** ** Insertion sort *)

Lemma insert_loop_spec cur (m : list A) : forall l1 z r,
  exists a b, m = a ++ b /\ Forall (fun y => test cur y = true) b /\
    (a = [] \/ exists a' y, a = a' ++ [y] /\ test cur y = false) /\
    insert_loop test (l1 ++ m ++ z :: r) cur (length l1) (length l1 + length m)
      = Val (l1 ++ a ++ cur :: b ++ r).
Proof.
  induction m as [|y m IH] using rev_ind; intros l1 z r.
  - exists [], []. split_and!; [done|constructor|by left|].
    cbn [app length]. rewrite Nat.add_0_r.
    destruct (length l1) as [|ik] eqn:Hl.
    + cbn [insert_loop]. apply vwrite_app. done.
    + cbn [insert_loop]. rewrite bool_decide_true by lia. by apply vwrite_app.
  - rewrite app_length. cbn [length]. rewrite Nat.add_1_r, Nat.add_succ_r.
    cbn [insert_loop]. rewrite bool_decide_false by lia.
    rewrite (vread_val _ _ y).
    2:{ rewrite lookup_app_r by lia. rewrite lookup_app_l by (rewrite app_length; cbn; lia).
        rewrite lookup_app_r by lia. replace (_ - _ - _) with 0 by lia. done. }
    cbn [obind]. destruct (test cur y) eqn:Hy.
    + replace (l1 ++ (m ++ [y]) ++ z :: r) with ((l1 ++ m ++ [y]) ++ z :: r)
        by (by rewrite <- !app_assoc).
      rewrite vwrite_app by (rewrite !app_length; cbn; lia). cbn [obind].
      destruct (IH l1 y (y :: r)) as (a&b&Hm&Hb&Ha&He).
      exists a, (b ++ [y]). split_and!.
      * rewrite Hm. by rewrite app_assoc.
      * apply Forall_app. split; [done|by constructor].
      * done.
      * rewrite <- !app_assoc. cbn [app]. cbn [app] in He. rewrite He. done.
    + exists (m ++ [y]), []. split_and!.
      * by rewrite app_nil_r.
      * constructor.
      * right. eauto.
      * replace (l1 ++ (m ++ [y]) ++ z :: r) with ((l1 ++ m ++ [y]) ++ z :: r)
          by (by rewrite <- !app_assoc).
        rewrite vwrite_app by (rewrite !app_length; cbn; lia).
        by rewrite <- !app_assoc.
Qed.

Lemma filter_stable_insert x cur (a b : list A) :
  Forall (fun y => test cur y = true) b ->
  List.filter (equiv test x) (a ++ cur :: b) = List.filter (equiv test x) ((a ++ b) ++ [cur]).
Proof.
  intros Hb. rewrite <- app_assoc, !List.filter_app. f_equal.
  cbn [List.filter]. destruct (equiv test x cur) eqn:He.
  - assert (List.filter (equiv test x) b = []) as ->; [|done].
    clear -He Hb Hswo. induction Hb as [|y b Hy Hb IH]; [done|].
    cbn [List.filter]. destruct (equiv test x y) eqn:Hxy; [|done].
    unfold equiv in *. apply andb_prop in He as [H1 H2]. apply andb_prop in Hxy as [H3 H4].
    apply negb_true_iff in H1, H2, H3, H4.
    destruct (swo_incomp _ Hswo cur x y); congruence.
  - by rewrite app_nil_r.
Qed.

(** [m] sorted prefix, [n] elements left. *)
Lemma insertion_outer_spec (rest : list A) : forall l1 m r,
  StronglySorted le m ->
  exists m', insertion_outer test (l1 ++ m ++ rest ++ r) (length l1) (length l1 + length m) (length rest)
             = Val (l1 ++ m' ++ r)
    /\ StronglySorted le m' /\ Permutation m' (m ++ rest)
    /\ stable_rearrangement test (m ++ rest) m'.
Proof.
  induction rest as [|cur rest IH]; intros l1 m r Hm; cbn [length insertion_outer].
  - exists m. rewrite app_nil_r. cbn [app]. split_and!; try done.
  - rewrite (vread_val _ _ cur).
    2:{ rewrite app_assoc. cbn [app]. rewrite lookup_app_r by (rewrite app_length; lia).
        rewrite app_length. by rewrite Nat.sub_diag. }
    cbn [obind]. cbn [app].
    destruct (insert_loop_spec cur m l1 cur (rest ++ r)) as (a&b&Hab&Hb&Ha&He).
    rewrite He. cbn [obind]. subst m.
    assert (StronglySorted le (a ++ cur :: b)) as Hs.
    { apply SS_app in Hm as (Hsa&Hsb&Hab). apply SS_app. split_and!; [done| |].
      - constructor; [done|]. eapply Forall_impl; [exact Hb|]. cbn. intros y Hy. by apply lt_le.
      - intros x y Hx [->|Hy]%elem_of_cons; [|by apply Hab].
        destruct Ha as [->|(a'&z&->&Hz)]; [by apply elem_of_nil in Hx|].
        apply elem_of_app in Hx as [Hx|Hx%elem_of_list_singleton].
        + eapply (le_trans _ z); [|exact Hz].
          apply SS_app in Hsa as (_&_&Hza). apply Hza; [done|]. by apply elem_of_list_singleton.
        + subst. exact Hz. }
    destruct (IH l1 (a ++ cur :: b) r Hs) as (m'&Hm'&Hs'&Hp&Hst).
    exists m'. split_and!; [|done| |].
    + rewrite <- Hm'. f_equal; [|rewrite !app_length; cbn; lia].
      by rewrite <- !app_assoc.
    + rewrite Hp. rewrite <- !app_assoc. cbn [app]. apply Permutation_app_head.
      apply Permutation_middle.
    + intros x. rewrite (Hst x). rewrite !(List.filter_app _ (a ++ _)).
      rewrite filter_stable_insert by done.
      rewrite !List.filter_app. cbn [List.filter].
      destruct (equiv test x cur); by rewrite <- ?app_assoc.
Qed.

Definition sorts_segment (op : list A -> nat -> nat -> outcome (list A)) (l1 m r : list A)
    (st : bool) :=
  exists m', op (l1 ++ m ++ r) (length l1) (length l1 + length m) = Val (l1 ++ m' ++ r)
    /\ StronglySorted le m' /\ Permutation m' m
    /\ (st = true -> stable_rearrangement test m m').

Lemma insertion_sort_spec l1 m r : sorts_segment (insertion_sort test) l1 m r true.
Proof.
  unfold sorts_segment, insertion_sort, sort_range_check.
  rewrite !bool_decide_false by (rewrite !app_length; lia). cbn [obind].
  destruct m as [|x m].
  - exists []. cbn [length]. rewrite Nat.add_0_r. replace (length l1 - _) with 0 by lia.
    split_and!; [done|constructor|done|done].
  - destruct (insertion_outer_spec m l1 [x] r) as (m'&He&Hs&Hp&Hst).
    { by repeat constructor. }
    exists m'. split_and!; try done.
    rewrite <- He. cbn [length app]. f_equal; lia.
Qed.

(** ** Merge sort *)

Fixpoint lmerge (a : list A) : list A -> list A :=
  fix aux b :=
    match a, b with
    | [], _ => b
    | _, [] => a
    | x :: a', y :: b' => if test y x then y :: aux b' else x :: lmerge a' b
    end.

Lemma lmerge_nil_l b : lmerge [] b = b.
Proof. by destruct b. Qed.
Lemma lmerge_nil_r a : lmerge a [] = a.
Proof. by destruct a. Qed.
Lemma lmerge_cons x a y b :
  lmerge (x :: a) (y :: b) = if test y x then y :: lmerge (x :: a) b else x :: lmerge a (y :: b).
Proof. done. Qed.

Lemma merge_loop_spec n : forall (l1 a1 a2 b1 b2 r : list A),
  n = length a2 + length b2 ->
  merge_loop test (l1 ++ (a1 ++ a2) ++ (b1 ++ b2) ++ r) (length l1 + length a1)
     (length l1 + length (a1 ++ a2) + length b1) (length l1 + length (a1 ++ a2))
     (length l1 + length (a1 ++ a2) + length (b1 ++ b2)) n
  = Val (lmerge a2 b2).
Proof.
  induction n as [|n IH]; intros l1 a1 a2 b1 b2 r Hn.
  - destruct a2, b2; try discriminate Hn. done.
  - assert (forall y b', b2 = y :: b' ->
      vread (l1 ++ (a1 ++ a2) ++ (b1 ++ b2) ++ r) (length l1 + length (a1 ++ a2) + length b1) = Val y) as Hrb.
    { intros y b' ->. replace (l1 ++ (a1 ++ a2) ++ (b1 ++ y :: b') ++ r)
        with ((l1 ++ (a1 ++ a2) ++ b1) ++ y :: (b' ++ r)) by (by rewrite <- !app_assoc).
      apply vread_app. rewrite !app_length. lia. }
    assert (forall y a', a2 = y :: a' ->
      vread (l1 ++ (a1 ++ a2) ++ (b1 ++ b2) ++ r) (length l1 + length a1) = Val y) as Hra.
    { intros y a' ->. replace (l1 ++ (a1 ++ y :: a') ++ (b1 ++ b2) ++ r)
        with ((l1 ++ a1) ++ y :: (a' ++ (b1 ++ b2) ++ r)) by (by rewrite <- !app_assoc).
      apply vread_app. rewrite !app_length. lia. }
    assert (forall y b', b2 = y :: b' -> n = length a2 + length b' ->
       merge_loop test (l1 ++ (a1 ++ a2) ++ (b1 ++ b2) ++ r) (length l1 + length a1)
        (S (length l1 + length (a1 ++ a2) + length b1)) (length l1 + length (a1 ++ a2))
        (length l1 + length (a1 ++ a2) + length (b1 ++ b2)) n = Val (lmerge a2 b')) as Hsb.
    { intros y b' -> Hn'. rewrite <- (IH l1 a1 a2 (b1 ++ [y]) b' r Hn').
      f_equal; rewrite <- ?app_assoc; cbn [app]; rewrite ?app_length; cbn [length]; try lia; done. }
    assert (forall y a', a2 = y :: a' -> n = length a' + length b2 ->
       merge_loop test (l1 ++ (a1 ++ a2) ++ (b1 ++ b2) ++ r) (S (length l1 + length a1))
        (length l1 + length (a1 ++ a2) + length b1) (length l1 + length (a1 ++ a2))
        (length l1 + length (a1 ++ a2) + length (b1 ++ b2)) n = Val (lmerge a' b2)) as Hsa.
    { intros y a' -> Hn'. rewrite <- (IH l1 (a1 ++ [y]) a' b1 b2 r Hn').
      f_equal; rewrite <- ?app_assoc; cbn [app]; rewrite ?app_length; cbn [length]; try lia; done. }
    cbn [merge_loop].
    destruct a2 as [|x a2].
    + rewrite bool_decide_true by (rewrite app_nil_r; lia).
      destruct b2 as [|y b2]; [discriminate Hn|].
      rewrite (Hrb y b2 eq_refl). cbn [obind].
      rewrite (Hsb y b2 eq_refl) by (cbn in *; lia). cbn [obind].
      by rewrite !lmerge_nil_l.
    + rewrite bool_decide_false by (rewrite app_length; cbn; lia).
      destruct b2 as [|y b2].
      * rewrite bool_decide_true by (rewrite app_nil_r; lia).
        rewrite (Hra x a2 eq_refl). cbn [obind].
        rewrite (Hsa x a2 eq_refl) by (cbn in *; lia). cbn [obind].
        by rewrite !lmerge_nil_r.
      * rewrite bool_decide_false by (rewrite (app_length b1); cbn; lia).
        rewrite (Hrb y b2 eq_refl), (Hra x a2 eq_refl). cbn [obind].
        rewrite lmerge_cons. destruct (test y x).
        -- rewrite (Hsb y b2 eq_refl) by (cbn in *; lia). done.
        -- rewrite (Hsa x a2 eq_refl) by (cbn in *; lia). done.
Qed.

Lemma copy_back_spec (mv : list A) : forall l1 old r, length old = length mv ->
  copy_back (l1 ++ old ++ r) (length l1) mv = Val (l1 ++ mv ++ r).
Proof.
  induction mv as [|x mv IH]; intros l1 old r Hl; destruct old as [|o old]; try discriminate Hl; [done|].
  cbn [copy_back app]. rewrite vwrite_app by done. cbn [obind].
  specialize (IH (l1 ++ [x]) old r). rewrite <- !app_assoc in IH. cbn [app] in IH.
  rewrite app_length in IH. cbn [length] in IH. rewrite Nat.add_1_r in IH. apply IH.
  cbn in Hl; lia.
Qed.

Lemma lmerge_perm a : forall b, Permutation (lmerge a b) (a ++ b).
Proof.
  induction a as [|x a IHa]; intros b; [by rewrite lmerge_nil_l|].
  induction b as [|y b IHb]; [by rewrite lmerge_nil_r, app_nil_r|].
  rewrite lmerge_cons. destruct (test y x).
  - rewrite IHb. apply (Permutation_middle (x :: a)).
  - cbn [app]. by rewrite IHa.
Qed.

Lemma lmerge_sorted a : forall b, StronglySorted le a -> StronglySorted le b ->
  StronglySorted le (lmerge a b).
Proof.
  induction a as [|x a IHa]; intros b Ha Hb; [by rewrite lmerge_nil_l|].
  induction b as [|y b IHb]; [by rewrite lmerge_nil_r|].
  rewrite lmerge_cons. inversion Ha as [|? ? Ha1 Ha2]; inversion Hb as [|? ? Hb1 Hb2]; subst.
  destruct (test y x) eqn:Hyx.
  - constructor; [by apply IHb|]. apply Forall_forall. intros z Hz.
    rewrite lmerge_perm in Hz.
    apply elem_of_app in Hz as [Hz|Hz].
    + apply lt_le in Hyx. apply elem_of_cons in Hz as [->|Hz]; [done|].
      apply (le_trans _ x); [done|]. rewrite Forall_forall in Ha2. by apply Ha2.
    + rewrite Forall_forall in Hb2. by apply Hb2.
  - constructor; [by apply IHa|]. apply Forall_forall. intros z Hz.
    rewrite lmerge_perm in Hz.
    apply elem_of_app in Hz as [Hz|Hz].
    + rewrite Forall_forall in Ha2. by apply Ha2.
    + apply elem_of_cons in Hz as [->|Hz]; [done|].
      apply (le_trans _ y); [done|]. rewrite Forall_forall in Hb2. by apply Hb2.
Qed.

Lemma lmerge_stable a : forall b, StronglySorted le a ->
  stable_rearrangement test (a ++ b) (lmerge a b).
Proof.
  induction a as [|x a IHa]; intros b Ha z; [by rewrite lmerge_nil_l|].
  induction b as [|y b IHb]; [by rewrite lmerge_nil_r, app_nil_r|].
  rewrite lmerge_cons. inversion Ha as [|? ? Ha1 Ha2]; subst.
  destruct (test y x) eqn:Hyx.
  - assert (Hc : forall w l, List.filter (equiv test z) (w :: l)
       = if equiv test z w then w :: List.filter (equiv test z) l
         else List.filter (equiv test z) l) by done.
    rewrite (Hc y (lmerge _ _)), IHb, !List.filter_app, (Hc y b).
    destruct (equiv test z y) eqn:Hzy; [|done].
    assert (List.filter (equiv test z) (x :: a) = []) as ->; [|done].
    assert (forall w, w ∈ x :: a -> test y w = true) as Hall.
    { intros w [->|Hw]%elem_of_cons; [done|].
      rewrite Forall_forall in Ha2. specialize (Ha2 w Hw). unfold le in Ha2.
      destruct (test y w) eqn:Hyw; [done|].
      assert (test y x = false); [|congruence]. change (le x y).
      apply (le_trans _ w); done. }
    clear -Hall Hzy Hswo. induction (x :: a) as [|w l IH]; [done|].
    cbn [List.filter]. destruct (equiv test z w) eqn:Hzw; cycle 1.
    { apply IH. intros u Hu. apply Hall. by apply elem_of_list_further. }
    exfalso. pose proof (Hall w (elem_of_list_here _ _)) as Hw.
    unfold equiv in *. apply andb_prop in Hzy as [H1 H2]. apply andb_prop in Hzw as [H3 H4].
    apply negb_true_iff in H1, H2, H3, H4.
    destruct (swo_incomp _ Hswo y z w); congruence.
  - cbn [List.filter app]. rewrite IHa by done. done.
Qed.

Lemma merge_spec l1 a b r :
  merge test (l1 ++ (a ++ b) ++ r) (length l1) (length l1 + length a) (length l1 + length (a ++ b))
  = Val (l1 ++ lmerge a b ++ r).
Proof.
  unfold merge.
  pose proof (merge_loop_spec (length (a ++ b)) l1 [] a [] b r) as Hm.
  cbn [app length] in Hm. rewrite !Nat.add_0_r in Hm.
  replace (length l1 + length (a ++ b) - length l1) with (length (a ++ b)) by lia.
  rewrite <- app_assoc.
  replace (length l1 + length (a ++ b)) with (length l1 + length a + length b)
    by (rewrite app_length; lia).
  rewrite Hm by (rewrite app_length; lia). cbn [obind].
  rewrite (app_assoc a b r). apply copy_back_spec.
  apply Permutation_length. symmetry. apply lmerge_perm.
Qed.

Lemma stable_app m1 m2 m1' m2' :
  stable_rearrangement test m1 m1' -> stable_rearrangement test m2 m2' ->
  stable_rearrangement test (m1 ++ m2) (m1' ++ m2').
Proof. intros H1 H2 x. by rewrite !List.filter_app, H1, H2. Qed.

Lemma merge_sort_spec fuel : forall l1 m r, length m < fuel ->
  sorts_segment (merge_sort test fuel) l1 m r true.
Proof.
  induction fuel as [|f IH]; intros l1 m r Hf; [lia|].
  unfold sorts_segment. cbn [merge_sort]. unfold sort_range_check.
  rewrite !bool_decide_false by (rewrite !app_length; lia). cbn [obind].
  replace (length l1 + length m - length l1) with (length m) by lia.
  unfold small_sort_size.
  destruct (decide (length m < 10)) as [Hs|Hs].
  - rewrite bool_decide_true by done. apply insertion_sort_spec.
  - rewrite bool_decide_false by done. rewrite bool_decide_true by lia.
    set (h := length m / 2).
    assert (0 < h < length m) as Hh.
    { unfold h. split; [apply Nat.div_str_pos; lia|apply Nat.div_lt; lia]. }
    rewrite <- (take_drop h m).
    set (a := take h m). set (b := drop h m).
    assert (length a = h) as Hla by (unfold a; rewrite take_length; lia).
    assert (length b < f) as Hlb by (unfold b; rewrite drop_length; lia).
    destruct (IH l1 a (b ++ r)) as (a'&Hea&Hsa&Hpa&Hsta); [lia|].
    destruct (IH (l1 ++ a') b r) as (b'&Heb&Hsb&Hpb&Hstb); [lia|].
    assert (length a' = h) as Hla' by (by rewrite (Permutation_length Hpa)).
    rewrite <- app_assoc. rewrite Hla in Hea. rewrite Hea. cbn [obind].
    rewrite app_assoc. rewrite app_length in Heb.
    replace (length l1 + length (a ++ b)) with (length l1 + length a' + length b)
      by (rewrite app_length; lia).
    replace (length l1 + h) with (length l1 + length a') by lia.
    rewrite Heb. cbn [obind]. rewrite <- app_assoc, (app_assoc a').
    replace (length l1 + length a' + length b) with (length l1 + length (a' ++ b'))
      by (rewrite app_length, (Permutation_length Hpb); lia).
    rewrite merge_spec. exists (lmerge a' b'). split_and!; [done| | |].
    + by apply lmerge_sorted.
    + rewrite lmerge_perm. by rewrite Hpa, Hpb.
    + intros _ x. rewrite (lmerge_stable a' b' Hsa x).
      apply stable_app; auto.
Qed.

(** ** Quick sort *)

Lemma scan_small_spec (v : list A) pivot n : forall fuel k j,
  n = j - k -> k <= j -> n < fuel ->
  (forall i x, k <= i < j -> v !! i = Some x -> test x pivot = true) ->
  (exists x, v !! j = Some x /\ test x pivot = false) ->
  scan_small test fuel v pivot k = Val j.
Proof.
  induction n as [|n IH]; intros fuel k j Hn Hkj Hf Hlt (x&Hx&Hxp).
  - destruct fuel as [|f]; [lia|]. assert (k = j) as -> by lia.
    cbn [scan_small]. rewrite (vread_val _ _ _ Hx). cbn [obind]. by rewrite Hxp.
  - destruct fuel as [|f]; [lia|]. cbn [scan_small].
    destruct (lookup_lt_is_Some_2 v k) as [y Hy].
    { apply lookup_lt_Some in Hx. lia. }
    rewrite (vread_val _ _ _ Hy). cbn [obind]. rewrite (Hlt k y) by (done || lia).
    apply IH; try lia; [|by eauto]. intros i z Hi. apply Hlt. lia.
Qed.

(** The first position >= k not smaller than the pivot. *)
Lemma first_not_small (v : list A) pivot k b :
  k <= b -> (exists x, v !! b = Some x /\ test x pivot = false) ->
  exists j, k <= j <= b /\
    (forall i x, k <= i < j -> v !! i = Some x -> test x pivot = true) /\
    (exists x, v !! j = Some x /\ test x pivot = false).
Proof.
  intros Hkb Hb. remember (b - k) as n eqn:Hn. revert k Hkb Hn.
  induction n as [|n IH]; intros k Hkb Hn.
  - exists k. assert (k = b) as -> by lia. split_and!; try lia; done.
  - destruct Hb as (xb&Hxb&Hxbp).
    destruct (lookup_lt_is_Some_2 v k) as [y Hy]; [apply lookup_lt_Some in Hxb; lia|].
    destruct (test y pivot) eqn:Hyp.
    + destruct (IH (S k)) as (j&Hj&Hlt&Hx); [lia|lia|].
      exists j. split_and!; [lia|lia| |done].
      intros i x Hi Hxi. destruct (decide (i = k)) as [->|]; [congruence|]. apply (Hlt i x); [lia|done].
    + exists k. split_and!; try lia; eauto.
Qed.

Lemma scan_large_spec (v : list A) pivot k b :
  b <= k -> k < length v -> (exists x, v !! b = Some x /\ test pivot x = false) ->
  exists j, b <= j <= k /\ scan_large test v pivot k = Val j /\
    (forall i x, j < i <= k -> v !! i = Some x -> test pivot x = true) /\
    (exists x, v !! j = Some x /\ test pivot x = false).
Proof.
  induction k as [|k IH]; intros Hbk Hk Hb.
  - assert (b = 0) as -> by lia. destruct Hb as (x&Hx&Hp). exists 0.
    cbn [scan_large]. rewrite (vread_val _ _ _ Hx). cbn [obind]. rewrite Hp.
    split_and!; try lia; eauto.
  - destruct (lookup_lt_is_Some_2 v (S k)) as [y Hy]; [lia|].
    cbn [scan_large]. rewrite (vread_val _ _ _ Hy). cbn [obind].
    destruct (test pivot y) eqn:Hyp.
    + assert (b <> S k) by (intros ->; destruct Hb as (x&Hx&Hp); congruence).
      destruct IH as (j&Hj&He&Hgt&Hx); [lia|lia|done|].
      exists j. split_and!; try lia; [done| |done].
      intros i x Hi Hxi. destruct (decide (i = S k)) as [->|]; [congruence|]. apply (Hgt i x); [lia|done].
    + exists (S k). split_and!; try lia; eauto.
Qed.

Lemma swap_elements_spec (v : list A) i j x y :
  v !! i = Some x -> v !! j = Some y ->
  swap_elements v i j = Val (<[j:=x]> (<[i:=y]> v)).
Proof.
  intros Hi Hj. unfold swap_elements.
  rewrite (vread_val _ _ _ Hi). cbn [obind]. rewrite (vread_val _ _ _ Hj). cbn [obind].
  rewrite vwrite_val by (by eapply lookup_lt_Some). cbn [obind].
  rewrite vwrite_val; [done|]. rewrite insert_length. by eapply lookup_lt_Some.
Qed.

Lemma swap_permutation (v : list A) i j x y :
  v !! i = Some x -> v !! j = Some y -> Permutation (<[j:=x]> (<[i:=y]> v)) v.
Proof.
  intros Hi Hj. destruct (decide (i = j)) as [->|Hij].
  - assert (x = y) by congruence. subst. rewrite list_insert_insert.
    by rewrite list_insert_id.
  - apply Permutation_inj. split; [by rewrite !insert_length|].
    exists (fun k => if decide (k = i) then j else if decide (k = j) then i else k).
    split.
    + intros a b. repeat case_decide; congruence.
    + intros k. case_decide as Hki; [subst k|case_decide as Hkj; [subst k|]].
      * rewrite list_lookup_insert_ne by done.
        rewrite list_lookup_insert by (by eapply lookup_lt_Some). done.
      * rewrite list_lookup_insert by (rewrite insert_length; by eapply lookup_lt_Some). done.
      * rewrite !list_lookup_insert_ne by done. done.
Qed.

(** Loop invariant of partition: everything left of small (inside the segment) is
    <= pivot, everything right of large is >= pivot; both scans have a stopper. *)
Lemma partition_loop_spec pivot s e fuel : forall (v : list A) small large,
  s <= small -> large < e -> e <= length v ->
  (forall i x, s <= i < small -> v !! i = Some x -> le x pivot) ->
  (forall i x, large < i < e -> v !! i = Some x -> le pivot x) ->
  (exists b x, small <= b < e /\ v !! b = Some x /\ test x pivot = false) ->
  (exists b x, s <= b <= large /\ v !! b = Some x /\ test pivot x = false) ->
  (small = s -> exists b x, s < b <= large /\ v !! b = Some x /\ test pivot x = false) ->
  small <= S large ->
  S large - small < fuel ->
  exists v' mid, partition_loop test fuel v pivot small large = Val (v', mid) /\
    s < mid < e /\ length v' = length v /\ Permutation v' v /\
    (forall i, ~ (s <= i < e) -> v' !! i = v !! i) /\
    (forall i x, s <= i < mid -> v' !! i = Some x -> le x pivot) /\
    (forall i x, mid <= i < e -> v' !! i = Some x -> le pivot x).
Proof.
  induction fuel as [|f IH]; intros v small large Hs Hl He Hlo Hhi Hbs Hbl Hfirst Hsl Hf; [lia|].
  cbn [partition_loop].
  destruct Hbs as (bs&xs&Hbs&Hxs&Hxsp).
  destruct (first_not_small v pivot small bs) as (j&Hj&Hjlt&xj&Hxj&Hxjp); [lia|eauto|].
  rewrite (scan_small_spec v pivot (j - small) (S (length v)) small j); [|lia|lia|lia|done|eauto].
  cbn [obind].
  destruct (decide (small = s)) as [->|Hne].
  - (* first pass *)
    destruct (Hfirst eq_refl) as (bl&xl&Hbl'&Hxl&Hxlp).
    destruct (scan_large_spec v pivot large bl) as (k&Hk&Hek&Hkgt&xk&Hxk&Hxkp); [lia|lia|eauto|].
    rewrite Hek. cbn [obind].
    destruct (decide (j < k)) as [Hjk|Hjk].
    + rewrite bool_decide_true by done.
      rewrite (swap_elements_spec _ _ _ _ _ Hxj Hxk). cbn [obind].
      destruct (IH (<[k:=xj]> (<[j:=xk]> v)) (S j) (k - 1)) as (v'&mid&He1&Hmid&Hlen&Hp&Hout&Hlo'&Hhi');
        rewrite ?insert_length; try lia.
      * intros i x Hi Hx. rewrite list_lookup_insert_ne in Hx by lia.
        destruct (decide (i = j)) as [->|].
        -- rewrite list_lookup_insert in Hx by (eapply lookup_lt_Some; eauto).
           inversion Hx; subst. exact Hxkp.
        -- rewrite list_lookup_insert_ne in Hx by lia.
           destruct (decide (i < s)); [lia|]. apply lt_le. eapply (Hjlt i); [lia|done].
      * intros i x Hi Hx. destruct (decide (i = k)) as [->|].
        -- rewrite list_lookup_insert in Hx by (rewrite insert_length; eapply lookup_lt_Some; eauto).
           inversion Hx; subst. exact Hxjp.
        -- rewrite !list_lookup_insert_ne in Hx by lia.
           destruct (decide (i <= large)).
           ++ apply lt_le. eapply (Hkgt i); [lia|done].
           ++ apply (Hhi i x); [lia|done].
      * exists k, xj. split; [lia|]. rewrite list_lookup_insert
          by (rewrite insert_length; eapply lookup_lt_Some; eauto). done.
      * exists j, xk. split; [lia|]. rewrite list_lookup_insert_ne by lia.
        rewrite list_lookup_insert by (eapply lookup_lt_Some; eauto). done.
      * exists v', mid. rewrite insert_length in Hlen. rewrite insert_length in Hlen.
        split_and!; try done; try lia.
        -- rewrite Hp. by apply swap_permutation.
        -- intros i Hi. rewrite Hout by done.
           apply lookup_lt_Some in Hxj, Hxk. rewrite !list_lookup_insert_ne by lia. done.
    + rewrite bool_decide_false by done. exists v, j. split_and!; try done; try lia.
      * intros i x Hi Hx. apply lt_le. eapply (Hjlt i); [lia|done].
      * intros i x Hi Hx. destruct (decide (i = j)) as [->|].
        { assert (x = xj) as -> by congruence. exact Hxjp. }
        destruct (decide (i <= large)).
        ++ apply lt_le. eapply (Hkgt i); [lia|done].
        ++ apply (Hhi i x); [lia|done].
  - destruct Hbl as (bl&xl&Hbl'&Hxl&Hxlp).
    destruct (decide (large < length v)) as [Hll|]; [|lia].
    destruct (scan_large_spec v pivot large bl) as (k&Hk&Hek&Hkgt&xk&Hxk&Hxkp); [lia|lia|eauto|].
    rewrite Hek. cbn [obind].
    destruct (decide (j < k)) as [Hjk|Hjk].
    + rewrite bool_decide_true by done.
      rewrite (swap_elements_spec _ _ _ _ _ Hxj Hxk). cbn [obind].
      destruct (IH (<[k:=xj]> (<[j:=xk]> v)) (S j) (k - 1)) as (v'&mid&He1&Hmid&Hlen&Hp&Hout&Hlo'&Hhi');
        rewrite ?insert_length; try lia.
      * intros i x Hi Hx. rewrite list_lookup_insert_ne in Hx by lia.
        destruct (decide (i = j)) as [->|].
        -- rewrite list_lookup_insert in Hx by (eapply lookup_lt_Some; eauto).
           inversion Hx; subst. exact Hxkp.
        -- rewrite list_lookup_insert_ne in Hx by lia.
           destruct (decide (i < small)); [by eapply (Hlo i); [lia|done]|].
           apply lt_le. eapply (Hjlt i); [lia|done].
      * intros i x Hi Hx. destruct (decide (i = k)) as [->|].
        -- rewrite list_lookup_insert in Hx by (rewrite insert_length; eapply lookup_lt_Some; eauto).
           inversion Hx; subst. exact Hxjp.
        -- rewrite !list_lookup_insert_ne in Hx by lia.
           destruct (decide (i <= large)).
           ++ apply lt_le. eapply (Hkgt i); [lia|done].
           ++ apply (Hhi i x); [lia|done].
      * exists k, xj. split; [lia|]. rewrite list_lookup_insert
          by (rewrite insert_length; eapply lookup_lt_Some; eauto). done.
      * exists j, xk. split; [lia|]. rewrite list_lookup_insert_ne by lia.
        rewrite list_lookup_insert by (eapply lookup_lt_Some; eauto). done.
      * exists v', mid. rewrite insert_length in Hlen. rewrite insert_length in Hlen.
        split_and!; try done; try lia.
        -- rewrite Hp. by apply swap_permutation.
        -- intros i Hi. rewrite Hout by done.
           apply lookup_lt_Some in Hxj, Hxk. rewrite !list_lookup_insert_ne by lia. done.
    + rewrite bool_decide_false by done. exists v, j. split_and!; try done; try lia.
      * intros i x Hi Hx. destruct (decide (i < small)); [by eapply (Hlo i); [lia|done]|].
        apply lt_le. eapply (Hjlt i); [lia|done].
      * intros i x Hi Hx. destruct (decide (i = j)) as [->|].
        { assert (x = xj) as -> by congruence. exact Hxjp. }
        destruct (decide (i <= large)).
        ++ apply lt_le. eapply (Hkgt i); [lia|done].
        ++ apply (Hhi i x); [lia|done].
Qed.

Lemma partition_spec (v : list A) s e :
  s + 3 <= e -> e <= length v ->
  exists v' mid pivot, partition test v s e = Val (v', mid) /\
    s < mid < e /\ length v' = length v /\ Permutation v' v /\
    (forall i, ~ (s <= i < e) -> v' !! i = v !! i) /\
    (forall i x, s <= i < mid -> v' !! i = Some x -> le x pivot) /\
    (forall i x, mid <= i < e -> v' !! i = Some x -> le pivot x).
Proof.
  intros Hse He. unfold partition, median_of_three.
  destruct e as [|[|e]]; [lia|lia|].
  set (middle := (s + S e) / 2).
  assert (s < middle < S e) as Hmid.
  { unfold middle. split.
    - apply Nat.div_le_lower_bound; lia.
    - apply Nat.div_lt_upper_bound; lia. }
  destruct (lookup_lt_is_Some_2 v s) as [xs Hxs]; [lia|].
  destruct (lookup_lt_is_Some_2 v e) as [xe Hxe]; [lia|].
  destruct (lookup_lt_is_Some_2 v middle) as [xm Hxm]; [lia|].
  destruct (lookup_lt_is_Some_2 v (S e)) as [xl Hxl]; [lia|].
  rewrite (vread_val _ _ _ Hxs), (vread_val _ _ _ Hxe), (vread_val _ _ _ Hxm).
  cbn [obind].
  assert (forall pk pivot, v !! pk = Some pivot -> s <= pk <= S e ->
    (exists b x, s < b <= S e /\ v !! b = Some x /\ test pivot x = false) ->
    exists v' mid pivot', (do pivot <- vread v pk; partition_loop test (S (length v)) v pivot s (S e))%outcome = Val (v', mid) /\
    s < mid < S (S e) /\ length v' = length v /\ Permutation v' v /\
    (forall i, ~ (s <= i < S (S e)) -> v' !! i = v !! i) /\
    (forall i x, s <= i < mid -> v' !! i = Some x -> le x pivot') /\
    (forall i x, mid <= i < S (S e) -> v' !! i = Some x -> le pivot' x)) as Hgo.
  { intros pk pivot Hpk Hr Hfirst. rewrite (vread_val _ _ _ Hpk). cbn [obind].
    destruct (partition_loop_spec pivot s (S (S e)) (S (length v)) v s (S e))
      as (v'&mid&H1&H2&H3&H4&H5&H6&H7); try lia.
    - exists pk, pivot. split_and!; [lia|lia|done|apply Hswo].
    - exists pk, pivot. split_and!; [lia|lia|done|apply Hswo].
    - intros _. exact Hfirst.
    - exists v', mid, pivot. done. }
  destruct (test xs xe) eqn:H1.
  - destruct (test xm xe) eqn:H2; cbn [obind].
    + apply (Hgo middle xm Hxm); [lia|]. exists middle, xm. split_and!; [lia|lia|done|apply Hswo].
    + apply (Hgo (S e) xl Hxl); [lia|]. exists (S e), xl. split_and!; [lia|lia|done|apply Hswo].
  - destruct (test xm xs) eqn:H2; cbn [obind].
    + apply (Hgo middle xm Hxm); [lia|]. exists middle, xm. split_and!; [lia|lia|done|apply Hswo].
    + apply (Hgo s xs Hxs); [lia|]. exists e, xe. split_and!; [lia|lia|done|done].
Qed.

Lemma segment_agree (l1 m r v' : list A) :
  length v' = length (l1 ++ m ++ r) ->
  (forall i, ~ (length l1 <= i < length l1 + length m) -> v' !! i = (l1 ++ m ++ r) !! i) ->
  exists m', v' = l1 ++ m' ++ r /\ length m' = length m.
Proof.
  intros Hlen Hout. rewrite !app_length in Hlen.
  exists (take (length m) (drop (length l1) v')). split.
  2:{ rewrite take_length, drop_length. lia. }
  apply list_eq. intros i.
  destruct (decide (i < length l1)) as [Hi|Hi].
  - rewrite Hout by lia. rewrite !lookup_app_l by done. done.
  - rewrite (lookup_app_r l1) by lia.
    destruct (decide (i < length l1 + length m)) as [Hi2|Hi2].
    + rewrite lookup_app_l by (rewrite take_length, drop_length; lia).
      rewrite lookup_take by lia. rewrite lookup_drop. f_equal. lia.
    + rewrite Hout by lia. rewrite (lookup_app_r l1) by lia.
      rewrite !lookup_app_r by (rewrite ?take_length, ?drop_length; lia).
      f_equal. rewrite take_length, drop_length. lia.
Qed.

Lemma quick_sort_spec fuel : forall l1 m r, length m < fuel ->
  sorts_segment (quick_sort test fuel) l1 m r false.
Proof.
  induction fuel as [|f IH]; intros l1 m r Hf; [lia|].
  unfold sorts_segment. cbn [quick_sort]. unfold sort_range_check.
  rewrite !bool_decide_false by (rewrite !app_length; lia). cbn [obind].
  replace (length l1 + length m - length l1) with (length m) by lia.
  unfold small_sort_size.
  destruct (decide (length m < 10)) as [Hs|Hs].
  - rewrite bool_decide_true by done.
    destruct (insertion_sort_spec l1 m r) as (m'&He&Hs'&Hp&_). exists m'. by split_and!.
  - rewrite bool_decide_false by done. rewrite bool_decide_true by lia.
    destruct (partition_spec (l1 ++ m ++ r) (length l1) (length l1 + length m))
      as (v'&mid&pivot&He&Hmid&Hlen&Hp&Hout&Hlo&Hhi); [lia|rewrite !app_length; lia|].
    rewrite He. cbn [obind].
    destruct (segment_agree l1 m r v' Hlen Hout) as (m1&->&Hlm1).
    apply Permutation_app_inv_l, Permutation_app_inv_r in Hp.
    assert (exists h, mid = length l1 + h) as [h ->] by (exists (mid - length l1); lia).
    rewrite <- (take_drop h m1).
    assert (length (take h m1) = h) as Hla by (rewrite take_length; lia).
    assert (length (drop h m1) = length m - h) as Hlb by (rewrite drop_length; lia).
    assert (forall x, x ∈ take h m1 -> le x pivot) as Ha.
    { intros x Hx. apply elem_of_list_lookup in Hx as [i Hi].
      assert (i < h) by (apply lookup_lt_Some in Hi; lia).
      apply (Hlo (length l1 + i) x); [lia|].
      rewrite lookup_app_r by lia. replace (_ + i - _) with i by lia.
      rewrite lookup_take in Hi by done. rewrite lookup_app_l; [done|]. lia. }
    assert (forall x, x ∈ drop h m1 -> le pivot x) as Hb.
    { intros x Hx. apply elem_of_list_lookup in Hx as [i Hi].
      assert (i < length m - h) by (apply lookup_lt_Some in Hi; lia).
      apply (Hhi (length l1 + (h + i)) x); [lia|].
      rewrite lookup_app_r by lia. replace (_ + _ - _) with (h + i) by lia.
      rewrite lookup_drop in Hi. rewrite lookup_app_l; [done|]. lia. }
    remember (take h m1) as a eqn:Hta. remember (drop h m1) as b eqn:Htb.
    assert (a ++ b = m1) as Hab by (subst; apply take_drop).
    destruct (IH l1 a (b ++ r)) as (a'&Hea&Hsa&Hpa&_); [lia|].
    destruct (IH (l1 ++ a') b r) as (b'&Heb&Hsb&Hpb&_); [lia|].
    assert (length a' = h) as Hla' by (by rewrite (Permutation_length Hpa)).
    rewrite <- app_assoc. rewrite Hla in Hea. rewrite Hea. cbn [obind].
    rewrite app_assoc. rewrite app_length in Heb.
    replace (length l1 + length m) with (length l1 + length a' + length b) by lia.
    replace (length l1 + h) with (length l1 + length a') by lia.
    rewrite Heb. exists (a' ++ b'). split_and!.
    + by rewrite <- !app_assoc.
    + apply SS_app. split_and!; [done|done|].
      intros x y Hx Hy. apply (le_trans _ pivot).
      * apply Ha. by rewrite <- Hpa.
      * apply Hb. by rewrite <- Hpb.
    + rewrite Hpa, Hpb, Hab. done.
    + done.
Qed.

Lemma sort_bang_spec stable v :
  exists v', sort_bang test stable v = Val v' /\ Permutation v' v /\ ordered test v'
    /\ (stable = true -> stable_rearrangement test v v').
Proof.
  unfold sort_bang. destruct stable.
  - destruct (merge_sort_spec (S (length v)) [] v []) as (v'&He&Hs&Hp&Hst); [lia|].
    cbn [length app Nat.add] in He. rewrite !app_nil_r in He.
    exists v'. split_and!; [done|done|by apply ordered_SS|done].
  - destruct (quick_sort_spec (S (length v)) [] v []) as (v'&He&Hs&Hp&Hst); [lia|].
    cbn [length app Nat.add] in He. rewrite !app_nil_r in He.
    exists v'. split_and!; [done|done|by apply ordered_SS|done].
Qed.

(** Sorting a sub-range touches nothing outside it. *)
Lemma quick_sort_range v s e : s <= e -> e <= length v ->
  exists v', quick_sort test (S (length v)) v s e = Val v' /\
    length v' = length v /\ Permutation v' v /\
    (forall i, ~ (s <= i < e) -> v' !! i = v !! i) /\
    ordered test (take (e - s) (drop s v')).
Proof.
  intros Hse He.
  assert (v = take s v ++ take (e - s) (drop s v) ++ drop e v) as Hv.
  { rewrite <- (take_drop s v) at 1. f_equal.
    rewrite <- (take_drop (e - s) (drop s v)) at 1. f_equal.
    rewrite drop_drop. f_equal. lia. }
  destruct (quick_sort_spec (S (length v)) (take s v) (take (e - s) (drop s v)) (drop e v))
    as (m'&Hq&Hs&Hp&_).
  { rewrite take_length, drop_length. lia. }
  rewrite <- Hv in Hq.
  rewrite take_length, (Nat.min_l s) in Hq by lia.
  rewrite take_length, drop_length, Nat.min_l in Hq by lia.
  replace (s + (e - s)) with e in Hq by lia.
  assert (length m' = e - s) as Hlm.
  { rewrite (Permutation_length Hp), take_length, drop_length. lia. }
  eexists. split; [exact Hq|]. split_and!.
  - rewrite !app_length, take_length, drop_length. lia.
  - rewrite Hp, <- Hv. done.
  - intros i Hi. rewrite Hv at 3. destruct (decide (i < s)).
    + rewrite !lookup_app_l by (rewrite take_length; lia). done.
    + rewrite !(lookup_app_r (take s v)) by (rewrite take_length; lia).
      rewrite take_length, (Nat.min_l s) by lia.
      rewrite !lookup_app_r by (rewrite ?take_length, ?drop_length; lia).
      f_equal. rewrite take_length, drop_length. lia.
  - rewrite drop_app_alt by (rewrite take_length; lia).
    rewrite take_app_alt by lia. by apply ordered_SS.
Qed.
End proofs.

Lemma bad_range_signals {A} (test : A -> A -> bool) fuel (v : list A) s e :
  length v < s \/ length v < e ->
  quick_sort test (S fuel) v s e = Signal "element-range-error"%string /\
  merge_sort test (S fuel) v s e = Signal "element-range-error"%string /\
  insertion_sort test v s e = Signal "element-range-error"%string.
Proof.
  intros H. cbn [quick_sort merge_sort]. unfold insertion_sort, sort_range_check.
  destruct (decide (length v < s)).
  - by rewrite bool_decide_true by done.
  - rewrite bool_decide_false by done. rewrite bool_decide_true by lia. done.
Qed.

Lemma swo_ltb : strict_weak_order Nat.ltb.
Proof. split; intros *; rewrite ?Nat.ltb_lt, ?Nat.ltb_ge; lia. Qed.

Lemma swo_ltb_fst : strict_weak_order (fun p q : nat * nat => Nat.ltb (fst p) (fst q)).
Proof. split; intros *; rewrite ?Nat.ltb_lt, ?Nat.ltb_ge; lia. Qed.
