(** C38: operations on lists compute the sequence functions, and only the
    destructive ones change the argument. *)
From stdpp Require Import list_numbers.
From Verif Require Import Base ListModel ListSpec ListProofs ListCutProofs ListCopyProofs ListSizeProofs.
From Coq Require Import ZifyBool ZifyNat.
Open Scope Z_scope.

(** In all theorems [fuel] may be any number larger than the number of cells of
    the heap: the loops make no more steps than that. *)
Lemma seg_bound h o xs cs e : is_pair e = false -> seg h o xs cs e -> (length xs <= length h)%nat.
Proof.
  intros He H. pose proof (seg_nodup _ _ _ _ _ He H) as Hn. rewrite (seg_length _ _ _ _ _ H).
  rewrite <- (seq_length (length h) 0). apply submseteq_length, NoDup_submseteq; [done|].
  intros a Ha. apply elem_of_seq. eapply seg_in in Ha as [_ Ha]; [|exact H]. lia.
Qed.
Lemma lst_bound h o xs cs : lst h o xs cs -> (length xs <= length h)%nat.
Proof. by apply seg_bound. Qed.

(** [size] terminates on every structure: a proper list has its length, a
    circular one #f, and any other is an error. *)
Theorem C38_size h l fuel :
  heap_ok h -> obj_ok h l -> is_list l = true -> (length h < fuel)%nat ->
  (exists xs, is_lst h l xs /\ list_size fuel h l = Val (Some (Z.of_nat (length xs)))) \/
  (circular h l /\ list_size fuel h l = Val None) \/
  (exists xs cs z, seg h l xs cs (OAtom z) /\ exists m, list_size fuel h l = Signal m).
Proof.
  intros Hh Hl Hil Hf. destruct (ends_or_circular h l Hh Hl) as [(xs & cs & e & Hs & He)|(Hc & k & Hk & Hkk)].
  - pose proof (seg_bound _ _ _ _ _ He Hs) as Hb. destruct e as [[|a]|z]; [|done|].
    + left. exists xs. split; [by exists cs|]. eapply list_size_proper; [exact Hs|lia].
    + right; right. exists xs, cs, z. split; [done|]. eexists. eapply list_size_improper; [exact Hs| |lia].
      intros ->. destruct cs; [|done]. cbn in Hs. by subst l.
  - right; left. split; [done|]. eapply list_size_circular; [done| |exact Hkk|]; lia.
Qed.
Print Assumptions C38_size.

(** [list], [make(<list>)]. *)
Theorem C38_make h xs n x :
  heap_ok h ->
  (exists o h', make_list h xs = (o, h') /\ is_lst h' o xs /\ unchanged h h') /\
  (exists o h', make_filled h n x = (o, h') /\ is_lst h' o (replicate (Z.to_nat n) x) /\ unchanged h h').
Proof.
  intros [H0 _]. assert (H1 : h !! 0%nat <> None) by congruence. split.
  - destruct (make_list_ok h xs H1) as (o & h' & ds & Hm & Hs & Hu & _). exists o, h'. split; [done|]. split; [by exists ds|done].
  - destruct (fill_loop_ok (Z.to_nat n) x h h nil [] []) as (o & h' & ds & Hm & Hs & Hu & _); try done; [constructor|].
    rewrite app_nil_r in Hs. exists o, h'. split; [done|]. split; [by exists ds|done].
Qed.
Print Assumptions C38_make.

(** [element]: the element, or the default, or an error without one. *)
Theorem C38_element h l xs key default fuel :
  is_lst h l xs -> (length h < fuel)%nat ->
  match (if key <? 0 then None else xs !! Z.to_nat key), default with
  | Some x, _ => element fuel h l key default = Val x
  | None, Some d => element fuel h l key default = Val d
  | None, None => exists m, element fuel h l key default = Signal m
  end.
Proof.
  intros [cs Hl] Hf. pose proof (lst_bound _ _ _ _ Hl). unfold element.
  destruct (Z.ltb_spec key 0) as [Hk|Hk]; [destruct default; [done|by eexists]|].
  rewrite (element_loop_ok xs fuel h l cs nil key default 0) by (done || lia). rewrite Z.sub_0_r.
  destruct (xs !! Z.to_nat key); [done|]. destruct default; [done|by eexists].
Qed.
Print Assumptions C38_element.

(** [element-setter] changes one element, in place, and nothing else. *)
Theorem C38_element_setter h l xs cs key v fuel :
  lst h l xs cs -> (length h < fuel)%nat ->
  if decide (0 <= key < Z.of_nat (length xs)) then
    exists h' c t x, element_setter fuel h v l key = Val h' /\
      lst h' l (<[Z.to_nat key := v]> xs) cs /\
      cs !! Z.to_nat key = Some c /\ h !! c = Some (x, t) /\ h' = <[c := (v, t)]> h
  else exists m, element_setter fuel h v l key = Signal m.
Proof.
  intros Hl Hf. pose proof (lst_bound _ _ _ _ Hl). unfold element_setter. destruct (decide _) as [Hk|Hk].
  - rewrite (element_setter_loop_ok xs fuel h l cs nil key v 0) by (done || lia). rewrite Z.sub_0_r.
    destruct (lookup_lt_is_Some_2 xs (Z.to_nat key)) as [x Hx]; [lia|].
    destruct (seg_lookup _ _ _ _ _ _ _ Hl Hx) as (c & t & Hc & Ht). rewrite Hc, (set_head_val _ _ _ _ _ Ht).
    eexists _, c, t, x. split; [reflexivity|]. split; [|done]. eapply seg_set_head; try done.
    exact (seg_nodup _ _ _ _ _ (eq_refl : is_pair nil = false) Hl).
  - destruct (decide (key < 0)) as [Hn|Hn].
    + rewrite (element_setter_negative xs fuel h l cs nil key v 0) by (done || lia). by eexists.
    + rewrite (element_setter_loop_ok xs fuel h l cs nil key v 0) by (done || lia). rewrite Z.sub_0_r.
      rewrite (proj2 (lookup_ge_None cs (Z.to_nat key))); [by eexists|]. rewrite <- (seg_length _ _ _ _ _ Hl). lia.
Qed.
Print Assumptions C38_element_setter.

(** [member?], with any test. *)
Theorem C38_member h l xs v test fuel :
  is_lst h l xs -> (length h < fuel)%nat ->
  exists b, member fuel h v l test = Val b /\
    (b = true <-> exists x, x ∈ xs /\ match test with None => v = x | Some t => t v x = true end).
Proof.
  intros [cs Hl] Hf. pose proof (lst_bound _ _ _ _ Hl). eexists. split; [eapply member_ok; [done|lia]|].
  rewrite existsb_exists. split; intros (x & Hx & Ht); exists x; (split; [by apply elem_of_list_In|]).
  - destruct test; [done|]. cbn in Ht. unfold same in Ht. by apply bool_decide_eq_true in Ht.
  - destruct test; [done|]. cbn. unfold same. by apply bool_decide_eq_true.
Qed.
Print Assumptions C38_member.

(** [add-new]: the list itself when an equal element is there. *)
Theorem C38_add_new h l xs v test fuel :
  heap_ok h -> is_lst h l xs -> (length h < fuel)%nat ->
  exists o h', add_new fuel h l v test = Val (o, h') /\ unchanged h h' /\
    ((exists x, x ∈ xs /\ test v x = true) /\ o = l \/
     (forall x, x ∈ xs -> test v x = false) /\ is_lst h' o (v :: xs)).
Proof.
  intros [H0 _] [cs Hl] Hf. pose proof (lst_bound _ _ _ _ Hl). unfold add_new.
  rewrite (xmember_ok test v xs fuel h l cs nil) by (done || lia). cbn [obind].
  destruct (existsb (test v) xs) eqn:E.
  - exists l, h. split; [done|]. split; [apply unchanged_refl|]. left. apply existsb_exists in E as (x & Hx & Ht).
    split; [|done]. exists x. split; [by apply elem_of_list_In|done].
  - exists (OList (length h)), (h ++ [(v, l)]). split; [done|]. split; [apply unchanged_pair|]. right. split.
    + intros x Hx. destruct (test v x) eqn:Et; [|done].
      assert (existsb (test v) xs = true); [|congruence]. apply existsb_exists. exists x. split; [by apply elem_of_list_In|done].
    + exists (length h :: cs). apply pair_seg; [congruence|done].
Qed.
Print Assumptions C38_add_new.

(** [remove] and [remove!] leave out the first [count:] elements that pass the
    test; [remove] leaves the argument alone, [remove!] changes only its tails
    and makes the result of its pairs. *)
Theorem C38_remove h l xs v test count fuel :
  heap_ok h -> is_lst h l xs -> (forall n, count = Some n -> 0 <= n) -> (length h < fuel)%nat ->
  exists o h', remove fuel h l v test count = Val (o, h') /\
    is_lst h' o (without (fun x => test x v) (option_map Z.to_nat count) xs) /\ unchanged h h'.
Proof.
  intros [H0 _] [cs Hl] Hc Hf. pose proof (lst_bound _ _ _ _ Hl).
  destruct (remove_ok test v count fuel h l xs cs) as (o & h' & ds & Hr & Hs & Hu); try done; [congruence|lia|].
  exists o, h'. split; [done|]. split; [|done]. exists ds. by destruct count.
Qed.
Print Assumptions C38_remove.

Theorem C38_remove_bang h l xs cs v test count fuel :
  heap_ok h -> lst h l xs cs -> (forall n, count = Some n -> 0 <= n) -> (length h < fuel)%nat ->
  exists o h' ds, remove_bang fuel h l v test count = Val (o, h') /\
    lst h' o (without (fun x => test x v) (option_map Z.to_nat count) xs) ds /\
    ds `sublist_of` cs /\ only_tails cs h h'.
Proof.
  intros [H0 _] Hl Hc Hf. pose proof (lst_bound _ _ _ _ Hl).
  destruct (remove_bang_ok test v count fuel h l xs cs) as (o & h' & ds & Hr & Hs & Hu); try done; [lia|].
  exists o, h', ds. split; [done|]. split; [|done]. by destruct count.
Qed.
Print Assumptions C38_remove_bang.

(** A negative count is an error. *)
Theorem C38_remove_negative h l v test n fuel :
  n < 0 -> (exists m, remove fuel h l v test (Some n) = Signal m) /\
  exists m, remove_bang fuel h l v test (Some n) = Signal m.
Proof.
  intros Hn. unfold remove, remove_bang, check_count.
  destruct (Z.leb_spec 0 n); [lia|]. cbn. split; by eexists.
Qed.
Print Assumptions C38_remove_negative.

(** [add] (and [add!]) puts the element in front, and shares the rest. *)
Theorem C38_add h l xs v :
  heap_ok h -> is_lst h l xs ->
  exists o h', add h l v = (o, h') /\ is_lst h' o (v :: xs) /\ unchanged h h' /\ tail h' o = Val l.
Proof.
  intros [H0 _] [cs Hl]. eexists _, _. split; [reflexivity|].
  assert (Hp := pair_seg h v l xs cs nil ltac:(congruence) Hl).
  split; [by eexists|]. split; [apply unchanged_pair|].
  eapply tail_val. by rewrite lookup_app_r, Nat.sub_diag by lia.
Qed.
Print Assumptions C38_add.

(** Without a count, what is left out is what passes the test. *)
Lemma without_all p xs : without p None xs = List.filter (fun x => negb (p x)) xs.
Proof. induction xs as [|x xs IH]; [done|]. cbn. destruct (p x); cbn; by rewrite IH. Qed.

(** [remove-duplicates] and [remove-duplicates!] keep the last of equal
    elements. *)
Theorem C38_remove_duplicates h l xs cs test fuel :
  heap_ok h -> lst h l xs cs -> (length h < fuel)%nat ->
  (exists o h', remove_duplicates fuel h l test = Val (o, h') /\
     is_lst h' o (last_occurrences (apply_test test) xs) /\ unchanged h h') /\
  (exists o h' ds, remove_duplicates_bang fuel h l test = Val (o, h') /\
     lst h' o (last_occurrences (apply_test test) xs) ds /\ ds `sublist_of` cs /\ only_tails cs h h').
Proof.
  intros [H0 _] Hl Hf. pose proof (lst_bound _ _ _ _ Hl). split.
  - destruct (remove_duplicates_ok test fuel h l xs cs) as (o & h' & ds & Hr & Hs & Hu); try done; [congruence|lia|].
    exists o, h'. split; [done|]. split; [by exists ds|done].
  - apply remove_duplicates_bang_ok; [done|lia].
Qed.
Print Assumptions C38_remove_duplicates.

(** With [==], the result has the same elements, each once. *)
Theorem C38_remove_duplicates_set xs :
  NoDup (last_occurrences (apply_test None) xs) /\
  forall x, x ∈ last_occurrences (apply_test None) xs <-> x ∈ xs.
Proof.
  assert (E : forall y ys, existsb (apply_test None y) ys = true <-> y ∈ ys).
  { intros y ys. rewrite existsb_exists. split.
    - intros (z & Hz & Ht). cbn in Ht. unfold same in Ht. apply bool_decide_eq_true in Ht as <-. by apply elem_of_list_In.
    - intros Hy. exists y. split; [by apply elem_of_list_In|]. cbn. unfold same. by apply bool_decide_eq_true. }
  induction xs as [|x xs [IH1 IH2]]; cbn [last_occurrences]; [by split; [constructor|]|].
  destruct (existsb (apply_test None x) xs) eqn:Ex.
  - apply E in Ex. split; [done|]. intros y. rewrite IH2, elem_of_cons. split; [by right|].
    intros [-> |H]; done.
  - assert (x ∉ xs) as Hx by (intros Hx; apply E in Hx; congruence). split.
    + constructor; [by rewrite IH2|done].
    + intros y. rewrite !elem_of_cons, IH2. done.
Qed.
Print Assumptions C38_remove_duplicates_set.

(** [last] and [last-setter]. *)
Theorem C38_last h l xs cs default v fuel :
  lst h l xs cs -> (length h < fuel)%nat ->
  match list.last xs, default with
  | Some x, _ => last fuel h l default = Val x
  | None, Some d => last fuel h l default = Val d
  | None, None => exists m, last fuel h l default = Signal m
  end /\
  match list.last xs with
  | Some _ => exists h' c x t, last_setter fuel h v l = Val h' /\
      lst h' l (<[pred (length xs) := v]> xs) cs /\ list.last cs = Some c /\ h !! c = Some (x, t) /\
      h' = <[c := (v, t)]> h
  | None => exists m, last_setter fuel h v l = Signal m
  end.
Proof.
  intros Hl Hf. pose proof (lst_bound _ _ _ _ Hl). unfold last, last_setter.
  destruct xs as [|x xs].
  - unfold lst in Hl. seg_inv Hl. cbn. split; [|by eexists]. destruct default; [done|by eexists].
  - assert (is_nil l = false) as ->.
    { destruct cs; [by destruct Hl|]. destruct Hl as (-> & Hc & _). by apply is_nil_S. }
    destruct (last_loop_ok (x :: xs) fuel h l cs nil) as (z & Hz & ->); try done; [lia|]. rewrite Hz. split; [done|].
    destruct (last_setter_loop_ok v (x :: xs) fuel h l cs Hl) as (c & Hc & ->); [done|lia|].
    assert (Hlen := seg_length _ _ _ _ _ Hl).
    rewrite last_lookup in Hz. destruct (seg_lookup _ _ _ _ _ _ _ Hl Hz) as (c' & t & Hc' & Ht).
    rewrite Hlen, <- last_lookup in Hc'. assert (c' = c) as -> by congruence.
    rewrite (set_head_val _ _ _ _ _ Ht). eexists _, c, z, t. split; [reflexivity|]. split; [|done].
    rewrite last_lookup, <- Hlen in Hc.
    eapply seg_set_head; try done. exact (seg_nodup _ _ _ _ _ (eq_refl : is_pair nil = false) Hl).
Qed.
Print Assumptions C38_last.

(** [reverse] and [reverse!]; both ignore what an improper list ends with. *)
Theorem C38_reverse h l xs cs e fuel :
  heap_ok h -> seg h l xs cs e -> is_pair e = false -> (length h < fuel)%nat ->
  (exists o h', reverse fuel h l = Val (o, h') /\ is_lst h' o (rev xs) /\ unchanged h h') /\
  (exists o h', reverse_bang fuel h l = Val (o, h') /\ lst h' o (rev xs) (rev cs) /\
     only_tails cs h h' /\ length h' = length h).
Proof.
  intros [H0 _] Hl He Hf. pose proof (seg_bound _ _ _ _ _ He Hl). split.
  - destruct (reverse_loop_ok xs fuel h h l cs e nil [] []) as (o & h' & ds & Hr & Hs & Hu & _);
      try done; [congruence|constructor|lia|].
    rewrite app_nil_r in Hs. exists o, h'. split; [done|]. split; [by exists ds|done].
  - destruct (reverse_bang_loop_ok xs fuel h l cs e nil [] []) as (o & h' & Hr & Hs & Ho & Hln); try done; [|lia|].
    { intros a _ Ha. by apply elem_of_nil in Ha. }
    rewrite !app_nil_r in Hs. exists o, h'. done.
Qed.
Print Assumptions C38_reverse.

(** [copy-sequence] with [start:] and [end:]. *)
Theorem C38_copy_sequence h l xs first last fuel :
  heap_ok h -> is_lst h l xs -> (length h < fuel)%nat ->
  let e := match last with Some e => e | None => Z.of_nat (length xs) end in
  if decide (0 <= first <= e /\ e <= Z.of_nat (length xs)) then
    exists o h' ds, copy_sequence fuel h l first last = Val (o, h') /\
      lst h' o (take (Z.to_nat (e - first)) (drop (Z.to_nat first) xs)) ds /\
      unchanged h h' /\ Forall (fun c => length h <= c)%nat ds
  else exists m, copy_sequence fuel h l first last = Signal m.
Proof.
  intros [H0 _] [cs Hl] Hf e. pose proof (lst_bound _ _ _ _ Hl).
  apply (copy_sequence_ok fuel h l xs cs first last); [congruence|done|lia].
Qed.
Print Assumptions C38_copy_sequence.

(** [concatenate] of any number of lists. *)
Theorem C38_concatenate h l xs ls xss fuel :
  heap_ok h -> is_lst h l xs -> Forall2 (is_lst h) ls xss -> (length h < fuel)%nat ->
  exists o h', concatenate fuel h l ls = Val (o, h') /\ is_lst h' o (xs ++ concat xss) /\ unchanged h h'.
Proof.
  intros [H0 _] Hl Hls Hf. apply concatenate_ok; [congruence|done|done|]. constructor.
  - destruct Hl as [cs Hl]. apply lst_bound in Hl. lia.
  - eapply Forall2_Forall_r; [exact Hls|]. apply Forall_forall. intros a _ ys [cs Hy]. apply lst_bound in Hy. lia.
Qed.
Print Assumptions C38_concatenate.

(** [map] and [reduce]. *)
Theorem C38_map_reduce {R} h l xs (f : obj -> obj) (g : R -> obj -> R) (r : R) fuel :
  heap_ok h -> is_lst h l xs -> (length h < fuel)%nat ->
  (exists o h', map_list fuel h f l = Val (o, h') /\ is_lst h' o (map f xs) /\ unchanged h h') /\
  reduce fuel h g r l = Val (fold_left g xs r).
Proof.
  intros [H0 _] [cs Hl] Hf. pose proof (lst_bound _ _ _ _ Hl). split.
  - destruct (map_list_ok f fuel h l xs cs) as (o & h' & ds & Hm & Hs & Hu & _); [congruence|done|lia|].
    exists o, h'. split; [done|]. split; [by exists ds|done].
  - eapply reduce_ok; [done|lia].
Qed.
Print Assumptions C38_map_reduce.

(** [current-key] of the iteration state at position [i]. *)
Theorem C38_current_key h l xs cs i c fuel :
  lst h l xs cs -> cs !! i = Some c -> (length h < fuel)%nat ->
  current_key fuel h (OList c) l 0 = Val (Z.of_nat i).
Proof.
  intros Hl Hc Hf. pose proof (lst_bound _ _ _ _ Hl). by rewrite (current_key_ok xs fuel h l cs i c 0) by (done || lia).
Qed.
Print Assumptions C38_current_key.

(** [=] on finite structures of pairs says whether they are the same tree. *)
Theorem C38_equal h o1 o2 t1 t2 fuel :
  is_tree h o1 t1 -> is_tree h o2 t2 -> (depth t1 <= fuel)%nat -> (depth t2 <= fuel)%nat ->
  exists b, equal fuel h o1 o2 = Val b /\ (b = true <-> t1 = t2).
Proof.
  intros H1 H2 D1 D2. eexists. split; [by apply equal_ok|]. apply bool_decide_eq_true.
Qed.
Print Assumptions C38_equal.

(** [replace-subsequence!] inside the bounds, when the pair before the hole is
    not one of those of the inserted list; only that pair changes. *)
Theorem C38_replace_subsequence_partial h target xs cs insert ys is start last fuel :
  heap_ok h -> lst h target xs cs -> lst h insert ys is ->
  let e := default (start + Z.of_nat (length ys)) last in
  let changed := match Z.to_nat start with O => [] | S k => option_list (cs !! k) end in
  0 <= start <= e -> e <= Z.of_nat (length xs) ->
  (forall c, c ∈ changed -> c ∉ is) -> (length h + length h < fuel)%nat ->
  exists o h', replace_subsequence_bang fuel h target insert start last = Val (o, h') /\
    is_lst h' o (take (Z.to_nat start) xs ++ ys ++ drop (Z.to_nat e) xs) /\ only_tails changed h h'.
Proof.
  intros [H0 _] Ht Hi e changed Hs He Hd Hf. pose proof (lst_bound _ _ _ _ Ht). pose proof (lst_bound _ _ _ _ Hi).
  destruct (replace_ok fuel h target xs cs insert ys is start last) as (o & h' & ds & Hr & Hl & Ho);
    [congruence|done|done|done|done| |lia|].
  - intros a Ha Hb. by apply (Hd a).
  - exists o, h'. split; [done|]. split; [by exists ds|done].
Qed.
Print Assumptions C38_replace_subsequence_partial.

(** Outside the bounds it corrupts the empty list: in [replace-subsequence!(#(),
    list(5), start: 1)] the pair "before the hole" is the empty list itself,
    whose tail is set.  After that [remove!(list(5, 6), 5, count: 1)] is #()
    instead of [#(6)]. *)
Definition broken_heap : heap := [(nil, nil); (OAtom 5, nil); (OAtom 6, nil); (OAtom 5, OList 2)].
Theorem C38_replace_past_end_refuted :
  heap_ok broken_heap /\ is_lst broken_heap (OList 1) [OAtom 5] /\
  is_lst broken_heap (OList 3) [OAtom 5; OAtom 6] /\
  remove_bang 9 broken_heap (OList 3) (OAtom 5) same (Some 1) = Val (OList 2, broken_heap) /\
  exists o h', replace_subsequence_bang 9 broken_heap nil (OList 1) 1 None = Val (o, h') /\
    h' !! 0%nat <> Some (nil, nil) /\
    exists h'', remove_bang 9 h' (OList 3) (OAtom 5) same (Some 1) = Val (nil, h'').
Proof.
  split; [|split; [|split; [|split]]].
  - split; [done|]. intros [|[|[|[|a]]]] x t; cbn; intros [= <- <-]; cbn; lia.
  - exists [1%nat]. cbn. eauto 10.
  - exists [3; 2]%nat. cbn. eauto 10.
  - vm_compute; reflexivity.
  - eexists _, _. split; [vm_compute; reflexivity|]. split; [done|]. eexists. vm_compute; reflexivity.
Qed.
Print Assumptions C38_replace_past_end_refuted.

(** With [end:] before [start:] it does not return. *)
Theorem C38_replace_bounds_refuted fuel :
  replace_subsequence_bang fuel [(nil, nil); (OAtom 7, nil)] (OList 1) nil 1 (Some 0) = NoFuel.
Proof.
  unfold replace_subsequence_bang. cbn [pair length app].
  change (advance (Z.to_nat 1) [(nil, nil); (OAtom 7, nil); (OAtom 0, OList 1)] (OList 2)) with (Val (OList 1)).
  cbn [obind]. change (tail [(nil, nil); (OAtom 7, nil); (OAtom 0, OList 1)] (OList 1)) with (Val nil). cbn [obind].
  assert (H : forall i, 0 < i -> find_hole fuel [(nil, nil); (OAtom 7, nil); (OAtom 0, OList 1)] nil i 0 = NoFuel).
  { induction fuel as [|f IH]; intros i Hi; [done|]. cbn [find_hole]. destruct (Z.eqb_spec i 0); [lia|].
    change (tail [(nil, nil); (OAtom 7, nil); (OAtom 0, OList 1)] nil) with (Val nil). cbn [obind]. apply IH. lia. }
  by rewrite H by lia.
Qed.
Print Assumptions C38_replace_bounds_refuted.

(** When the inserted list is the list itself, it does not return either. *)
Theorem C38_replace_self_refuted fuel :
  replace_subsequence_bang fuel [(nil, nil); (OAtom 7, nil)] (OList 1) (OList 1) 1 (Some 1) = NoFuel.
Proof.
  assert (H : forall f h a c, h !! S a = Some c -> insert_loop f h (OList (S a)) (OList (S a)) = NoFuel).
  { induction f as [|f IH]; intros h a [x t] Ha; [done|]. cbn [insert_loop is_nil].
    rewrite (head_val _ _ _ _ Ha). cbn [obind pair].
    assert (Hl : (S a < length h)%nat) by (by apply lookup_lt_Some in Ha).
    assert (Ha' : (h ++ [(x, OAtom 0)]) !! S a = Some (x, t)) by (by rewrite lookup_app_l).
    rewrite (set_tail_val _ _ _ _ _ Ha'). cbn [obind].
    erewrite tail_val by (apply list_lookup_insert; rewrite app_length; lia). cbn [obind check_list is_list].
    destruct (length h) as [|n] eqn:E; [lia|]. apply (IH _ _ (x, OAtom 0)).
    rewrite list_lookup_insert_ne by lia. rewrite <- E. by rewrite lookup_app_r, Nat.sub_diag by lia. }
  destruct fuel as [|f]; [done|]. unfold replace_subsequence_bang. cbn [pair length app].
  change (advance (Z.to_nat 1) [(nil, nil); (OAtom 7, nil); (OAtom 0, OList 1)] (OList 2)) with (Val (OList 1)).
  cbn [obind]. change (tail [(nil, nil); (OAtom 7, nil); (OAtom 0, OList 1)] (OList 1)) with (Val nil). cbn [obind].
  change (find_hole (S f) [(nil, nil); (OAtom 7, nil); (OAtom 0, OList 1)] nil 1 1) with (Val nil). cbn [obind].
  rewrite (H (S f) _ 0%nat (OAtom 7, nil)); done.
Qed.
Print Assumptions C38_replace_self_refuted.

Local Ltac lst_tac := cbn; repeat (split; [done|]; split; [done|]; eexists; split; [reflexivity|]); done.
(** A heap with a proper list that shares its end with another, a circular
    list and an improper one. *)
Definition demo_heap : heap :=
  [(nil, nil); (OAtom 3, nil); (OAtom 2, OList 1); (OAtom 3, OList 2); (OAtom 9, OList 2);
   (OAtom 1, OList 6); (OAtom 2, OList 7); (OAtom 3, OList 6); (OAtom 4, OAtom 5)].
Example C38_ex :
  heap_ok demo_heap /\ is_lst demo_heap (OList 3) [OAtom 3; OAtom 2; OAtom 3] /\
  list_size 10 demo_heap (OList 3) = Val (Some 3) /\
  list_size 10 demo_heap (OList 5) = Val None /\
  (exists m, list_size 10 demo_heap (OList 8) = Signal m) /\
  (exists o h', remove 10 demo_heap (OList 3) (OAtom 3) same (Some 1) = Val (o, h') /\
     is_lst h' o [OAtom 2; OAtom 3] /\ o = OList 2) /\
  (exists o h', remove_bang 10 demo_heap (OList 3) (OAtom 3) same None = Val (o, h') /\
     is_lst h' o [OAtom 2] /\ is_lst h' (OList 4) [OAtom 9; OAtom 2]) /\
  (exists o h', replace_subsequence_bang 20 demo_heap (OList 3) (OList 4) 1 (Some 2) = Val (o, h') /\
     is_lst h' o [OAtom 3; OAtom 9; OAtom 2; OAtom 3; OAtom 3]).
Proof.
  split.
  { split; [done|]. intros a x t Ha. do 9 (destruct a as [|a]; [cbn in Ha; injection Ha as <- <-; cbn; lia|]). done. }
  split; [by exists [3; 2; 1]%nat; lst_tac|].
  split; [done|]. split; [done|]. split; [by eexists|].
  split; [eexists _, _; split; [vm_compute; reflexivity|]; split; [exists [2; 1]%nat; lst_tac|done]|].
  split; [eexists _, _; split; [vm_compute; reflexivity|]; split; [exists [2]%nat; lst_tac|exists [4; 2]%nat; lst_tac]|].
  eexists _, _; split; [vm_compute; reflexivity|]. eexists [3; 10; 11; 12; 1]%nat. lst_tac.
Qed.
