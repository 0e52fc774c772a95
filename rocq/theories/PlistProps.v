(** Properties of property lists (C64). *)
From Coq Require Import ZifyBool ZifyNat ZifyN Lia.
From Verif Require Import Base ListModel ListSpec ListProofs ListCopyProofs ListSizeProofs ListProps PlistModel PlistSpec PlistProofs.
Local Open Scope Z_scope.
Local Open Scope outcome_scope.

(** *** get-property: the value of the first pair with the indicator, or the default *)
Theorem C64_get_list h l ps k d fuel : heap_ok h -> is_lst h l (flat ps) -> (length h < fuel)%nat ->
  get_property_list fuel h l k d = Val (default d (lookup_prop ps k)).
Proof.
  intros _ [cs Hl] Hf. eapply get_property_list_ok; [exact Hl|]. apply lst_bound in Hl. rewrite flat_length in Hl. lia.
Qed.
Print Assumptions C64_get_list.

Theorem C64_get_vector ps k d : get_property_vec (flat ps) k d = Val (default d (lookup_prop ps k)).
Proof.
  unfold get_property_vec. rewrite check_even_flat. cbn [obind]. apply (get_loop_vec_ok k d ps (S (length (flat ps))) []). rewrite flat_length. lia.
Qed.
Print Assumptions C64_get_vector.

(** *** put-property!: the first pair is changed, or a pair is added at the end; no other object is changed *)
Theorem C64_put_list h l ps cs k v fuel : heap_ok h -> lst h l (flat ps) cs -> (length h + 2 < fuel)%nat ->
  exists r h', put_property_list fuel h l k v = Val (r, h') /\ is_lst h' r (flat (set_prop ps k v)) /\ only_pairs cs h h' /\ (ps <> [] -> r = l).
Proof.
  intros [H0 _] Hl Hf. pose proof (lst_bound _ _ _ _ Hl) as Hb. pose proof (seg_nodup _ _ _ _ nil eq_refl Hl) as Hn. rewrite flat_length in Hb.
  pose proof (put_loop_list_ok k v ps fuel h l cs Hn Hl ltac:(lia)) as Hput. unfold put_property_list. destruct (lookup_prop ps k) eqn:El.
  - destruct Hput as (h' & R & S & O & L). rewrite R. cbn [obind]. exists l, h'. split; [done|]. split; [by exists cs|]. done.
  - rewrite Hput. cbn [obind]. destruct (make_list_ok h [k; v]) as (o & h1 & ds & Em & Sm & Um & Fm); [congruence|]. rewrite Em.
    assert (Hl1 : lst h1 l (flat ps) cs) by (by eapply unchanged_seg).
    destruct (concatenate_bang_ok fuel [o] [[k; v]] [ds] h1 l (flat ps) cs) as (r & h2 & R & S & O & L).
    + constructor; [done|constructor].
    + done.
    + cbn [concat]. rewrite app_nil_r. apply NoDup_app. split; [done|]. split; [|exact (seg_nodup _ _ _ _ nil eq_refl Sm)].
      intros a H1 H2. by apply (fresh_disjoint h l (flat ps) cs nil ds Hl Fm a).
    + rewrite flat_length. lia.
    + constructor; [cbn; lia|constructor].
    + rewrite R. exists r, h2. destruct L as [L Hr]. split; [done|]. split; [|split].
      * rewrite set_prop_none, flat_app by done. by eexists.
      * destruct Um as [new ->]. destruct O as (O1 & O2 & _). rewrite app_length in *. split; [lia|]. intros a Ha Hna.
        rewrite O2; [by rewrite lookup_app_l by done|lia|]. cbn [concat]. rewrite app_nil_r, not_elem_of_app. split; [done|].
        intros Hin. unfold fresh in Fm. rewrite Forall_forall in Fm. specialize (Fm a Hin). lia.
      * intros Hne. apply Hr. destruct ps as [|[? ?] ?]; done.
Qed.
Print Assumptions C64_put_list.

(** In a vector; a vector of fixed size to which a pair must be added is left alone, and a new one is returned. *)
Theorem C64_put_vector stretchy ps k v : exists after,
  put_property_vec stretchy (flat ps) k v = Val (after, flat (set_prop ps k v)) /\
  after = if stretchy || bool_decide (k ∈ ps.*1) then flat (set_prop ps k v) else flat ps.
Proof.
  unfold put_property_vec. rewrite check_even_flat. cbn [obind].
  assert (E : put_loop_vec (S (length (flat ps))) (flat ps) k v 0 = Val (match lookup_prop ps k with Some _ => Some (flat (set_prop ps k v)) | None => None end)).
  { apply (put_loop_vec_ok k v ps (S (length (flat ps))) []). rewrite flat_length. lia. }
  rewrite E. cbn [obind]. destruct (lookup_prop ps k) eqn:El.
  - eexists. split; [reflexivity|]. rewrite bool_decide_true; [by rewrite orb_true_r|].
    destruct (decide (k ∈ ps.*1)) as [|Hn]; [done|]. apply lookup_prop_None in Hn. congruence.
  - rewrite (set_prop_none ps k v El), flat_app. eexists. split; [reflexivity|]. apply lookup_prop_None in El.
    rewrite bool_decide_false by done. rewrite orb_false_r. done.
Qed.
Print Assumptions C64_put_vector.

(** What get-property gives afterwards, in a list and in a vector. *)
Theorem C64_put_get_list h l ps k v fuel : heap_ok h -> is_lst h l (flat ps) -> (length h + 2 < fuel)%nat ->
  exists r h', put_property_list fuel h l k v = Val (r, h') /\
    forall k' d fuel', (length h + 2 < fuel')%nat -> get_property_list fuel' h' r k' d = Val (if decide (k = k') then v else default d (lookup_prop ps k')).
Proof.
  intros Hh [cs Hl] Hf. destruct (C64_put_list h l ps cs k v fuel Hh Hl Hf) as (r & h' & R & [cs' S] & _). exists r, h'. split; [done|]. intros k' d fuel' Hf'.
  rewrite (get_property_list_ok k' d (set_prop ps k v) fuel' h' r cs' S).
  - rewrite lookup_set. by destruct (decide _).
  - apply lst_bound in Hl. rewrite flat_length in Hl. pose proof (f_equal length (set_prop_keys ps k v)) as E. rewrite fmap_length in E.
    destruct (decide _); rewrite ?app_length, fmap_length in E; cbn in E; lia.
Qed.
Print Assumptions C64_put_get_list.

Theorem C64_put_get_vector stretchy ps k v k' d :
  (do ' (_, r) <- put_property_vec stretchy (flat ps) k v ; get_property_vec r k' d) = Val (if decide (k = k') then v else default d (lookup_prop ps k')).
Proof.
  destruct (C64_put_vector stretchy ps k v) as (after & -> & _). cbn [obind]. rewrite C64_get_vector, lookup_set. by destruct (decide _).
Qed.
Print Assumptions C64_put_get_vector.

(** *** remove-property! *)
(** In a list, the first pair goes and its value is returned; no object but the tails of the list changes. *)
Theorem C64_remove_list h l ps cs k fuel : heap_ok h -> lst h l (flat ps) cs -> (length h < fuel)%nat ->
  exists r h', remove_property_list fuel h l k = Val (default fls (lookup_prop ps k), r, h') /\
    is_lst h' r (flat (remove_first ps k)) /\ only_tails cs h h' /\ length h' = length h.
Proof.
  intros _ Hl Hf. pose proof (lst_bound _ _ _ _ Hl) as Hb. rewrite flat_length in Hb.
  destruct (remove_loop_list_ok k l ps fuel h [] [] l cs None) as (r & h' & cs' & R & S & _ & O & L); try done.
  - exact (seg_nodup _ _ _ _ nil eq_refl Hl).
  - lia.
  - by left.
  - exists r, h'. split; [exact R|]. split; [by exists cs'|]. done.
Qed.
Print Assumptions C64_remove_list.

(** In a vector, all pairs with the indicator go and the value of the last one is returned. *)
Theorem C64_remove_vector ps k :
  remove_property_stretchy (flat ps) k = Val (default fls (lookup_prop (rev ps) k), flat (others k ps)) /\
  remove_property_simple (flat ps) k = Val (default fls (lookup_prop (rev ps) k), flat (others k ps)).
Proof. split; [apply remove_stretchy_spec|apply remove_simple_ok]. Qed.
Print Assumptions C64_remove_vector.

(** If no indicator occurs twice, all three remove it, return its value and leave the other pairs. *)
Theorem C64_remove_partial h l ps k fuel : heap_ok h -> is_lst h l (flat ps) -> (length h < fuel)%nat -> unique ps ->
  (exists r h', remove_property_list fuel h l k = Val (default fls (lookup_prop ps k), r, h') /\ is_lst h' r (flat (others k ps))) /\
  remove_property_stretchy (flat ps) k = Val (default fls (lookup_prop ps k), flat (others k ps)) /\
  remove_property_simple (flat ps) k = Val (default fls (lookup_prop ps k), flat (others k ps)).
Proof.
  intros Hh [cs Hl] Hf Hu. destruct (C64_remove_list h l ps cs k fuel Hh Hl Hf) as (r & h' & R & S & _). rewrite unique_remove in S by done.
  destruct (C64_remove_vector ps k) as [-> ->]. rewrite unique_rev by done. split; [by exists r, h'|done].
Qed.
Print Assumptions C64_remove_partial.

(** So it is for whatever put-property! and remove-property! make of an empty property list. *)
Theorem C64_unique ps k v : unique [] /\ (unique ps -> unique (set_prop ps k v) /\ unique (others k ps)).
Proof.
  split; [apply NoDup_nil_2|]. intros H. split; [by apply set_prop_unique|]. unfold unique in *. induction ps as [|[k0 w] ps IH]; [done|].
  rewrite fmap_cons in H. apply NoDup_cons in H as [H1 H2]. unfold others. destruct (decide (k0 = k)) as [->|Hne].
  - rewrite filter_cons_False by (cbn; tauto). by apply IH.
  - rewrite filter_cons_True by done. rewrite fmap_cons. apply NoDup_cons. split; [|by apply IH].
    intros ([k1 w1] & Ek & Hin)%elem_of_list_fmap. apply elem_of_list_filter in Hin as [_ Hin]. apply H1. rewrite Ek. by apply (elem_of_list_fmap_1 fst) in Hin.
Qed.
Print Assumptions C64_unique.

Theorem C64_remove_get ps k k' : lookup_prop (others k ps) k' = if decide (k = k') then None else lookup_prop ps k'.
Proof. apply lookup_others. Qed.
Print Assumptions C64_remove_get.

(** But with the arguments of a call, where an indicator may be repeated, a list keeps the indicator and a vector gives a
    value other than that which get-property gave. *)
Definition repeated : props := [(OAtom 1, OAtom 10); (OAtom 1, OAtom 11)].
Theorem C64_remove_refuted :
  (let '(l, h) := make_list initial_heap (flat repeated) in
   exists value r h', remove_property_list 9 h l (OAtom 1) = Val (value, r, h') /\ get_property_list 9 h' r (OAtom 1) fls = Val (OAtom 11)) /\
  get_property_vec (flat repeated) (OAtom 1) fls = Val (OAtom 10) /\
  remove_property_simple (flat repeated) (OAtom 1) = Val (OAtom 11, []) /\ remove_property_stretchy (flat repeated) (OAtom 1) = Val (OAtom 11, []).
Proof.
  split; [|by vm_compute]. eexists (OAtom 10), _, _. split; [vm_compute; reflexivity|]. by vm_compute.
Qed.
Print Assumptions C64_remove_refuted.

(** *** keyword-sequence and value-sequence *)
Theorem C64_sequences_list h l ps fuel : heap_ok h -> is_lst h l (flat ps) -> (length h < fuel)%nat ->
  (exists o h', keyword_sequence_list fuel h l = Val (o, h') /\ is_lst h' o ps.*1 /\ unchanged h h') /\
  (exists o h', value_sequence_list fuel h l = Val (o, h') /\ is_lst h' o ps.*2 /\ unchanged h h').
Proof.
  intros [H0 _] [cs Hl] Hf. pose proof (lst_bound _ _ _ _ Hl) as Hb. rewrite flat_length in Hb. split.
  - apply (keyword_loop_ok ps fuel h h l cs nil [] []); try done; [congruence|constructor|cbn; lia].
  - apply (value_loop_ok ps fuel h h l cs nil [] []); try done; [congruence|constructor|cbn; lia].
Qed.
Print Assumptions C64_sequences_list.

Theorem C64_sequences_vector ps : keyword_sequence_vec (flat ps) = Val ps.*1 /\ value_sequence_vec (flat ps) = Val ps.*2.
Proof. split; [apply (half_sequence_ok 0); by left|apply (half_sequence_ok 1); by right]. Qed.
Print Assumptions C64_sequences_vector.

(** *** remove-keywords *)
Theorem C64_remove_keywords h l ps keywords fuel : heap_ok h -> is_lst h l (flat ps) -> (length h < fuel)%nat ->
  remove_keywords_vec (flat ps) keywords = Val (flat (filter (fun p => p.1 ∉ keywords) ps)) /\
  remove_keywords_list fuel h l keywords = Val (flat (filter (fun p => p.1 ∉ keywords) ps)).
Proof.
  intros _ [cs Hl] Hf. pose proof (lst_bound _ _ _ _ Hl) as Hb. split; [apply remove_keywords_vec_ok|].
  unfold remove_keywords_list. destruct ps as [|p ps].
  { unfold lst in Hl. cbn [flat] in Hl. apply seg_nil_inv in Hl as [_ ->]. destruct fuel as [|fuel]; [lia|reflexivity]. }
  assert (En : is_nil l = false). { destruct p as [k0 w]. apply seg_props in Hl as (d1 & d2 & ds' & t' & -> & -> & M1 & _). by apply is_nil_S. }
  rewrite En. case_bool_decide as H1.
  - rewrite (elements_loop_ok _ fuel h l cs Hl) by lia. f_equal. f_equal. subst keywords. generalize (p :: ps). clear.
    induction l as [|p ps IH]; [done|]. rewrite filter_cons_True by (by apply not_elem_of_nil). by f_equal.
  - rewrite (list_size_proper fuel h l _ cs Hl) by lia. cbn [obind]. change (Z.of_nat (length (flat (p :: ps)))) with (vsize (flat (p :: ps))).
    rewrite check_even_flat. cbn [obind]. unfold vsize. rewrite Nat2Z.id. rewrite flat_length in Hb.
    destruct (keywords_loop_list_ok (left_out keywords) ps fuel h l cs p (replicate (length (flat (p :: ps))) fls) 0 [] 0) as (new & E1 & E2); try done.
    + cbn [length] in Hb. lia.
    + rewrite replicate_length. cbn [app]. rewrite !flat_length. unfold kept_by. pose proof (filter_length (λ p : obj * obj, left_out keywords p.1 = false) (p :: ps)). lia.
    + rewrite E1. cbn [obind]. rewrite Nat2Z.id, E2. cbn [app]. by rewrite kept_left_out.
Qed.
Print Assumptions C64_remove_keywords.

(** *** Vectors of odd size are refused *)
Theorem C64_odd_vector v k x d : Nat.odd (length v) = true ->
  exists msg, get_property_vec v k d = Signal msg /\ (forall s, put_property_vec s v k x = Signal msg) /\
    remove_property_stretchy v k = Signal msg /\ remove_property_simple v k = Signal msg /\
    keyword_sequence_vec v = Signal msg /\ value_sequence_vec v = Signal msg /\
    (forall keywords, keywords <> [] -> remove_keywords_vec v keywords = Signal msg).
Proof.
  intros H. exists "This plist does not have even length"%string. unfold get_property_vec, put_property_vec, remove_property_stretchy, remove_property_simple, keyword_sequence_vec, value_sequence_vec, half_sequence_vec, remove_keywords_vec.
  rewrite check_odd by done. do 6 (split; [done|]). intros keywords Hk. rewrite bool_decide_false by (by intros ->). by rewrite bool_decide_false.
Qed.
Print Assumptions C64_odd_vector.

(** A list of odd size is not: if the indicator is its last element, put-property! sets the head of the empty list, and
    with it that of every empty list in the program. *)
Theorem C64_odd_list_refuted : let '(l, h) := make_list initial_heap [OAtom 1] in
  exists h', put_property_list 9 h l (OAtom 1) (OAtom 7) = Val (l, h') /\ head h' nil = Val (OAtom 7) /\ head h nil = Val nil.
Proof. cbn. eexists. split; [vm_compute; reflexivity|]. by vm_compute. Qed.
Print Assumptions C64_odd_list_refuted.

(** *** concatenate! on lists that share no pairs *)
Theorem C64_concatenate h l xs cs os xss css fuel : heap_ok h -> lst h l xs cs -> lists h os xss css -> NoDup (cs ++ concat css) -> (length h < fuel)%nat ->
  exists r h', concatenate_bang fuel h l os = Val (r, h') /\ lst h' r (xs ++ concat xss) (cs ++ concat css) /\ only_tails (cs ++ concat css) h h' /\
    length h' = length h /\ (xs <> [] -> r = l).
Proof.
  intros _ Hl Hls Hn Hf. apply concatenate_bang_ok; try done.
  - apply lst_bound in Hl. lia.
  - clear - Hls Hf. induction Hls as [|o xs cs os xss css Hl H IH]; constructor; [|done]. apply lst_bound in Hl. lia.
Qed.
Print Assumptions C64_concatenate.

(** *** Examples *)
Definition sample : props := [(OAtom 1, OAtom 10); (OAtom 2, OAtom 20); (OAtom 3, OAtom 30)].
Example C64_ex_heap : let '(l, h) := make_list initial_heap (flat sample) in heap_ok h /\ is_lst h l (flat sample) /\ unique sample.
Proof.
  cbn. split; [|split].
  - split; [done|]. intros a x t. do 7 (destruct a as [|a]; [intros [= <- <-]; cbn; repeat split; lia|]). done.
  - exists [6; 5; 4; 3; 2; 1]%nat. vm_compute. repeat (split; [done|]; split; [discriminate|]; eexists; split; [reflexivity|]). reflexivity.
  - unfold unique. cbn. repeat (apply NoDup_cons; split; [by rewrite ?not_elem_of_cons, ?elem_of_nil; naive_solver|]). apply NoDup_nil_2.
Qed.
Example C64_ex_vector : put_property_vec false (flat sample) (OAtom 2) (OAtom 21) = Val (flat [(OAtom 1, OAtom 10); (OAtom 2, OAtom 21); (OAtom 3, OAtom 30)], flat [(OAtom 1, OAtom 10); (OAtom 2, OAtom 21); (OAtom 3, OAtom 30)])
  /\ remove_property_stretchy (flat sample) (OAtom 2) = Val (OAtom 20, flat [(OAtom 1, OAtom 10); (OAtom 3, OAtom 30)])
  /\ remove_keywords_vec (flat sample) [OAtom 3; OAtom 1] = Val [OAtom 2; OAtom 20].
Proof. by vm_compute. Qed.
Example C64_ex_list : let '(l, h) := make_list initial_heap (flat sample) in
  exists h', remove_property_list 9 h l (OAtom 2) = Val (OAtom 20, l, h') /\ elements_loop 9 h' l = Val [OAtom 1; OAtom 10; OAtom 3; OAtom 30].
Proof. cbn. eexists. split; [vm_compute; reflexivity|]. by vm_compute. Qed.
