(** C59: choose, choose-by, remove, remove-duplicates, intersection, union and member?.
    C60: add, add-new, reverse, reverse!, last, concatenate and concatenate-as. *)
From stdpp Require Import list_numbers.
From Verif Require Import Base CollModel CollSpec CollProofs AccModel AccSpec SeqOpModel SeqOpSpec SeqOpProofs SelModel SelSpec SelProofs SelProofs2.
From Coq Require Import ZArith ZifyBool ZifyNat.
Local Open Scope Z_scope.

(** ** C59 *)

(** choose(test, c): the elements that pass the test, in order, in a sequence of the class of [c]. *)
Theorem C59_choose c l test fuel : wf_coll c -> elements_are c l -> (length l < fuel)%nat ->
  exists c', choose fuel test c = Val c' /\ of_class_of c c' /\ elements_are c' (List.filter test l).
Proof.
  intros Hw He Hf. destruct (choose_ok fuel test c l) as (c' & ? & ? & ? & ?); [done|by apply holds_elements|done|by exists c'].
Qed.

(** choose-by(test, tests, values): the values at the positions where the other sequence passes the test. *)
Theorem C59_choose_by ct lt cv lv test fuel : wf_coll ct -> wf_coll cv -> elements_are ct lt -> elements_are cv lv ->
  (Nat.min (length lt) (length lv) < fuel)%nat ->
  exists c', choose_by fuel test ct cv = Val c' /\ of_class_of cv c' /\
    elements_are c' (List.filter (fun e => test e.1) (zip lt lv)).*2.
Proof.
  intros Hwt Hwv Ht Hv Hf. destruct (choose_by_ok fuel test ct lt cv lv) as (c' & ? & ? & ? & ?);
    [done|by apply holds_elements|by apply holds_elements|done|by exists c'].
Qed.

(** remove(c, v, count: n) on a vector, string or stretchy vector: all elements, or the first [n] of them, that are the same
    as [v] are left out.  (Deques are in C44, lists in C38, ranges in C11.) *)
Theorem C59_remove k l test count v fuel : wf_coll (CVec k l) -> (length l < fuel)%nat ->
  exists l', remove fuel test count (CVec k l) v = Val (CVec k l') /\
    l' = without (fun x => test x v) (option_map Z.to_nat count) l.
Proof.
  intros Hw Hf. destruct (remove_ok fuel test count (CVec k l) l v) as (c' & -> & Hc & He & _); [done|by left|by apply elements_editable|done|].
  destruct c' as [k' l'| | | | |]; try done. cbn in Hc. subst k'. exists l'. split; [done|]. apply (elements_editable (CVec k l')) in He; done.
Qed.

(** remove-duplicates(c), for every sequence but a list: no two of the elements left are the same, and each element that was
    left out is the same as one of them. *)
Theorem C59_remove_duplicates c l test fuel : wf_coll c -> is_list c = false -> elements_are c l -> (length l < fuel)%nat ->
  exists c' l', remove_duplicates fuel test c = Val c' /\ (of_class_of c c' \/ c' = c) /\ elements_are c' l' /\ no_duplicates test l l'.
Proof.
  intros Hw _ He Hf. destruct (remove_duplicates_ok fuel test c l) as (c' & ? & ? & ? & ?); [done|done|done|]. exists c', (nub test [] l).
  split_and!; try done. destruct (nub_facts test l []) as (N1 & _ & N3 & N4). split; try done. intros x Hx.
  destruct (N4 x Hx) as [?|(y & [?%elem_of_nil|?] & ?)]; [by left|done|]. right. by exists y.
Qed.

(** If the test is transitive, the elements left are those that are not the same as an earlier one. *)
Theorem C59_remove_duplicates_first c l test fuel : wf_coll c -> is_list c = false -> elements_are c l -> (length l < fuel)%nat ->
  (forall x y z, test x y = true -> test y z = true -> test x z = true) ->
  exists c', remove_duplicates fuel test c = Val c' /\ elements_are c' (firsts test [] l).
Proof.
  intros Hw _ He Hf Htr. destruct (remove_duplicates_ok fuel test c l) as (c' & ? & ? & H & ?); [done|done|done|]. exists c'. split; [done|].
  rewrite <- (nub_firsts test Htr l [] []); [done|done|]. by intros ? ?%elem_of_nil.
Qed.

(** member?(v, c, test: t): t(v, x) holds for an element x.  For strings, only if the test is symmetric. *)
Theorem C59_member_partial c l test v fuel : wf_coll c -> elements_are c l -> symmetric_if_string test c -> (length l < fuel)%nat ->
  exists b, member_of fuel test v c = Val b /\ (b = true <-> exists x, x ∈ l /\ test v x = true).
Proof.
  intros Hw He Hs Hf. exists (among test l v). split; [apply member_ok; [by apply holds_elements|done|done]|].
  unfold among. rewrite existsb_exists. by setoid_rewrite elem_of_list_In.
Qed.

(** The characters of a string, and the order on them. *)
Definition less (a b : value) : bool := match a, b with VChr x, VChr y => x <? y | _, _ => false end.

(** On strings the test gets its arguments the other way round: member?('b', "abc", test: \<) is true because of 'a', and
    so is member?('c', "ab", test: \<), although 'c' is not less than any element; the same call on a vector is false. *)
Theorem C59_member_string_refuted :
  exists l v fuel, let s := CVec VkString l in
    wf_coll s /\ elements_are s l /\ (length l < fuel)%nat /\
    (~ exists x, x ∈ l /\ less v x = true) /\
    member_of fuel less v s = Val true /\
    member_of fuel less v (CVec VkObject l) = Val false.
Proof.
  exists [VChr 97; VChr 98], (VChr 99), 3%nat. split; [by repeat constructor|]. split; [by apply elements_editable|]. split; [cbn; lia|].
  split; [|split; vm_compute; reflexivity]. intros (x & Hx & H). repeat (apply elem_of_cons in Hx as [->|Hx]; [done|]). by apply elem_of_nil in Hx.
Qed.

(** intersection(c1, c2): a list of the elements of the first that are the same as one of the second. *)
Theorem C59_intersection_partial c1 l1 c2 l2 test fuel : wf_coll c1 -> wf_coll c2 -> elements_are c1 l1 -> elements_are c2 l2 ->
  symmetric_if_string test c2 -> (length l1 < fuel)%nat -> (length l2 < fuel)%nat ->
  exists l, intersection fuel test c1 c2 = Val (CList l) /\ l ≡ₚ List.filter (among test l2) l1.
Proof.
  intros Hw1 Hw2 He1 He2 Hs Hf1 Hf2. eexists. split; [apply (intersection_ok fuel test c1 l1 c2 l2); (done || by apply holds_elements)|].
  symmetry. apply Permutation_rev.
Qed.

(** union(c1, c2): a list of all the elements of the second and those of the first that are not the same as one of them. *)
Theorem C59_union_partial c1 l1 c2 l2 test fuel : wf_coll c1 -> wf_coll c2 -> elements_are c1 l1 -> elements_are c2 l2 ->
  symmetric_if_string test c2 -> (length l1 < fuel)%nat -> (length l2 < fuel)%nat ->
  exists l, union fuel test c1 c2 = Val (CList l) /\ l ≡ₚ List.filter (fun x => negb (among test l2 x)) l1 ++ l2.
Proof.
  intros Hw1 Hw2 He1 He2 Hs Hf1 Hf2. eexists. split; [apply (union_ok fuel test c1 l1 c2 l2); (done || by apply holds_elements)|].
  apply Permutation_app_tail. symmetry. apply Permutation_rev.
Qed.

(** intersection and union with a string as the second sequence inherit the swapped test. *)
Theorem C59_intersection_string_refuted :
  exists l1 l2 fuel, wf_coll (CVec VkString l2) /\
    (forall x, x ∈ l1 -> among less l2 x = false) /\ (length l1 < fuel)%nat /\ (length l2 < fuel)%nat /\
    intersection fuel less (CList l1) (CVec VkString l2) = Val (CList l1) /\ l1 <> [].
Proof.
  exists [VChr 99], [VChr 97; VChr 98], 3%nat. split; [by repeat constructor|]. split.
  { intros x [->|Hx]%elem_of_cons; [done|by apply elem_of_nil in Hx]. }
  split; [cbn; lia|]. split; [cbn; lia|]. split; [vm_compute; reflexivity|done].
Qed.

(** ** C60 *)

Lemma fits_takes ty l : fits ty l <-> Forall (fun v => takes_t ty v = true) l.
Proof.
  unfold fits. destruct ty as [[]| | |]; cbn; (split; [intros H; try (by apply Forall_true); by apply H|]); try done.
Qed.

(** add(c, v) on a vector, a deque or a list: a new sequence of the same class, with one element more. *)
Theorem C60_add c l v : wf_coll c -> vector_or_deque c \/ is_list c = true -> elements_are c l ->
  (fits (type_for_copy c) [v] -> exists c', add c v = Val c' /\ same_class c c' /\ elements_are c' (added c l v)) /\
  (~ fits (type_for_copy c) [v] -> exists e, add c v = Signal e).
Proof.
  intros Hw Hc He. assert (Hed : editable c) by (destruct c, Hc; done). apply elements_editable in He; [|done]. rewrite fits_takes.
  destruct c as [k l0|d l0|l0| | |]; try done; cbn in He; subst l0; cbn [type_for_copy].
  - split.
    + intros H. inversion H; subst. rewrite add_vector_ok by done. eexists. split; [done|]. split; [done|]. by apply elements_editable.
    + intros H. apply add_vector_bad. destruct (storable k v) eqn:E; [|done]. exfalso. apply H. by constructor.
  - split; [|intros []; by constructor]. intros _. destruct (add_deque_ok d l v) as [f ->]. eexists. split; [done|]. split; [done|]. by apply elements_editable.
  - split; [|intros []; by constructor]. intros _. eexists. split; [done|]. split; [done|]. by apply elements_editable.
Qed.

(** add-new(c, v): the same sequence if it has such an element, otherwise as add. *)
Theorem C60_add_new c l v test fuel : wf_coll c -> vector_or_deque c \/ is_list c = true -> elements_are c l -> (length l < fuel)%nat ->
  ((exists x, x ∈ l /\ test x v = true) -> add_new fuel test c v = Val c) /\
  ((~ exists x, x ∈ l /\ test x v = true) -> fits (type_for_copy c) [v] ->
     exists c', add_new fuel test c v = Val c' /\ same_class c c' /\ elements_are c' (added c l v)).
Proof.
  intros Hw Hc He Hf. unfold add_new. rewrite (any_in_ok fuel c l) by (try done; by apply holds_elements). cbn [obind].
  destruct (existsb (fun el => test el v) l) eqn:E.
  - split; [done|]. intros H. exfalso. apply H. apply existsb_exists in E as (x & Hx & Ht). exists x. split; [by apply elem_of_list_In|done].
  - split.
    + intros (x & Hx & Ht). assert (existsb (fun el => test el v) l = true) by (apply existsb_exists; exists x; split; [by apply elem_of_list_In|done]). congruence.
    + intros _ Hfit. by apply C60_add.
Qed.

(** reverse(c) makes a new vector and reverse!(c) changes the vector itself: the elements in the opposite order. *)
Theorem C60_reverse k l : wf_coll (CVec k l) ->
  reverse_vector (CVec k l) = Val (CVec k (rev l)) /\ reverse_bang (CVec k l) = Val (CVec k (rev l)).
Proof. intros Hw. split; [by apply reverse_vector_ok|by apply reverse_bang_ok]. Qed.

(** The method on <sequence>. *)
Theorem C60_reverse_sequence c l fuel : wf_coll c -> elements_are c l -> (length l < fuel)%nat ->
  exists c', reverse_sequence fuel c = Val c' /\ of_class_of c c' /\ elements_are c' (rev l).
Proof. intros Hw He Hf. destruct (reverse_sequence_ok fuel c l) as (c' & ? & ? & ? & ?); [done|by apply holds_elements|done|]. by exists c'. Qed.

(** last(c) *)
Theorem C60_last c l default : wf_coll c -> elements_are c l ->
  (forall l0 x, l = l0 ++ [x] -> last_ c default = Val x) /\
  (l = [] -> forall d, default = Some d -> last_ c default = Val d) /\
  (l = [] -> default = None -> exists e, last_ c default = Signal e).
Proof.
  intros Hw He. rewrite (last_ok c l) by by apply holds_elements. split_and!.
  - intros l0 x ->. by rewrite last_snoc.
  - by intros -> d ->.
  - intros -> ->. by eexists.
Qed.

(** concatenate-as(type, c, more...): a sequence of the type with all the elements in order; an error if the type is a string
    type and one of them is not a character. *)
Theorem C60_concatenate_as ty c l cs ls fuel : sequence_type ty -> wf_coll c -> Forall wf_coll cs ->
  elements_are c l -> Forall2 elements_are cs ls -> (length (joined l ls) < fuel)%nat ->
  (fits ty (joined l ls) -> exists c', concatenate_as fuel ty c cs = Val c' /\ has_type ty c' /\ elements_are c' (joined l ls)) /\
  (~ fits ty (joined l ls) -> exists e, concatenate_as fuel ty c cs = Signal e).
Proof.
  intros Hty Hw Hws He Hes Hf. unfold joined in *. rewrite app_length in Hf.
  assert (Forall2 holds_list cs ls) as Hh.
  { clear -Hws Hes. induction Hes; [constructor|]. inversion Hws; subst. constructor; [by apply holds_elements|by apply IHHes]. }
  destruct (concatenate_as_gives fuel ty c l cs ls) as [HV HS]; [done|done|done|by apply holds_elements|done|done|].
  rewrite fits_takes. split; [|done]. intros H. destruct (HV H) as (c' & ? & ? & ? & _). by exists c'.
Qed.

(** concatenate(c, more...): a sequence of the class of the first. *)
Theorem C60_concatenate c l cs ls fuel : wf_coll c -> Forall wf_coll cs ->
  elements_are c l -> Forall2 elements_are cs ls -> (length (joined l ls) < fuel)%nat ->
  (fits (type_for_copy c) (joined l ls) -> exists c', concatenate fuel c cs = Val c' /\ of_class_of c c' /\ elements_are c' (joined l ls)) /\
  (~ fits (type_for_copy c) (joined l ls) -> exists e, concatenate fuel c cs = Signal e).
Proof.
  intros Hw Hws He Hes Hf. pose proof He as [Hseq _]. destruct (C60_concatenate_as (type_for_copy c) c l cs ls fuel) as [HV HS]; try done.
  { by apply type_copy_sequence. }
  split; [|done]. intros H. destruct (HV H) as (c' & ? & ? & ?). exists c'. split_and!; try done. by apply class_type.
Qed.

(** ** Instances *)

Definition even (v : value) : bool := match v with VInt z => Z.even z | _ => false end.
Definition same (a b : value) : bool := match a, b with VInt x, VInt y => x =? y | VChr x, VChr y => x =? y | _, _ => false end.
Definition ints := map VInt.

Example C59_choose_ex : exists c', choose 9 even (CVec VkStretchy (ints [1; 2; 3; 4; 6])) = Val c' /\ c' = CVec VkStretchy (ints [2; 4; 6]).
Proof.
  destruct (C59_choose (CVec VkStretchy (ints [1; 2; 3; 4; 6])) (ints [1; 2; 3; 4; 6]) even 9) as (c' & H & _); [done|by apply elements_editable|cbn; lia|].
  exists c'. split; [done|]. vm_compute in H. by injection H as <-.
Qed.
Example C59_choose_range_ex : choose 9 even (CRange 1 1 6) = Val (CList (ints [2; 4; 6])).
Proof. vm_compute. reflexivity. Qed.
Example C59_choose_by_ex : choose_by 9 even (CList (ints [1; 2; 4])) (CVec VkString [VChr 97; VChr 98; VChr 99; VChr 100]) = Val (CVec VkString [VChr 98; VChr 99]).
Proof. vm_compute. reflexivity. Qed.
Example C59_remove_ex : remove 9 same (Some 2) (CVec VkObject (ints [1; 2; 1; 1; 3])) (VInt 1) = Val (CVec VkObject (ints [2; 1; 3])).
Proof. vm_compute. reflexivity. Qed.
Example C59_remove_duplicates_ex : remove_duplicates 9 same (CDeq 2 (ints [1; 2; 1; 3; 2])) = Val (CDeq 2 (ints [1; 2; 3])).
Proof. vm_compute. reflexivity. Qed.
Example C59_intersection_ex : intersection 9 same (CVec VkObject (ints [1; 2; 3])) (CRange 2 1 4) = Val (CList (ints [3; 2])).
Proof. vm_compute. reflexivity. Qed.
Example C59_union_ex : union 9 same (CVec VkObject (ints [1; 2; 7])) (CRange 2 1 4) = Val (CList (ints [7; 1; 2; 3; 4; 5])).
Proof. vm_compute. reflexivity. Qed.
Example C60_add_ex : add (CDeq 4 (ints [1; 2])) (VInt 0) = Val (CDeq 1 (ints [0; 1; 2])) /\
  add (CVec VkString [VChr 97]) (VChr 98) = Val (CVec VkString [VChr 97; VChr 98]) /\
  ~ fits (type_for_copy (CVec VkString [VChr 97])) [VInt 1].
Proof. split; [vm_compute; reflexivity|]. split; [vm_compute; reflexivity|]. intros H. specialize (H eq_refl). by inversion H. Qed.
Example C60_add_new_ex : add_new 9 same (CVec VkStretchy (ints [1; 2])) (VInt 2) = Val (CVec VkStretchy (ints [1; 2])) /\
  add_new 9 same (CVec VkStretchy (ints [1; 2])) (VInt 3) = Val (CVec VkStretchy (ints [1; 2; 3])).
Proof. split; vm_compute; reflexivity. Qed.
Example C60_reverse_ex : reverse_bang (CVec VkObject (ints [1; 2; 3; 4; 5])) = Val (CVec VkObject (ints [5; 4; 3; 2; 1])) /\
  reverse_vector (CVec VkObject (ints [1; 2; 3; 4])) = Val (CVec VkObject (ints [4; 3; 2; 1])).
Proof. split; vm_compute; reflexivity. Qed.
Example C60_last_ex : last_ (CRange 3 2 4) None = Val (VInt 9).
Proof. vm_compute. reflexivity. Qed.
Example C60_concatenate_ex :
  concatenate 20 (CVec VkObject (ints [1; 2])) [CList []; CRange 3 1 2; CDeq 7 (ints [5])] = Val (CVec VkObject (ints [1; 2; 3; 4; 5])) /\
  concatenate 20 (CVec VkString [VChr 97]) [CVec VkString []; CVec VkString [VChr 98; VChr 99]] = Val (CVec VkString [VChr 97; VChr 98; VChr 99]) /\
  concatenate_as 20 (TVec VkStretchy) (CVec VkObject []) [CVec VkStretchy (ints [1]); CVec VkStretchy (ints [2])] = Val (CVec VkStretchy (ints [1; 2])) /\
  concatenate_as 20 TList (CDeq 2 (ints [1])) [CVec VkObject (ints [2; 3]); CList (ints [4])] = Val (CList (ints [1; 2; 3; 4])).
Proof. repeat split; vm_compute; reflexivity. Qed.
Example C60_concatenate_hyp_ex : Forall2 elements_are [CList (ints [3]); CRange 3 1 2] [ints [3]; ints [3; 4]].
Proof.
  constructor; [by apply elements_editable|]. constructor; [|constructor]. split; [done|].
  intros [|[|i]]; [done|done|]. cbn [value_at]. destruct (decide _); [lia|done].
Qed.

Print Assumptions C59_choose.
Print Assumptions C59_choose_by.
Print Assumptions C59_remove.
Print Assumptions C59_remove_duplicates.
Print Assumptions C59_remove_duplicates_first.
Print Assumptions C59_member_partial.
Print Assumptions C59_member_string_refuted.
Print Assumptions C59_intersection_partial.
Print Assumptions C59_union_partial.
Print Assumptions C59_intersection_string_refuted.
Print Assumptions C60_add.
Print Assumptions C60_add_new.
Print Assumptions C60_reverse.
Print Assumptions C60_reverse_sequence.
Print Assumptions C60_last.
Print Assumptions C60_concatenate_as.
Print Assumptions C60_concatenate.
