(** C47, C48: iterating over collections and map-into. *)
From stdpp Require Import list_numbers.
From Verif Require Import Base CollModel CollSpec CollProofs CollAgree CollIterProofs CollAlignProofs CollSourceProofs CollMapTopProofs.
From Coq Require Import ZArith ZifyBool ZifyNat.
Local Open Scope outcome_scope.
Local Open Scope Z_scope.

(** ** C47 *)

(** The collections [a], [more] of the heap are [cs]; iterating over them is meant to end. *)
Definition iterable (h : heap) (a : nat) (more : list nat) (cs : list coll) : Prop :=
  Forall2 (fun a c => h !! a = Some c) (a :: more) cs /\ Forall wf_coll cs /\ bounded cs.

(** The arguments of the calls, in order. *)
Definition arguments (out : list (key * list value)) : list value := map (fun e => argument e.2) out.

Lemma for_src_visits {R} h a more cs src (stop : R -> bool) step r : iterable h a more cs ->
  multiple_collection h a more = Val src ->
  exists out, visits cs out /\ exists F, forall fuel, (F <= fuel)%nat -> for_src fuel h src stop step r = Val (fold_stop stop step r (call_args out)).
Proof.
  intros (H1 & H2 & H3) Hm. destruct (source_yields _ _ _ _ _ H1 H2 H3 Hm) as (B & f & st & out & Hs & Hy & Hv).
  exists out. split; [done|]. exists (S (B + length (call_args out))). intros fuel Hf. unfold for_src. rewrite Hs by lia. cbn.
  eapply for_in_yields; [done|]. lia.
Qed.

Lemma fold_no_stop {R} (step : R -> key -> value -> R) out r :
  fold_stop no_stop step r out = fold_left (fun r e => step r e.1 e.2) out r.
Proof. revert r. induction out as [|[k v] out IH]; intros r; [done|]. cbn. apply IH. Qed.

Lemma fold_until (test : value -> bool) out : forall r,
  fold_stop (fun r => r) (fun _ _ e => test e) r out = r || existsb test (map snd out).
Proof.
  induction out as [|[k v] out IH]; intros r; cbn; [by rewrite orb_false_r|]. destruct r; [done|]. rewrite IH. done.
Qed.

Lemma fold_while (test : value -> bool) out : forall r,
  fold_stop negb (fun _ _ e => test e) r out = r && forallb test (map snd out).
Proof.
  induction out as [|[k v] out IH]; intros r; cbn; [by rewrite andb_true_r|]. destruct r; [|done]. cbn. rewrite IH. done.
Qed.

Lemma call_args_snd out : map snd (call_args out) = arguments out.
Proof. unfold call_args, arguments. rewrite map_map. done. Qed.

Lemma exists_visits cs out test : visits cs out ->
  existsb test (arguments out) = true <-> exists k vs, aligned cs k = Some vs /\ test (argument vs) = true.
Proof.
  intros Hv. unfold arguments. rewrite existsb_exists. split.
  - intros (x & Hx & Ht). apply in_map_iff in Hx as ([k vs] & <- & Hin). exists k, vs. split; [|done]. apply Hv. by apply elem_of_list_In.
  - intros (k & vs & Hk & Ht). exists (argument vs). split; [|done]. apply in_map_iff. exists (k, vs). split; [done|]. apply elem_of_list_In. by apply Hv.
Qed.

(** [do] calls the function once for each key that all the collections have, with the elements under
    that key; in the order of the keys when one of the collections is a sequence. *)
Theorem C47_do h a more cs src : iterable h a more cs -> multiple_collection h a more = Val src ->
  exists out, visits cs out /\ exists F, forall fuel, (F <= fuel)%nat -> do_ fuel h src = Val (arguments out).
Proof.
  intros Hi Hm. destruct (for_src_visits h a more cs src no_stop (fun r _ e => r ++ [e]) [] Hi Hm) as (out & Hv & F & HF).
  exists out. split; [done|]. exists F. intros fuel Hf. unfold do_. rewrite HF by done. f_equal. rewrite fold_no_stop.
  rewrite <- call_args_snd. generalize (call_args out). clear. intros l.
  assert (forall r, fold_left (fun r e => r ++ [e.2]) l r = r ++ map snd l) as H.
  { induction l as [|[k v] l IH]; intros r; cbn; [by rewrite app_nil_r|]. rewrite IH, <- app_assoc. done. }
  apply (H []).
Qed.

(** [reduce] folds the function over the same sequence of arguments. *)
Theorem C47_reduce h a more cs src fn init : iterable h a more cs -> multiple_collection h a more = Val src ->
  exists out, visits cs out /\ exists F, forall fuel, (F <= fuel)%nat -> reduce fuel h fn init src = Val (fold_left fn (arguments out) init).
Proof.
  intros Hi Hm. destruct (for_src_visits h a more cs src no_stop (fun r _ e => fn r e) init Hi Hm) as (out & Hv & F & HF).
  exists out. split; [done|]. exists F. intros fuel Hf. unfold reduce. rewrite HF by done. f_equal. rewrite fold_no_stop.
  rewrite <- call_args_snd. generalize (call_args out) init. clear. intros l. induction l as [|[k v] l IH]; intros r; [done|]. cbn. apply IH.
Qed.

Theorem C47_reduce1 h a more cs src fn : iterable h a more cs -> multiple_collection h a more = Val src ->
  exists out, visits cs out /\ exists F, forall fuel, (F <= fuel)%nat ->
    match arguments out with
    | [] => exists msg, reduce1 fuel h fn src = Signal msg
    | v :: vs => reduce1 fuel h fn src = Val (fold_left fn vs v)
    end.
Proof.
  intros (H1 & H2 & H3) Hm. destruct (source_yields _ _ _ _ _ H1 H2 H3 Hm) as (B & f & st & out & Hs & Hy & Hv).
  exists out. split; [done|]. exists (S (B + length (call_args out))). intros fuel Hf. unfold reduce1. rewrite Hs by lia. cbn [obind].
  rewrite <- call_args_snd. revert Hf. inversion Hy as [? ? Hfin|? ? st' k v l He' Hn Hy']; subst.
  - intros _. rewrite Hfin by apply similar_refl. by eexists.
  - cbn. intros Hf. destruct (He' h) as (E1 & E2 & E3); [apply similar_refl|]. rewrite E1. cbn. rewrite E2. cbn. rewrite Hn by (try apply similar_refl; lia). cbn.
    erewrite for_in_yields; [|exact Hy'|lia].
    f_equal. rewrite fold_no_stop. clear. generalize v. induction l as [|[k v'] l IH]; intros r; [done|]. cbn. apply IH.
Qed.

(** [any?] says whether the test succeeds under some key that all the collections have. *)
Theorem C47_any h a more cs src test : iterable h a more cs -> multiple_collection h a more = Val src ->
  exists b F, (forall fuel, (F <= fuel)%nat -> any_one fuel h test src = Val b) /\
    (b = true <-> exists k vs, aligned cs k = Some vs /\ test (argument vs) = true).
Proof.
  intros Hi Hm. destruct (for_src_visits h a more cs src (fun r => r) (fun _ _ e => test e) false Hi Hm) as (out & Hv & F & HF).
  eexists _, F. split; [exact HF|]. rewrite fold_until, call_args_snd. cbn. by apply exists_visits.
Qed.

Theorem C47_every h a more cs src test : iterable h a more cs -> multiple_collection h a more = Val src ->
  exists b F, (forall fuel, (F <= fuel)%nat -> every_one fuel h test src = Val b) /\
    (b = true <-> forall k vs, aligned cs k = Some vs -> test (argument vs) = true).
Proof.
  intros Hi Hm. destruct (for_src_visits h a more cs src negb (fun _ _ e => test e) true Hi Hm) as (out & Hv & F & HF).
  eexists _, F. split; [exact HF|]. rewrite fold_while, call_args_snd. cbn. rewrite forallb_forall. unfold arguments. split.
  - intros H k vs Hk. apply H. apply in_map_iff. exists (k, vs). split; [done|]. apply elem_of_list_In. by apply Hv.
  - intros H x Hx. apply in_map_iff in Hx as ([k vs] & <- & Hin). apply (H k). apply Hv. by apply elem_of_list_In.
Qed.

Theorem C47_member h a more cs src test v : iterable h a more cs -> multiple_collection h a more = Val src ->
  exists b F, (forall fuel, (F <= fuel)%nat -> member_ fuel h test v src = Val b) /\
    (b = true <-> exists k vs, aligned cs k = Some vs /\ test v (argument vs) = true).
Proof. apply C47_any. Qed.

(** [size] counts the keys that all the collections have; [empty?] says whether there is none. *)
Theorem C47_size h a more cs src : iterable h a more cs -> multiple_collection h a more = Val src ->
  exists out, visits cs out /\ exists F, forall fuel, (F <= fuel)%nat ->
    size_ fuel h src = Val (length out) /\ empty_ fuel h src = Val (bool_decide (out = [])).
Proof.
  intros (H1 & H2 & H3) Hm. destruct (source_yields _ _ _ _ _ H1 H2 H3 Hm) as (B & f & st & out & Hs & Hy & Hv).
  exists out. split; [done|]. exists (S (B + length (call_args out))). intros fuel Hf. split.
  - unfold size_, for_src. rewrite Hs by lia. cbn. erewrite for_in_yields; [|done|lia]. f_equal. rewrite fold_no_stop.
    replace (length out) with (0 + length (call_args out))%nat by (unfold call_args; by rewrite map_length).
    generalize (call_args out) 0%nat. clear. induction l as [|e l IH]; intros n; cbn; [lia|]. rewrite IH. lia.
  - unfold empty_. rewrite Hs by lia. cbn. inversion Hy as [? ? Hfin E|? ? st' k v l He' Hn Hy' E]; subst;
      [rewrite Hfin by apply similar_refl|rewrite (proj1 (He' h (similar_refl _ _ _)))]; f_equal.
    + destruct out; [|done]. done.
    + destruct out; [done|]. done.
Qed.

(** [find-key] with skip [n] returns the key of the match number [n] (from 0) in the iteration order,
    #f when there are not so many. *)
Theorem C47_find_key h a more cs src fn skip : iterable h a more cs -> multiple_collection h a more = Val src ->
  exists out, visits cs out /\ exists F, forall fuel, (F <= fuel)%nat ->
    find_key fuel h fn skip src = Val (List.filter (fun e => fn (argument e.2)) out !! Z.to_nat skip ≫= fun e => Some e.1).
Proof.
  intros Hi Hm. destruct (for_src_visits h a more cs src (fun r => fst (fst r))
       (fun (r : bool * Z * key) k e => let '(_, skip, _) := r in
          if fn e then (skip - 1 <? 0, skip - 1, k) else (false, skip, k)) (false, skip, KInt 0) Hi Hm) as (out & Hv & F & HF).
  exists out. split; [done|]. exists F. intros fuel Hf. unfold find_key. rewrite HF by done. cbn [obind]. clear -skip.
  generalize (KInt 0). revert skip. induction out as [|[k vs] out IH]; intros skip k0; [done|].
  cbn [call_args map fold_stop]. cbn [fst snd].
  change (map (fun e => (e.1, argument e.2)) out) with (call_args out).
  cbn [List.filter snd]. destruct (fn (argument vs)) eqn:E.
  - destruct (skip - 1 <? 0) eqn:E1.
    + assert (Z.to_nat skip = 0%nat) as -> by lia. cbn. destruct (call_args out) as [|[]]; done.
    + rewrite IH. replace (Z.to_nat skip) with (S (Z.to_nat (skip - 1))) by lia. done.
  - apply IH.
Qed.

(** Three tables of 3 keys, 2 keys, and two sequences: the hypotheses hold, and the loop runs over
    the common keys. *)
Definition sample : heap :=
  [CTab 0 [(KInt 2, VInt 20); (KObj 7, VInt 70); (KInt 0, VInt 0)]; CTab 0 [(KObj 7, VInt 71); (KInt 2, VInt 21)];
   CVec VkObject [VObj 1; VObj 2; VObj 3]; CRangeInf 5 10; CList [VFalse; VChr 65]].

Example C47_sample :
  iterable sample 0 [1%nat] [CTab 0 [(KInt 2, VInt 20); (KObj 7, VInt 70); (KInt 0, VInt 0)]; CTab 0 [(KObj 7, VInt 71); (KInt 2, VInt 21)]] /\
  (do s <- multiple_collection sample 0 [1%nat] ; do_ 10 sample s) = Val [VVec [VInt 70; VInt 71]; VVec [VInt 20; VInt 21]] /\
  (do s <- multiple_collection sample 2 [0%nat; 3%nat] ; do_ 10 sample s) = Val [VVec [VObj 1; VInt 0; VInt 5]; VVec [VObj 3; VInt 20; VInt 25]] /\
  (do s <- multiple_collection sample 2 [4%nat; 3%nat] ; find_key 10 sample (fun _ => true) 1 s) = Val (Some (KInt 1)) /\
  (do s <- multiple_collection sample 4 [] ; reduce1 10 sample (fun x _ => x) s) = Val VFalse /\
  (do s <- multiple_collection sample 3 [1%nat] ; do_ 10 sample s) = Val [VVec [VInt 25; VInt 21]].
Proof.
  split; [|repeat split; vm_compute; reflexivity]. split; [repeat constructor|]. split.
  - repeat (apply Forall_cons; split; [cbn; apply (bool_decide_eq_true_1 _); vm_compute; reflexivity|]). by apply Forall_nil.
  - left. repeat (apply Forall_cons; split; [done|]). by apply Forall_nil.
Qed.

(** Why [bounded]: an infinite range with two tables that have no key in common is never done,
    although no key is common to the three. *)
Definition endless : heap := [CRangeInf 0 1; CTab 0 [(KInt 3, VInt 1)]; CTab 0 [(KInt 4, VInt 2)]].
Definition endless_source : source := MultiMix [0%nat] [0%nat] [1%nat; 2%nat] [1%nat; 2%nat].

Theorem C47_infinite_range_refuted :
  multiple_collection endless 0 [1%nat; 2%nat] = Val endless_source /\
  (forall k, aligned endless k = None) /\ (forall fuel, do_ fuel endless endless_source = NoFuel).
Proof.
  split; [done|]. split.
  - intros k. unfold aligned, endless. cbn. destruct k as [z| |]; cbn; try done. destruct (decide (0 <= z)); cbn; [|done].
    destruct (decide (KInt 3 = KInt z)) as [E|E]; cbn; [|done]. injection E as <-. done.
  - assert (H : forall fuel k i els, skip_mix fuel [fip_of (CRangeInf 0 1)] 3 [CRangeInf 0 1] [0%nat]
      [CTab 0 [(KInt 3, VInt 1)]; CTab 0 [(KInt 4, VInt 2)]] [1%nat; 2%nat] 0 k [SInt i] els = NoFuel).
    { induction fuel as [|fuel IH]; intros k i els; [done|]. cbn. case_bool_decide; cbn; [|apply IH]. case_bool_decide; cbn; [|apply IH]. congruence. }
    intros fuel. unfold do_, for_src. cbn [src_start endless_source endless all_ at_ lookup list_lookup obind]. cbn -[skip_mix].
    cbn in H |- *. rewrite H. done.
Qed.

(** ** C48 *)

Definition no_move (first : Z) (_ : nat) : Z := first.
Definition plus100 (v : value) : value := match v with VInt z => VInt (z + 100) | v => v end.

(** [map-into] stores the results under the keys that the sources and the target have in common (that
    the target can be given, when it can stretch), leaves the rest of the target and all other
    collections alone, and the target may be one of the sources.  Missing: the targets and sources
    that are not [covered], for which see the refutations below.  Where the call is ambiguous it holds
    for each of the methods. *)
Theorem C48_map_into_partial place fn (h : heap) t c a more cs src m :
  iterable h a more cs -> multiple_collection h a more = Val src ->
  h !! t = Some c -> is_mutable c = true -> wf_coll c -> Forall (fun s => coll_key_test s = coll_key_test c) cs -> results_fit fn cs c ->
  covered cs c -> m ∈ methods_for c (match more with [] => h !! a | _ => None end) (forallb is_sequence cs) ->
  exists F, forall fuel, (F <= fuel)%nat ->
    exists c', map_into fuel place m fn h t src = Val (<[t := c']> h) /\ mapped_into fn (source_at cs) c c'.
Proof. intros (H1 & H2 & H3) Hs Ht Hm Hwf Hkt Hfit Hc Hme. by eapply map_into_ok. Qed.

(** The hypotheses are met: the sum of a vector and a list into that vector, a list into a shorter
    deque, and a table into a deque. *)
Definition add_all (v : value) : value :=
  match v with VVec [VInt x; VInt y] => VInt (x + y) | v => v end.
Definition sum_heap : heap := [CVec VkObject [VInt 1; VInt 2; VInt 3]; CList [VInt 10; VInt 20]; CDeq 7 [VInt 5]; CTab 0 [(KInt 2, VInt 9)]].
Example C48_vector_sample :
  iterable sum_heap 0 [1%nat] [CVec VkObject [VInt 1; VInt 2; VInt 3]; CList [VInt 10; VInt 20]] /\
  covered [CVec VkObject [VInt 1; VInt 2; VInt 3]; CList [VInt 10; VInt 20]] (CVec VkObject [VInt 1; VInt 2; VInt 3]) /\
  multiple_collection sum_heap 0 [1%nat] = Val (MultiSeq [0%nat; 1%nat]) /\
  map_into 20 no_move RArraySeq add_all sum_heap 0 (MultiSeq [0%nat; 1%nat]) =
    Val (<[0%nat := CVec VkObject [VInt 11; VInt 22; VInt 3]]> sum_heap).
Proof.
  split; [|split; [done|split; vm_compute; reflexivity]]. split; [by repeat constructor|]. split; [by repeat constructor|]. right. left. by left.
Qed.
Example C48_deque_sample :
  iterable sum_heap 1 [] [CList [VInt 10; VInt 20]] /\ covered [CList [VInt 10; VInt 20]] (CDeq 7 [VInt 5]) /\
  map_into 20 no_move SSeqSeq plus100 sum_heap 2 (One 1) = Val (<[2%nat := CDeq 7 [VInt 110; VInt 120]]> sum_heap) /\
  iterable sum_heap 3 [] [CTab 0 [(KInt 2, VInt 9)]] /\ covered [CTab 0 [(KInt 2, VInt 9)]] (CDeq 7 [VInt 5]) /\
  map_into 20 no_move SSeqColl plus100 sum_heap 2 (One 3) = Val (<[2%nat := CDeq 7 [VInt 5; VFalse; VInt 109]]> sum_heap).
Proof.
  split; [split; [by repeat constructor|split; [by repeat constructor|right; left; by left]]|].
  split; [right; by eexists|]. split; [vm_compute; reflexivity|].
  split; [split; [by repeat constructor|split; [|left; by repeat constructor]]|].
  - constructor; [|constructor]. cbn. apply NoDup_singleton.
  - split; [right; by eexists|]. vm_compute. reflexivity.
Qed.

(** map-into(list, f, table) leaves the list unchanged: the elements are looked up under the iteration
    state of the list, a pair, instead of under the key (collection.dylan:551-566). *)
Definition list_table : heap := [CList [VInt 1; VInt 2]; CTab 0 [(KInt 0, VInt 7); (KInt 1, VInt 8)]].
Theorem C48_list_from_table_refuted m fuel h' :
  map_into (S (S (S (S fuel)))) no_move m plus100 list_table 0 (One 1) = Val h' -> h' = list_table /\
  ~ exists c', h' !! 0%nat = Some c' /\ mapped_into plus100 (fun k => value_at (CTab 0 [(KInt 0, VInt 7); (KInt 1, VInt 8)]) k) (CList [VInt 1; VInt 2]) c'.
Proof.
  intros H. assert (h' = list_table) as ->. { destruct m; vm_compute in H; try done. by injection H. }
  split; [done|]. intros (c' & [= <-] & _ & _ & H1 & _). specialize (H1 (KInt 0) (VInt 7)). cbn in H1. by specialize (H1 ltac:(done) eq_refl).
Qed.
Example C48_list_from_table_runs fuel : exists h', map_into (S (S (S (S fuel)))) no_move RSeqColl plus100 list_table 0 (One 1) = Val h'.
Proof. eexists. vm_compute. reflexivity. Qed.

(** map-into(list, f, string) is a type error: the functions of the string's protocol are called on
    the list (collection.dylan:633-643). *)
Theorem C48_list_from_string_refuted m fuel :
  (exists msg, map_into (S (S fuel)) no_move m plus100 [CList [VInt 1; VInt 2]; CVec VkString [VChr 65]] 0 (One 1) = Signal msg).
Proof. destruct m; eexists; vm_compute; reflexivity. Qed.

(** map-into(deque, f, vector) reads beyond the vector when the deque is the shorter: after the
    deque has been enlarged the loop over the source goes on (collection.dylan:459-495). *)
Theorem C48_deque_from_longer_vector_refuted fuel :
  map_into (S (S (S (S (S (S (S (S fuel)))))))) no_move SSeqSeq plus100 [CDeq 5 [VInt 1]; CVec VkObject [VInt 1; VInt 2; VInt 3]] 0 (One 1) = UB.
Proof. vm_compute. reflexivity. Qed.

(** map-into(deque, f, table1, table2) calls f on a vector holding the marker for missing elements
    under keys that only one table has. *)
Theorem C48_deque_from_tables_refuted fuel :
  map_into (S (S (S (S (S (S (S (S fuel)))))))) no_move SSeqColl plus100 [CDeq 5 [VInt 1; VInt 2]; CTab 0 [(KInt 0, VInt 7); (KInt 1, VInt 8)]; CTab 0 [(KInt 1, VInt 9)]]
    0 (MultiExp [1%nat; 2%nat]) =
  Val [CDeq 5 [VVec [VObj 0]; VVec [VInt 8; VInt 9]]; CTab 0 [(KInt 0, VInt 7); (KInt 1, VInt 8)]; CTab 0 [(KInt 1, VInt 9)]].
Proof. vm_compute. reflexivity. Qed.

Print Assumptions C47_do.
Print Assumptions C47_reduce.
Print Assumptions C47_reduce1.
Print Assumptions C47_any.
Print Assumptions C47_every.
Print Assumptions C47_member.
Print Assumptions C47_size.
Print Assumptions C47_find_key.
Print Assumptions C47_infinite_range_refuted.
Print Assumptions C48_map_into_partial.
Print Assumptions C48_list_from_table_refuted.
Print Assumptions C48_list_from_string_refuted.
Print Assumptions C48_deque_from_longer_vector_refuted.
Print Assumptions C48_deque_from_tables_refuted.
