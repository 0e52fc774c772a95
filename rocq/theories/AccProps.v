(** C49: map and map-as. *)
From stdpp Require Import list_numbers.
From Verif Require Import Base CollModel CollSpec CollAgree CollIterProofs CollAlignProofs CollSourceProofs CollMapTopProofs CollProps AccModel AccSpec AccProofs AccMapProofs.
From Coq Require Import ZArith ZifyBool ZifyNat.
Local Open Scope outcome_scope.
Local Open Scope Z_scope.

(** The keys visited, with the results of the calls. *)
Definition new_entries {S} (fn : S -> value -> S * value) (s : S) (out : list (key * list value)) : list (key * value) :=
  zip out.*1 (call_all fn s (arguments out)).2.

Lemma new_entries_results {S} (fn : S -> value -> S * value) s out : new_entries fn s out = results fn s (call_args out).
Proof. unfold new_entries, results. rewrite call_args_keys. f_equal. f_equal. f_equal. symmetry. apply call_args_snd. Qed.

(** [map-as(type, fn, a, more...)] calls the function once for each key that all the collections have,
    in the order of the iteration, and returns a new collection of the type asked for that has the
    results under those keys and nothing else, if there can be one; otherwise it signals an error.
    The function may have side effects (on its state [S]). *)
Theorem C49_map_as {S} (fn : S -> value -> S * value) s ty h a more cs src kt :
  iterable h a more cs -> multiple_collection h a more = Val src -> Forall (fun c => coll_key_test c = kt) cs ->
  exists out, visits cs out /\ exists F, forall fuel, (F <= fuel)%nat ->
    (possible ty kt (new_entries fn s out) ->
       exists c, map_as fn fuel s ty h a more = Val ((call_all fn s (arguments out)).1, c) /\
         has_type ty c /\ has_entries c (new_entries fn s out) /\ wf_coll c) /\
    (~ possible ty kt (new_entries fn s out) -> exists msg, map_as fn fuel s ty h a more = Signal msg).
Proof.
  intros (H1 & H2 & H3) Hm Hkt. destruct (map_as_ok fn h a more cs src kt s ty H1 H2 H3 Hkt Hm) as (out & Hv & F & HF).
  exists out. split; [done|]. exists F. intros fuel Hf. destruct (HF fuel Hf) as [M1 M2]. rewrite new_entries_results. unfold map_as. rewrite Hm. cbn [obind].
  rewrite <- call_args_snd. split; [exact M1|exact M2].
Qed.

(** [map] returns a collection like the first one: the same class, a list for a range. *)
Theorem C49_map {S} (fn : S -> value -> S * value) s h a more c cs src kt :
  iterable h a more (c :: cs) -> multiple_collection h a more = Val src -> Forall (fun c => coll_key_test c = kt) (c :: cs) ->
  exists out, visits (c :: cs) out /\ exists F, forall fuel, (F <= fuel)%nat ->
    (possible (type_for_copy c) kt (new_entries fn s out) ->
       exists c', map_ fn fuel s h a more = Val ((call_all fn s (arguments out)).1, c') /\
         match c with CRange _ _ _ | CRangeInf _ _ => has_type TList c' | _ => same_class c c' end /\
         has_entries c' (new_entries fn s out) /\ wf_coll c') /\
    (~ possible (type_for_copy c) kt (new_entries fn s out) -> exists msg, map_ fn fuel s h a more = Signal msg).
Proof.
  intros Hi Hm Hkt. destruct (C49_map_as fn s (type_for_copy c) h a more (c :: cs) src kt Hi Hm Hkt) as (out & Hv & F & HF).
  exists out. split; [done|]. exists F. intros fuel Hf. destruct (HF fuel Hf) as [M1 M2].
  assert (h !! a = Some c) as Hc by (destruct Hi as (Hh & _); by inversion Hh). unfold map_, at_. rewrite Hc. cbn [obind]. split; [|done].
  intros Hp. destruct (M1 Hp) as (c' & E & Ht & He & Hwf). exists c'. split; [done|]. split; [|done]. destruct c, c'; cbn in *; congruence.
Qed.

(** Over an infinite range it is an error. *)
Theorem C49_infinite {S} (fn : S -> value -> S * value) fuel s ty (h : heap) a from by_ : h !! a = Some (CRangeInf from by_) ->
  exists msg, map_as fn fuel s ty h a [] = Signal msg /\ map_ fn fuel s h a [] = Signal msg.
Proof. intros H. unfold map_, map_as, map_as_one, at_. cbn. unfold at_. rewrite H. cbn. by eexists. Qed.

(** When there can be one: always when the sources and the result are sequences, but for a string of
    something else than characters.  Then element [i] of the result is the result of call [i], which
    was on the elements [i] of the sources. *)
Theorem C49_sequences {S} (fn : S -> value -> S * value) s ty h a more cs src :
  iterable h a more cs -> multiple_collection h a more = Val src -> forallb is_sequence cs = true -> type_is_sequence ty = true ->
  (ty = TVec VkString -> forall s v, is_char (fn s v).2 = true) ->
  exists out F, (forall i k vs, out !! i = Some (k, vs) <-> k = KInt (Z.of_nat i) /\ aligned cs k = Some vs) /\
    forall fuel, (F <= fuel)%nat -> exists c, map_as fn fuel s ty h a more = Val ((call_all fn s (arguments out)).1, c) /\
      has_type ty c /\ forall i, value_at c (KInt (Z.of_nat i)) = (call_all fn s (arguments out)).2 !! i.
Proof.
  intros Hi Hm Hsq Hty Hch.
  assert (Forall (fun c => coll_key_test c = 0%nat) cs) as Hkt.
  { apply Forall_forall. intros c Hc. rewrite forallb_forall in Hsq. apply seq_kt, Hsq. by apply elem_of_list_In. }
  destruct (C49_map_as fn s ty h a more cs src 0 Hi Hm Hkt) as (out & Hv & F & HF). exists out, F.
  assert (cs <> []) as Hne by (destruct Hi as (Hh & _); by inversion Hh).
  pose proof (sequence_keys cs out Hsq Hne Hv) as Hix. split.
  { intros i k vs. split.
    - intros Hl. split; [|apply Hv; by eapply elem_of_list_lookup_2]. apply (Hix i k (argument vs)). unfold call_args. by rewrite list_lookup_fmap, Hl.
    - intros (-> & Ha). apply Hv in Ha. apply elem_of_list_lookup in Ha as [j Hj].
      assert (KInt (Z.of_nat i) = KInt (Z.of_nat j)) as E. { apply (Hix j _ (argument vs)). unfold call_args. by rewrite list_lookup_fmap, Hj. }
      injection E as E. assert (j = i) as -> by lia. done. }
  intros fuel Hf. destruct (HF fuel Hf) as [M1 _]. assert (indexed (new_entries fn s out)) as Hin.
  { rewrite new_entries_results. by apply results_indexed. }
  destruct M1 as (c & E & Ht & He & _).
  { split; [by destruct ty|]. split; [intros _; by apply indexed_in_range|]. intros Ety. rewrite new_entries_results. apply entries_chars. rewrite results_values.
    clear -Hch Ety. specialize (Hch Ety). generalize ((call_args out).*2) s. intros l. induction l as [|x l IH]; intros s0; [constructor|]. cbn.
    specialize (Hch s0 x). destruct (fn s0 x) as [s' v]. specialize (IH s'). destruct (call_all fn s' l). cbn in *. by constructor. }
  exists c. split; [done|]. split; [done|]. intros i. apply option_eq. intros v. rewrite (He (KInt (Z.of_nat i)) v). rewrite indexed_lookup by done.
  rewrite new_entries_results, results_values. rewrite <- call_args_snd. split; [|eauto]. intros (j & Ej & Hj). injection Ej. intros. by replace i with j by lia.
Qed.

(** More than one buffer: thirty elements of a list into a vector, with a function that numbers the
    calls; the odd and even numbers of a table into a vector and into a table; two keys that no vector
    can have. *)
Definition number (s : Z) (v : value) : Z * value := (s + 1, VVec [VInt s; v]).
Definition thirty : list value := map (fun i => VObj i) (seq 0 30).
Definition mapping : heap :=
  [CList thirty; CTab 0 (map (fun i => (KInt (29 - Z.of_nat i), VObj i)) (seq 0 30)); CTab 0 [(KObj 1, VFalse); (KInt 0, VFalse)]; CVec VkString [VChr 65; VChr 66]].

Example C49_sample :
  iterable mapping 0 [] [CList thirty] /\
  map_as number 100 0 (TVec VkObject) mapping 0 [] = Val (30, CVec VkObject (map (fun i => VVec [VInt (Z.of_nat i); VObj i]) (seq 0 30))) /\
  map_as number 100 0 (TVec VkObject) mapping 1 [] = Val (30, CVec VkObject (map (fun i => VVec [VInt (29 - Z.of_nat i); VObj (29 - i)]) (seq 0 30))) /\
  map_as number 100 0 (TTab 0) mapping 1 [] = Val (30, CTab 0 (map (fun i => (KInt (29 - Z.of_nat i), VVec [VInt (Z.of_nat i); VObj i])) (seq 0 30))) /\
  map_ number 100 0 mapping 0 [1%nat] = Val (30, CList (map (fun i => VVec [VInt (Z.of_nat i); VVec [VObj i; VObj (29 - i)]]) (seq 0 30))) /\
  map_as number 100 0 TDeq mapping 2 [] = Signal "invalid index" /\
  map_ number 100 0 mapping 3 [] = Signal "type error" /\
  map_ (fun s v => (s, v)) 100 0 mapping 3 [] = Val (0, CVec VkString [VChr 65; VChr 66]).
Proof.
  split; [|repeat split; vm_compute; reflexivity]. split; [by repeat constructor|]. split; [by repeat constructor|]. right. left. by left.
Qed.

Print Assumptions C49_map_as.
Print Assumptions C49_map.
Print Assumptions C49_infinite.
Print Assumptions C49_sequences.
