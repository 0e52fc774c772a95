(** Theorems about bit vectors and bit sets (C17, C18, C19). *)
From Coq Require Import Sorting.Sorted.
From Verif Require Import Base BitsModel BitsSpec BitsProofs BitSetProofs.
From Coq Require Import ZifyBool ZifyNat.
Ltac Zify.zify_post_hook ::= Z.div_mod_to_equations.
Local Open Scope nat_scope.

(** ** C19: bit vectors *)

Theorem C19_and_pointwise : computes bit_vector_and (fun x y => x && y).
Proof. exact and_computes. Qed.
Theorem C19_andc2_pointwise : computes bit_vector_andc2 (fun x y => x && negb y).
Proof. exact andc2_computes. Qed.
Theorem C19_or_pointwise : computes bit_vector_or (fun x y => x || y).
Proof. exact or_computes. Qed.
Theorem C19_xor_pointwise : computes bit_vector_xor xorb.
Proof. exact xor_computes. Qed.

(** The destructive forms, also when both arguments are the same vector. *)
Theorem C19_and_bang_pointwise : computes_bang bit_vector_and_bang (fun x y => x && y).
Proof. exact and_computes_bang. Qed.
Theorem C19_andc2_bang_pointwise : computes_bang bit_vector_andc2_bang (fun x y => x && negb y).
Proof. exact andc2_computes_bang. Qed.
Theorem C19_or_bang_pointwise : computes_bang bit_vector_or_bang (fun x y => x || y).
Proof. exact or_computes_bang. Qed.
Theorem C19_xor_bang_pointwise : computes_bang bit_vector_xor_bang xorb.
Proof. exact xor_computes_bang. Qed.

Theorem C19_not_pointwise h a pad v :
  h !! a = Some v -> bv_wf v ->
  exists v', bit_vector_not h a pad = Val (h ++ [v'], length h, negb pad) /\ bv_wf v' /\
    bv_size v' = bv_size v /\ forall i, ext v' (negb pad) i = negb (ext v pad i).
Proof. exact (not_spec h a pad v). Qed.

Theorem C19_not_bang_pointwise h a pad v :
  h !! a = Some v -> bv_wf v ->
  exists v', bit_vector_not_bang h a pad = Val (<[a := v']> h, a, negb pad) /\ bv_wf v' /\
    bv_size v' = bv_size v /\ forall i, ext v' (negb pad) i = negb (ext v pad i).
Proof. exact (not_bang_spec h a pad v). Qed.

(** make, with round-up-size? and copy-from. *)
Theorem C19_make h n (round_up fill : bool) :
  exists v, make_bv h n round_up fill None = Val (h ++ [v], length h) /\ bv_wf v /\
    bv_size v = (if round_up then (n + 63) / 64 * 64 else n) /\
    forall i, i < bv_size v -> bit v i = fill.
Proof. exact (make_bv_spec h n round_up fill None I). Qed.

Theorem C19_make_copy_from h n (round_up fill : bool) c cv :
  h !! c = Some cv -> bv_wf cv ->
  exists v, make_bv h n round_up fill (Some c) = Val (h ++ [v], length h) /\ bv_wf v /\
    bv_size v = (if round_up then (n + 63) / 64 * 64 else n) /\
    forall i, i < bv_size v -> bit v i = ext cv fill i.
Proof.
  intros Hc Wc.
  destruct (make_bv_spec h n round_up fill (Some c)) as (v & E & W & S & B); [by exists cv|].
  exists v. rewrite Hc in B. by split_and!.
Qed.

Theorem C19_element h a v i :
  h !! a = Some v -> bv_wf v ->
  bv_element h a i = if decide (i < bv_size v) then Val (bit v i)
                     else Signal "element-range-error"%string.
Proof. exact (bv_element_spec h a v i). Qed.

Theorem C19_element_setter b h a v i :
  h !! a = Some v -> bv_wf v -> i < bv_size v ->
  exists v', bv_element_setter b h a i = Val (<[a := v']> h) /\ bv_wf v' /\
    bv_size v' = bv_size v /\ forall j, bit v' j = if decide (j = i) then b else bit v j.
Proof. exact (bv_element_setter_spec b h a v i). Qed.

Theorem C19_bit_count h a v b :
  h !! a = Some v -> bv_wf v ->
  bit_count h a b = Val (length (filter (fun k => bit v k = b) (seq 0 (bv_size v)))).
Proof. exact (bit_count_spec h a v b). Qed.

(** fill! changes exactly the bits in [start,end).  Missing from the full statement: ranges
    inside one word that begin or end at bit 62 or 63, see the refutation below, and a start
    at the end of a vector that fills whole words. *)
Theorem C19_fill_partial h a v value start last last_arg :
  h !! a = Some v -> bv_wf v ->
  start <= last <= bv_size v -> start < bv_size v ->
  (start / 64 = last / 64 -> start mod 64 < 62 /\ last mod 64 < 62) ->
  (last_arg = Some last \/ (last_arg = None /\ last = bv_size v)) ->
  exists v', fill_bang h a value start last_arg = Val (<[a := v']> h) /\ bv_wf v' /\
    bv_size v' = bv_size v /\
    forall i, i < bv_size v ->
      bit v' i = if decide (start <= i < last) then value else bit v i.
Proof. intros. eapply fill_spec; eauto. Qed.

(** fill! of any whole vector of 62 or 63 bits signals an overflow: the mask is computed by
    ash(-1, 62) or ash(-1, 63) on <integer>. *)
Theorem C19_fill_refuted h a v value :
  h !! a = Some v -> bv_size v = 62 \/ bv_size v = 63 ->
  fill_bang h a value 0 None = Signal "arithmetic-overflow-error"%string.
Proof.
  intros Ha Hs. unfold fill_bang. rewrite (get_val _ _ _ Ha). cbn [obind].
  destruct Hs as [->| ->]; reflexivity.
Qed.

(** ** C17: bit sets *)

(** For every history of set operations on any number of sets, aliased arguments included,
    every query answers as the mathematical sets do, and a negative element signals an error.
    The vectors of sets may not have 62 or 63 bits if empty-bit-set! or universal-bit-set! is
    used at all. *)
Theorem C17_history ops :
  ops_valid 0 ops ->
  Forall (fun o => op_fills o = false) ops \/
  Forall (fun o => Forall (fun n => n <> 62 /\ n <> 63) (op_hints o)) ops ->
  match spec_run [] ops with
  | Some As => exists st, run ([], []) ops = Val st /\ answers st As
  | None => run ([], []) ops = Signal "element-range-error"%string
  end.
Proof.
  intros V Hc.
  assert (exists P : nat -> Prop, (forall k, P (k * 64)) /\
    Forall (fun o => Forall P (op_hints o)) ops /\
    (Exists (fun o => op_fills o = true) ops -> forall n, P n -> n <> 62 /\ n <> 63))
    as (P & HP64 & HF & Hfill).
  { destruct Hc as [Hc|Hc].
    - exists (fun _ => True). split_and!; [done| |].
      + apply Forall_forall. intros o _. by apply Forall_forall.
      + intros He. exfalso. apply Exists_exists in He as (o & Ho & Hof).
        rewrite Forall_forall in Hc. specialize (Hc o Ho). congruence.
    - exists (fun n => n <> 62 /\ n <> 63). split_and!; [|done|done]. intros k. lia. }
  pose proof (run_spec P HP64 ops ([], []) [] (inv_init P) V HF Hfill) as Hr.
  destruct (spec_run [] ops) as [As|]; [|done].
  destruct Hr as (st & E & L & _ & I). exists st. split; [done|].
  intros k A HA.
  assert (forall k A, As !! k = Some A -> exists b, snd st !! k = Some b /\ holds P (fst st) b A) as G.
  { intros k' A' HA'. destruct (lookup_lt_is_Some_2 (snd st) k') as [b Hb].
    - rewrite L. by eapply lookup_lt_Some.
    - exists b. split; [done|]. by eapply I. }
  destruct (G k A HA) as (b & Hb & H). exists b. split_and!; auto.
  - intros x. by apply (member_spec P).
  - by apply (size_spec P).
  - by apply (empty_spec P).
  - exact (pad_finite P (fst st) b A H).
  - intros j A' HA'. destruct (G j A' HA') as (b' & Hb' & H'). exists b'. split; [done|].
    eapply (equal_spec P); eauto. intros Hj%bool_decide_eq_true. congruence.
Qed.

(** The sets in a history and their members: {1, 130} u co-finite, destructive update of a set
    with itself, growth across words. *)
Definition sample_ops : list bop :=
  [MakeSet (Some 10) None [1%Z; 130%Z]; MakeSet None (Some 5) []; SetRemoveBang 1 200%Z;
   Union 0 1; DifferenceBang 0 0; Complement 1; IntersectionBang 1 3; UniversalBang 0].
Example sample_valid : ops_valid 0 sample_ops.
Proof. repeat (split; [repeat constructor|]). exact I. Qed.
Example sample_hints :
  Forall (fun o => Forall (fun n => n <> 62 /\ n <> 63) (op_hints o)) sample_ops.
Proof. repeat constructor; discriminate. Qed.
Example sample_run :
  match run ([], []) sample_ops with
  | Val (h, s) =>
      match s !! 2, s !! 3 with
      | Some b, Some c =>
          (set_member h b 200%Z, set_member h b 1%Z, set_member h b 201%Z, set_size h b,
           set_size h c, set_member h c 200%Z)
          = (Val false, Val true, Val true, Val None, Val (Some 6), Val true)
      | _, _ => False
      end
  | _ => False
  end.
Proof. vm_compute. reflexivity. Qed.

(** Emptying a set made with upper-bound-hint: 63 signals instead. *)
Theorem C17_empty_bang_refuted :
  ops_valid 0 [MakeSet (Some 63) None []; EmptyBang 0] /\
  run ([], []) [MakeSet (Some 63) None []; EmptyBang 0]
  = Signal "arithmetic-overflow-error"%string.
Proof. split; [repeat (split; [repeat constructor|]); exact I|reflexivity]. Qed.

(** element on an infinite set signals a type error for every member beyond the stored bits,
    although member? says it is a member. *)
Theorem C17_element_infinite_refuted h b v x :
  h !! bs_vec b = Some v -> bs_pad b = true -> (Z.of_nat (bv_size v) <= x)%Z ->
  set_member h b x = Val true /\ set_element h b x = Signal "type-error"%string.
Proof.
  intros Hv Hp Hx. unfold set_member, set_element.
  rewrite (proj2 (Z.ltb_ge _ _)) by lia. rewrite !(get_val _ _ _ Hv). cbn [obind].
  rewrite (proj2 (Nat.ltb_ge _ _)) by lia. rewrite Hp. by rewrite andb_false_r.
Qed.

(** ** C18: iteration *)

(** Every finite set of every history: forward iteration. *)
Theorem C18_forward_finite ops As st :
  ops_valid 0 ops -> spec_run [] ops = Some As -> run ([], []) ops = Val st ->
  Forall (fun o => op_fills o = false) ops \/
  Forall (fun o => Forall (fun n => n <> 62 /\ n <> 63) (op_hints o)) ops ->
  forall k b A, snd st !! k = Some b -> As !! k = Some A -> finite_set A ->
  forall n, exists l fin, forward_elements n (fst st) b = Val (l, fin) /\ lists_up A l fin /\
    length l <= n /\ (fin = false -> length l = n).
Proof.
  intros V HAs Hrun Hc k b A Hb HA Hfin n.
  assert (exists P : nat -> Prop, (forall k, P (k * 64)) /\
    Forall (fun o => Forall P (op_hints o)) ops /\
    (Exists (fun o => op_fills o = true) ops -> forall n, P n -> n <> 62 /\ n <> 63))
    as (P & HP64 & HF & Hfill).
  { destruct Hc as [Hc|Hc].
    - exists (fun _ => True). split_and!; [done| |].
      + apply Forall_forall. intros o _. by apply Forall_forall.
      + intros He. exfalso. apply Exists_exists in He as (o & Ho & Hof).
        rewrite Forall_forall in Hc. specialize (Hc o Ho). congruence.
    - exists (fun n => n <> 62 /\ n <> 63). split_and!; [|done|done]. intros k'. lia. }
  pose proof (run_spec P HP64 ops ([], []) [] (inv_init P) V HF Hfill) as Hr.
  rewrite HAs in Hr. destruct Hr as (st' & E & L & _ & I). rewrite Hrun in E. simplify_eq.
  eapply (forward_spec P); eauto.
Qed.

(** When every upper-bound-hint: and all-members-from: is a multiple of 64, forward iteration
    is right for infinite sets too and backward iteration is right. Missing: other hints, for
    which the claim is false (below). *)
Theorem C18_iteration_aligned_partial ops As st :
  ops_valid 0 ops -> spec_run [] ops = Some As -> run ([], []) ops = Val st ->
  Forall (fun o => Forall (fun n => n mod 64 = 0) (op_hints o)) ops ->
  forall k b A, snd st !! k = Some b -> As !! k = Some A ->
  (forall n, exists l fin, forward_elements n (fst st) b = Val (l, fin) /\ lists_up A l fin /\
     length l <= n /\ (fin = false -> length l = n)) /\
  (finite_set A -> exists l, backward_elements (fst st) b = Val l /\ lists_down A l) /\
  (~ finite_set A -> exists m, backward_elements (fst st) b = Signal m).
Proof.
  intros V HAs Hrun HF k b A Hb HA.
  set (P := fun n => n mod 64 = 0).
  assert (forall k, P (k * 64)) as HP64 by (intros; unfold P; lia).
  pose proof (run_spec P HP64 ops ([], []) [] (inv_init P) V HF) as Hr.
  rewrite HAs in Hr. destruct Hr as (st' & E & L & _ & I).
  { intros _ n Hn. unfold P in Hn. split; intros ->; discriminate. }
  rewrite Hrun in E. simplify_eq.
  pose proof (I k b A Hb HA) as H. split.
  - intros n. eapply (forward_spec P); eauto.
  - eapply (backward_spec P); eauto. intros v Hv.
    destruct H as (v' & Hv' & W & Pv & _). simplify_eq. by apply aligned_tail_clear.
Qed.

(** More generally backward iteration is right for every finite set whose vector has no
    stray ones above its size. *)
Theorem C18_backward_partial h b v A :
  h !! bs_vec b = Some v -> bv_wf v -> (forall i, ext v (bs_pad b) i = A i) ->
  (forall i, bv_size v <= i -> bit v i = false) -> finite_set A ->
  exists l, backward_elements h b = Val l /\ lists_down A l.
Proof.
  intros Hv Wv Bv Ht Hf. apply (backward_spec (fun _ => True)); auto.
  - exists v. by split_and!.
  - intros v' Hv'. by simplify_eq.
Qed.

Definition aligned_ops : list bop :=
  [MakeSet (Some 128) None [1%Z; 130%Z]; MakeSet None (Some 64) [3%Z]; Union 0 1].
Example aligned_sample :
  ops_valid 0 aligned_ops /\
  Forall (fun o => Forall (fun n => n mod 64 = 0) (op_hints o)) aligned_ops /\
  match run ([], []) aligned_ops with
  | Val (h, s) =>
      match s !! 0, s !! 2 with
      | Some b, Some c => (forward_elements 9 h b, backward_elements h b, forward_elements 4 h c)
          = (Val ([1; 130], true)%Z, Val [130; 1]%Z, Val ([1; 3; 64; 65], false)%Z)
      | _, _ => False
      end
  | _ => False
  end.
Proof.
  split; [repeat (split; [repeat constructor|]); exact I|].
  split; [repeat constructor|vm_compute; reflexivity].
Qed.

(** Iterating the infinite set of all numbers from 10 starts at 64. *)
Theorem C18_forward_infinite_refuted :
  exists st b, run ([], []) [MakeSet None (Some 10) []] = Val st /\ snd st !! 0 = Some b /\
    set_member (fst st) b 10%Z = Val true /\
    forward_elements 2 (fst st) b = Val ([64; 65]%Z, false).
Proof. eexists _, _. split_and!; reflexivity. Qed.

(** Backward iteration over a finite set whose vector has stray bits above its size yields
    numbers that are not members. *)
Definition stray_ops : list bop :=
  [MakeSet (Some 10) None []; Complement 0; MakeSet None (Some 10) []; Difference 1 2].
Theorem C18_backward_refuted :
  exists st b l, run ([], []) stray_ops = Val st /\ snd st !! 3 = Some b /\
    bs_pad b = false /\ set_member (fst st) b 63%Z = Val false /\
    backward_elements (fst st) b = Val l /\ 63%Z ∈ l.
Proof.
  eexists _, _, _. split; [vm_compute; reflexivity|]. split; [reflexivity|].
  split; [reflexivity|]. split; [reflexivity|]. split; [vm_compute; reflexivity|].
  apply elem_of_list_here.
Qed.

Print Assumptions C19_and_pointwise.
Print Assumptions C19_andc2_pointwise.
Print Assumptions C19_or_pointwise.
Print Assumptions C19_xor_pointwise.
Print Assumptions C19_and_bang_pointwise.
Print Assumptions C19_andc2_bang_pointwise.
Print Assumptions C19_or_bang_pointwise.
Print Assumptions C19_xor_bang_pointwise.
Print Assumptions C19_not_pointwise.
Print Assumptions C19_not_bang_pointwise.
Print Assumptions C19_make.
Print Assumptions C19_make_copy_from.
Print Assumptions C19_element.
Print Assumptions C19_element_setter.
Print Assumptions C19_bit_count.
Print Assumptions C19_fill_partial.
Print Assumptions C19_fill_refuted.
Print Assumptions C17_history.
Print Assumptions C17_empty_bang_refuted.
Print Assumptions C17_element_infinite_refuted.
Print Assumptions C18_forward_finite.
Print Assumptions C18_iteration_aligned_partial.
Print Assumptions C18_backward_partial.
Print Assumptions C18_forward_infinite_refuted.
Print Assumptions C18_backward_refuted.
