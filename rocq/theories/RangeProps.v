(** Ranges: theorems for C11 and C12. *)
From Coq Require Import ZifyBool ZifyNat ZifyN Lia.
From Verif Require Import Base RangeModel RangeSpec RangeProofs RangeMakeProofs RangeInterProofs.
Local Open Scope Z_scope.

(** *** C11: the range that make builds is the progression that was asked for *)
(** Without to:, below: and above:. *)
Theorem C11_make_unbounded f b :
  exists r, make_range f b None None None None = Val r /\ wf_range r /\
    requested f b None None None None (denote r).
Proof. apply make_unbounded. Qed.
Theorem C11_make_size f b n : 0 <= n -> (b = 0 -> 1 <= n) ->
  exists r, make_range f b None None None (Some n) = Val r /\ wf_range r /\
    requested f b None None None (Some n) (denote r).
Proof. apply make_sized. Qed.
(** With to:, provided it is not more than one step before the start. *)
Theorem C11_make_to_partial f b t : b <> 0 -> (if bool_decide (b > 0) then f - b <= t else f - b >= t) ->
  exists r, make_range f b (Some t) None None None = Val r /\ wf_range r /\
    requested f b (Some t) None None None (denote r).
Proof. apply make_to. Qed.
(** With to: and size:, an error or the range asked for. *)
Theorem C11_make_to_size_partial f b t n : b <> 0 -> (if bool_decide (b > 0) then f - b <= t else f - b >= t) ->
  make_range f b (Some t) None None (Some n) = Signal "range-size-mismatch-error"%string \/
  exists r, make_range f b (Some t) None None (Some n) = Val r /\ wf_range r /\
    requested f b (Some t) None None (Some n) (denote r).
Proof.
  intros Hb Ht. pose proof (make_to_sized f b t n Hb Ht) as H.
  case_bool_decide; [by right|by left].
Qed.
(** With below: or above:, provided the bound is a whole number of steps from the start. *)
Theorem C11_make_below_partial f b bound : b > 0 -> f <= bound -> (b | bound - f) ->
  exists r, make_range f b None (Some bound) None None = Val r /\ wf_range r /\
    requested f b None (Some bound) None None (denote r).
Proof. apply make_below. Qed.
Theorem C11_make_above_partial f b bound : b < 0 -> bound <= f -> (b | bound - f) ->
  exists r, make_range f b None None (Some bound) None = Val r /\ wf_range r /\
    requested f b None None (Some bound) None (denote r).
Proof. apply make_above. Qed.
(** by: 0 with any below:, above: and size:. *)
Theorem C11_make_constant f below above size : (forall n, size = Some n -> 1 <= n) ->
  exists r, make_range f 0 None below above size = Val r /\ wf_range r /\
    requested f 0 None below above size (denote r).
Proof. apply make_constant. Qed.

Example make_cases :
  make_range 0 1 None (Some 10) None None = Val (RFinite 0 1 10) /\
  make_range 10 (-2) (Some 1) None None None = Val (RFinite 10 (-2) 5) /\
  make_range 10 (-2) None None (Some 0) None = Val (RFinite 10 (-2) 5) /\
  make_range 5 1 (Some 4) None None None = Val REmpty /\
  make_range 0 3 None (Some 9) None None = Val (RFinite 0 3 3).
Proof. done. Qed.

(** range(from: 0, below: 10, by: 3) is 0, 3, 6: the term 9, below 10, is missing. *)
Theorem C11_make_below_refuted :
  exists f b bound r, make_range f b None (Some bound) None None = Val r /\
    ~ requested f b None (Some bound) None None (denote r).
Proof.
  exists 0, 3, 10, (RFinite 0 3 3). split; [done|]. intros H. destruct (H 3%nat) as [H1 _].
  assert (E : denote (RFinite 0 3 3) 3%nat = Some 9); [|done]. apply H1. split; [|done].
  intros j Hj. repeat split; try done. intros ? [= <-]. lia.
Qed.
(** range(from: 10, to: 0) has no members but is not empty? and has size -9. *)
Theorem C11_make_inverted_refuted :
  exists f b t r, make_range f b (Some t) None None None = Val r /\
    empty_p r = false /\ size_of r = Some (-9) /\ forall k, denote r k = None.
Proof. exists 10, 1, 0, (RFinite 10 1 (-9)). by repeat split. Qed.
(** range(from: 0, to: 3, below: 10) goes on to 9. *)
Theorem C11_make_to_below_refuted :
  exists f b t bound r, make_range f b (Some t) (Some bound) None None = Val r /\
    exists k x, denote r k = Some x /\ x > t.
Proof. exists 0, 1, 3, 10, (RFinite 0 1 10). split; [done|]. by exists 9%nat, 9. Qed.

(** *** C11: the observers of a range *)
Theorem C11_element r k : wf_range r -> element r (Z.of_nat k) = denote r k.
Proof. apply element_spec. Qed.
(** A negative key into an infinite range gives a number instead of an error. *)
Theorem C11_element_negative_refuted :
  exists r k x, wf_range r /\ k < 0 /\ element r k = Some x /\ ~ in_seq (denote r) x.
Proof.
  exists (RInfinite 0 1), (-5), (-5). split; [done|]. split; [done|]. split; [done|].
  cbn [denote]. rewrite in_progression_inf. intros (k & Hk & H). lia.
Qed.
Theorem C11_size r : wf_range r ->
  match size_of r with
  | Some n => 0 <= n /\ forall k, is_Some (denote r k) <-> Z.of_nat k < n
  | None => forall k, is_Some (denote r k)
  end.
Proof. apply size_spec. Qed.
Theorem C11_empty r : wf_range r -> (empty_p r = true <-> forall k, denote r k = None).
Proof. apply empty_spec. Qed.
Theorem C11_last r n : wf_range r -> size_of r = Some n ->
  match last r with
  | Val x => denote r (Z.to_nat (n - 1)) = Some x /\ 1 <= n
  | _ => n = 0
  end.
Proof. apply last_spec. Qed.
Theorem C11_find_key x r : wf_range r ->
  match find_key x r with
  | Some k => 0 <= k /\ denote r (Z.to_nat k) = Some x /\ forall j, denote r j = Some x -> (Z.to_nat k <= j)%nat
  | None => ~ in_seq (denote r) x
  end.
Proof. apply find_key_spec. Qed.
Theorem C11_member x r : wf_range r -> (member x r = true <-> in_seq (denote r) x).
Proof. apply member_spec. Qed.

(** *** C11: iteration in both directions visits the members with their keys *)
Theorem C11_forward_iteration r n : wf_range r ->
  forward_take n r (forward_init r) = prefix_with_keys (denote r) n.
Proof. apply forward_take_spec. Qed.
Theorem C11_backward_iteration r n : wf_range r -> size_of r = Some (Z.of_nat n) ->
  exists s, backward_init r = Val s /\
    backward_take n r s = rev (prefix_with_keys (denote r) n).
Proof. apply backward_all. Qed.

(** *** C11: reverse, copy-sequence, shallow-copy *)
Theorem C11_reverse r n : wf_range r -> size_of r = Some (Z.of_nat n) ->
  (exists r', reverse r = Val r' /\ wf_range r' /\ size_of r' = Some (Z.of_nat n) /\
     forall k, (k < n)%nat -> denote r' k = denote r (n - 1 - k)%nat) /\
  (exists r', reverse_bang r = Val r' /\ wf_range r' /\ size_of r' = Some (Z.of_nat n) /\
     forall k, (k < n)%nat -> denote r' k = denote r (n - 1 - k)%nat).
Proof. intros. split; [by apply reverse_spec|by apply reverse_bang_spec]. Qed.
Theorem C11_copy_partial f b n start e :
  wf_range (RFinite f b n) -> 0 <= start < n -> start <= e ->
  exists r', copy_sequence (RFinite f b n) start (Some e) = Val r' /\ wf_range r' /\
    forall k, denote r' k =
      if bool_decide (start + Z.of_nat k < e) then denote (RFinite f b n) (Z.to_nat start + k)%nat else None.
Proof. apply copy_sequence_finite. Qed.
Theorem C11_copy_constant_partial f n start e :
  wf_range (RConst f (Some n)) -> 0 <= start < n -> start < e ->
  exists r', copy_sequence (RConst f (Some n)) start (Some e) = Val r' /\ wf_range r' /\
    forall k, denote r' k =
      if bool_decide (start + Z.of_nat k < e) then denote (RConst f (Some n)) (Z.to_nat start + k)%nat else None.
Proof. apply copy_sequence_const. Qed.
Theorem C11_copy_infinite r start : wf_range r -> size_of r = None -> 0 <= start ->
  exists r', copy_sequence r start None = Val r' /\ wf_range r' /\
    forall k, denote r' k = denote r (Z.to_nat start + k)%nat.
Proof. apply copy_sequence_infinite. Qed.
(** copy-sequence(r, start: size(r)) signals, although the empty copy is well defined. *)
Theorem C11_copy_end_refuted :
  exists r n, wf_range r /\ size_of r = Some n /\
    copy_sequence r n (Some n) = Signal "element-range-error"%string.
Proof. by exists (RFinite 0 1 3), 3. Qed.
Theorem C11_shallow_copy r n : wf_range r -> size_of r = Some (Z.of_nat n) ->
  exists l, shallow_copy r = Val l /\ (forall i, l !! i = denote r i).
Proof. apply shallow_copy_spec. Qed.

Example observer_cases :
  wf_range (RFinite 10 (-3) 4) /\ member 4 (RFinite 10 (-3) 4) = true /\ member 5 (RFinite 10 (-3) 4) = false /\
  reverse (RFinite 10 (-3) 4) = Val (RFinite 1 3 4) /\
  forward_take 9 (RFinite 10 (-3) 4) 10 = [(0, 10); (1, 7); (2, 4); (3, 1)] /\
  copy_sequence (RFinite 10 (-3) 4) 1 (Some 3) = Val (RFinite 7 (-3) 2).
Proof. by repeat split. Qed.

(** *** C11: = *)
Theorem C11_equal_sound r1 r2 : range_equal r1 r2 = true -> forall k, denote r1 k = denote r2 k.
Proof. apply equal_sound. Qed.
Theorem C11_equal_complete_partial r1 r2 : wf_range r1 -> wf_range r2 ->
  (forall k, denote r1 k = denote r2 k) ->
  denote r1 1%nat <> None \/ denote r1 0%nat = None ->
  range_equal r1 r2 = true.
Proof. apply equal_complete. Qed.
(** Two one-element ranges with the same element are different when their steps are. *)
Theorem C11_equal_refuted :
  exists r1 r2, wf_range r1 /\ wf_range r2 /\ (forall k, denote r1 k = denote r2 k) /\ range_equal r1 r2 = false.
Proof.
  exists (RFinite 4 1 1), (RFinite 4 2 1). repeat split; try done. intros k. cbn [denote]. unfold progression.
  case_bool_decide; [|done]. f_equal. lia.
Qed.

(** *** C11: add! and remove! *)
Theorem C11_add r l elt : wf_range r -> (forall i, denote r i = l !! i) ->
  exists x l', add_bang r elt = Val x /\ holds x l' /\ l' ≡ₚ elt :: l.
Proof. apply add_spec. Qed.
Theorem C11_add_infinite f b elt : wf_range (RInfinite f b) ->
  match add_bang (RInfinite f b) elt with
  | Val (IsRange r) => denote r 0%nat = Some elt /\ forall k, denote r (S k) = denote (RInfinite f b) k
  | Val (IsList _) => False
  | o => o = Signal "incompatible-range-error"%string /\ elt <> f - b
  end.
Proof. apply add_infinite. Qed.
Theorem C11_remove_partial f b n l elt count :
  wf_range (RFinite f b n) -> (forall i, denote (RFinite f b n) i = l !! i) ->
  (forall c, count = Some c -> c > 0) ->
  (count = None -> elt ∈ l -> elt = f \/ elt = f + b * (n - 1)) ->
  exists x, remove_bang (RFinite f b n) elt count = Val x /\ holds x (filter (fun y => y <> elt) l).
Proof. apply remove_spec. Qed.
Theorem C11_remove_constant_partial f n l elt :
  wf_range (RConst f (Some n)) -> (forall i, denote (RConst f (Some n)) i = l !! i) ->
  elt = f \/ 2 <= n ->
  exists x, remove_bang (RConst f (Some n)) elt (Some 1) = Val x /\ holds x (remove_first l elt).
Proof. apply remove_const. Qed.
(** remove!(range(from: 0, size: 3), 1) leaves the range as it was. *)
Theorem C11_remove_middle_refuted :
  exists r elt, wf_range r /\ in_seq (denote r) elt /\ remove_bang r elt None = Val (IsRange r).
Proof. exists (RFinite 0 1 3), 1. split; [done|]. split; [|done]. by exists 1%nat. Qed.
(** remove! of an element that is not in a one-element constant range empties it. *)
Theorem C11_remove_absent_refuted :
  exists r elt, wf_range r /\ ~ in_seq (denote r) elt /\ (exists x, in_seq (denote r) x) /\
    remove_bang r elt None = Val (IsRange REmpty).
Proof.
  exists (RConst 3 (Some 1)), 5. split; [done|]. split; [|split; [|done]].
  - rewrite (const_in 3 (Some 1) 5) by done. lia.
  - exists 3. by exists 0%nat.
Qed.
(** remove! removes only one of the equal members of a constant range. *)
Theorem C11_remove_all_refuted :
  exists r elt r', wf_range r /\ remove_bang r elt None = Val (IsRange r') /\ in_seq (denote r') elt.
Proof. exists (RConst 3 (Some 3)), 3, (RConst 3 (Some 2)). split; [done|]. split; [done|]. by exists 0%nat. Qed.

Example change_cases :
  add_bang (RFinite 0 2 3) 6 = Val (IsRange (RFinite 0 2 4)) /\
  add_bang (RFinite 0 2 3) 9 = Val (IsList [9; 0; 2; 4]) /\
  remove_bang (RFinite 0 2 3) 2 (Some 1) = Val (IsList [0; 4]) /\
  remove_bang (RFinite 0 2 3) 0 None = Val (IsRange (RFinite 2 2 2)).
Proof. done. Qed.

(** *** C12: intersection *)
(** Only the intersection of two unending downward ranges with different steps is left out. *)
Theorem C12_intersection_partial r1 r2 : wf_range r1 -> wf_range r2 ->
  (forall f1 b1 f2 b2, r1 = RInfinite f1 b1 -> r2 = RInfinite f2 b2 -> b1 > 0 \/ b2 > 0 \/ b1 = b2) ->
  exists r, intersection r1 r2 = Val r /\ wf_range r /\
    forall x, in_seq (denote r) x <-> in_seq (denote r1) x /\ in_seq (denote r2) x.
Proof. apply intersection_spec. Qed.

Example intersection_cases :
  intersection (RFinite 0 4 10) (RFinite 30 (-6) 6) = Val (RFinite 0 12 3) /\
  intersection (RInfinite 5 3) (RInfinite 0 5) = Val (RInfinite 5 15) /\
  intersection (RFinite 1 2 5) (RFinite 0 2 5) = Val REmpty /\
  intersection (RInfinite 5 3) (RInfinite 50 (-7)) = Val (RFinite 8 21 3).
Proof. done. Qed.

(** 10, 8, 6, ... and 10, 7, 4, ... have 10, 4, -2, ... in common; the result is 10, 16, 22, ... *)
Theorem C12_intersection_downward_refuted :
  exists r1 r2 r, wf_range r1 /\ wf_range r2 /\ intersection r1 r2 = Val r /\
    (exists x, in_seq (denote r) x /\ ~ in_seq (denote r1) x /\ ~ in_seq (denote r2) x) /\
    (exists x, in_seq (denote r1) x /\ in_seq (denote r2) x /\ ~ in_seq (denote r) x).
Proof.
  exists (RInfinite 10 (-2)), (RInfinite 10 (-3)), (RInfinite 10 6). split; [done|]. split; [done|]. split; [done|].
  cbn [denote]. split.
  - exists 16. rewrite !in_progression_inf. split; [by exists 1|]. split; intros (k & Hk & H); lia.
  - exists 4. rewrite !in_progression_inf. split; [by exists 3|]. split; [by exists 2|]. intros (k & Hk & H). lia.
Qed.

Print Assumptions C11_make_unbounded.
Print Assumptions C11_make_size.
Print Assumptions C11_make_to_partial.
Print Assumptions C11_make_to_size_partial.
Print Assumptions C11_make_below_partial.
Print Assumptions C11_make_above_partial.
Print Assumptions C11_make_constant.
Print Assumptions C11_make_below_refuted.
Print Assumptions C11_make_inverted_refuted.
Print Assumptions C11_make_to_below_refuted.
Print Assumptions C11_element.
Print Assumptions C11_element_negative_refuted.
Print Assumptions C11_size.
Print Assumptions C11_empty.
Print Assumptions C11_last.
Print Assumptions C11_find_key.
Print Assumptions C11_member.
Print Assumptions C11_forward_iteration.
Print Assumptions C11_backward_iteration.
Print Assumptions C11_reverse.
Print Assumptions C11_copy_partial.
Print Assumptions C11_copy_constant_partial.
Print Assumptions C11_copy_infinite.
Print Assumptions C11_copy_end_refuted.
Print Assumptions C11_shallow_copy.
Print Assumptions C11_equal_sound.
Print Assumptions C11_equal_complete_partial.
Print Assumptions C11_equal_refuted.
Print Assumptions C11_add.
Print Assumptions C11_add_infinite.
Print Assumptions C11_remove_partial.
Print Assumptions C11_remove_constant_partial.
Print Assumptions C11_remove_middle_refuted.
Print Assumptions C11_remove_absent_refuted.
Print Assumptions C11_remove_all_refuted.
Print Assumptions C12_intersection_partial.
Print Assumptions C12_intersection_downward_refuted.
