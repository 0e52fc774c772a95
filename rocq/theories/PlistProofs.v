(** Proofs about property lists. *)
From Coq Require Import ZifyBool ZifyNat ZifyN Lia.
From Verif Require Import Base ListModel ListSpec ListProofs PlistModel PlistSpec.
Local Open Scope Z_scope.
Local Open Scope outcome_scope.

(** *** The specification *)
Lemma same_spec a b : same a b = if decide (a = b) then true else false.
Proof. unfold same. destruct (decide (a = b)); [by rewrite bool_decide_true|by rewrite bool_decide_false]. Qed.
Lemma flat_app ps qs : flat (ps ++ qs) = flat ps ++ flat qs.
Proof. induction ps as [|[k v] ps IH]; [done|]. cbn. by rewrite IH. Qed.
Lemma flat_length ps : length (flat ps) = (2 * length ps)%nat.
Proof. induction ps as [|[k v] ps IH]; [done|]. cbn. lia. Qed.
Lemma lookup_prop_app ps qs k : lookup_prop (ps ++ qs) k = match lookup_prop ps k with Some v => Some v | None => lookup_prop qs k end.
Proof. induction ps as [|[k' v] ps IH]; [done|]. cbn. destruct (decide _); [done|]. apply IH. Qed.

Lemma lookup_set ps k v k' : lookup_prop (set_prop ps k v) k' = if decide (k = k') then Some v else lookup_prop ps k'.
Proof.
  induction ps as [|[k0 w] ps IH]; cbn; [done|]. destruct (decide (k0 = k)) as [->|Hne]; cbn.
  - destruct (decide (k = k')); done.
  - rewrite IH. destruct (decide (k0 = k')) as [->|]; [|done]. destruct (decide (k = k')); [congruence|done].
Qed.
Lemma set_prop_none ps k v : lookup_prop ps k = None -> set_prop ps k v = ps ++ [(k, v)].
Proof. induction ps as [|[k0 w] ps IH]; cbn; [done|]. destruct (decide _); [done|]. intros H. by rewrite IH. Qed.
Lemma set_prop_keys ps k v : (set_prop ps k v).*1 = if decide (k ∈ ps.*1) then ps.*1 else ps.*1 ++ [k].
Proof.
  induction ps as [|[k0 w] ps IH]; cbn; [done|]. destruct (decide (k0 = k)) as [->|Hne]; cbn.
  - rewrite decide_True by left. done.
  - rewrite IH. destruct (decide (k ∈ ps.*1)); [rewrite decide_True by (by right); done|].
    rewrite decide_False; [done|]. intros [H|H]%elem_of_cons; congruence.
Qed.
Lemma set_prop_unique ps k v : unique ps -> unique (set_prop ps k v).
Proof.
  unfold unique. intros H. rewrite set_prop_keys. destruct (decide _) as [|Hn]; [done|]. apply NoDup_app. split; [done|].
  split; [|apply NoDup_singleton]. intros x Hx ->%elem_of_list_singleton. done.
Qed.
Lemma lookup_prop_None ps k : lookup_prop ps k = None <-> k ∉ ps.*1.
Proof.
  induction ps as [|[k0 w] ps IH]; cbn; [split; [intros _ H; by apply elem_of_nil in H|done]|].
  rewrite not_elem_of_cons, <- IH. destruct (decide (k0 = k)); naive_solver.
Qed.
Lemma others_none ps k : k ∉ ps.*1 -> others k ps = ps.
Proof.
  induction ps as [|[k0 w] ps IH]; [done|]. rewrite fmap_cons, not_elem_of_cons. intros [H1 H2]. cbn [fst] in H1. unfold others. rewrite filter_cons_True by (cbn; congruence).
  f_equal. by apply IH.
Qed.
Lemma unique_remove ps k : unique ps -> remove_first ps k = others k ps.
Proof.
  unfold unique, others. induction ps as [|[k0 w] ps IH]; [done|]. rewrite fmap_cons. cbn [remove_first fst]. intros [H1 H2]%NoDup_cons. destruct (decide (k0 = k)) as [->|Hne].
  - rewrite filter_cons_False by (cbn; tauto). symmetry. by apply others_none.
  - rewrite filter_cons_True by done. f_equal. by apply IH.
Qed.
Lemma remove_first_none ps k : lookup_prop ps k = None -> remove_first ps k = ps.
Proof. induction ps as [|[k0 w] ps IH]; cbn; [done|]. destruct (decide _); [done|]. intros H. by rewrite IH. Qed.
Lemma remove_first_app ps qs k : lookup_prop ps k = None -> remove_first (ps ++ qs) k = ps ++ remove_first qs k.
Proof. induction ps as [|[k0 w] ps IH]; cbn; [done|]. destruct (decide _); [done|]. intros H. by rewrite IH. Qed.
Lemma unique_rev ps k : unique ps -> lookup_prop (rev ps) k = lookup_prop ps k.
Proof.
  unfold unique. induction ps as [|[k0 w] ps IH]; [done|]. cbn. intros [H1 H2]%NoDup_cons. rewrite lookup_prop_app, IH by done. cbn.
  destruct (decide (k0 = k)) as [->|]; [|by destruct (lookup_prop ps k)]. apply lookup_prop_None in H1. by rewrite H1.
Qed.
Lemma lookup_others ps k k' : lookup_prop (others k ps) k' = if decide (k = k') then None else lookup_prop ps k'.
Proof.
  unfold others. induction ps as [|[k0 w] ps IH]; [by destruct (decide _)|]. destruct (decide (k0 = k)) as [->|Hne].
  - rewrite filter_cons_False by (cbn; tauto). rewrite IH. cbn. by destruct (decide (k = k')).
  - rewrite filter_cons_True by done. cbn. rewrite IH. destruct (decide (k0 = k')) as [->|]; [|done]. destruct (decide (k = k')); [congruence|done].
Qed.

(** *** Vectors *)
Lemma zread_at (a b : list obj) x i : i = Z.of_nat (length a) -> zread (a ++ x :: b) i = Val x.
Proof. intros ->. apply zread_val; [lia|]. rewrite Nat2Z.id, lookup_app_r, Nat.sub_diag by lia. done. Qed.
Lemma zwrite_at (a b : list obj) x y i : i = Z.of_nat (length a) -> zwrite (a ++ x :: b) i y = Val (a ++ y :: b).
Proof.
  intros ->. rewrite zwrite_val by (rewrite app_length; cbn; lia). rewrite Nat2Z.id. f_equal.
  rewrite <- (Nat.add_0_r (length a)), insert_app_r. done.
Qed.
Lemma app_cons_assoc {A} (a b : list A) x : a ++ x :: b = (a ++ [x]) ++ b.
Proof. by rewrite <- app_assoc. Qed.
Lemma check_even_flat ps : check_even (vsize (flat ps)) = Val tt.
Proof. unfold check_even, vsize. rewrite flat_length. replace (Z.of_nat (2 * length ps)) with (2 * Z.of_nat (length ps)) by lia. by rewrite Z.even_mul. Qed.
Lemma check_odd v : Nat.odd (length v) = true -> check_even (vsize v) = Signal "This plist does not have even length".
Proof.
  intros [m H]%Nat.odd_spec. unfold check_even, vsize. rewrite H. replace (Z.of_nat (2 * m + 1)) with (1 + 2 * Z.of_nat m) by lia.
  by rewrite Z.even_add_mul_2.
Qed.

Lemma get_loop_vec_ok k d ps : forall fuel pre, (length ps < fuel)%nat ->
  get_loop_vec fuel (pre ++ flat ps) k d (Z.of_nat (length pre)) = Val (default d (lookup_prop ps k)).
Proof.
  induction ps as [|[k0 w] ps IH]; intros [|fuel] pre Hf; cbn in Hf; try lia; cbn [get_loop_vec flat]; unfold vsize; rewrite app_length; cbn [length].
  - destruct (_ <? _) eqn:E; [lia|done].
  - destruct (_ <? _) eqn:E; [|lia]. rewrite zread_at by done. cbn [obind]. rewrite same_spec. cbn [lookup_prop]. destruct (decide (k0 = k)).
    + rewrite app_cons_assoc, zread_at by (rewrite app_length; cbn; lia). done.
    + rewrite app_cons_assoc, app_cons_assoc. rewrite <- (IH fuel ((pre ++ [k0]) ++ [w])) by lia. f_equal. rewrite !app_length. cbn. lia.
Qed.

Lemma put_loop_vec_ok k v ps : forall fuel pre, (length ps < fuel)%nat ->
  put_loop_vec fuel (pre ++ flat ps) k v (Z.of_nat (length pre)) = Val (match lookup_prop ps k with Some _ => Some (pre ++ flat (set_prop ps k v)) | None => None end).
Proof.
  induction ps as [|[k0 w] ps IH]; intros [|fuel] pre Hf; cbn in Hf; try lia; cbn [put_loop_vec flat]; unfold vsize; rewrite app_length; cbn [length].
  - destruct (_ <? _) eqn:E; [lia|done].
  - destruct (_ <? _) eqn:E; [|lia]. rewrite zread_at by done. cbn [obind]. rewrite same_spec. cbn [lookup_prop set_prop]. destruct (decide (k0 = k)).
    + rewrite app_cons_assoc, zwrite_at by (rewrite app_length; cbn; lia). cbn [obind flat]. by rewrite <- app_assoc.
    + rewrite app_cons_assoc, app_cons_assoc.
      replace (Z.of_nat (length pre) + 2) with (Z.of_nat (length ((pre ++ [k0]) ++ [w]))) by (rewrite !app_length; cbn; lia).
      rewrite IH by lia. cbn [flat]. by rewrite <- !app_assoc.
Qed.

Lemma half_loop_ok offset ps : forall pre out, (offset = 0 \/ offset = 1) -> length out = length pre ->
  half_loop (length ps) (flat pre ++ flat ps) offset (Z.of_nat (length out)) (out ++ replicate (length ps) fls) =
  Val (out ++ if bool_decide (offset = 0) then ps.*1 else ps.*2).
Proof.
  induction ps as [|[k0 w] ps IH]; intros pre out Ho Hl; cbn [half_loop length flat].
  - by destruct (bool_decide _).
  - assert (E : zread (flat pre ++ k0 :: w :: flat ps) (Z.of_nat (length out) + Z.of_nat (length out) + offset) = Val (if bool_decide (offset = 0) then k0 else w)).
    { destruct Ho as [->| ->].
      - rewrite bool_decide_true by done. apply zread_at. rewrite flat_length. lia.
      - rewrite bool_decide_false by done. rewrite app_cons_assoc. apply zread_at. rewrite app_length, flat_length. cbn. lia. }
    rewrite E. cbn [obind replicate]. rewrite zwrite_at by done. cbn [obind].
    specialize (IH (pre ++ [(k0, w)]) (out ++ [if bool_decide (offset = 0) then k0 else w]) Ho).
    rewrite flat_app, <- !app_assoc in IH. cbn [flat app] in IH.
    rewrite app_length in IH. cbn [length] in IH. replace (Z.of_nat (length out) + 1) with (Z.of_nat (length out + 1)) by lia. rewrite IH by (rewrite app_length; cbn; lia).
    do 2 f_equal. by destruct (bool_decide _).
Qed.
Lemma half_sequence_ok offset ps : (offset = 0 \/ offset = 1) ->
  half_sequence_vec (flat ps) offset = Val (if bool_decide (offset = 0) then ps.*1 else ps.*2).
Proof.
  intros Ho. unfold half_sequence_vec. rewrite check_even_flat. cbn [obind]. unfold vsize. rewrite flat_length, Z.shiftr_div_pow2 by lia.
  change (2 ^ 1) with 2. replace (Z.of_nat (2 * length ps)) with (Z.of_nat (length ps) * 2) by lia. rewrite Z.div_mul, Nat2Z.id by lia.
  exact (half_loop_ok offset ps [] [] Ho eq_refl).
Qed.

Lemma drop_cons_at {A} (v : list A) i x r : drop i v = x :: r -> v !! i = Some x /\ drop (S i) v = r /\ (i < length v)%nat.
Proof.
  intros H. assert (Hi : (i < length v)%nat) by (apply (f_equal length) in H; rewrite drop_length in H; cbn in H; lia).
  split; [|split; [|done]].
  - rewrite <- (Nat.add_0_r i), <- lookup_drop, H. done.
  - replace (S i) with (i + 1)%nat by lia. rewrite <- drop_drop, H. done.
Qed.
Lemma zread_nat (v : list obj) i x z : z = Z.of_nat i -> v !! i = Some x -> zread v z = Val x.
Proof. intros -> H. apply zread_val; [lia|]. by rewrite Nat2Z.id. Qed.
Lemma zwrite_nat (v : list obj) i x z : z = Z.of_nat i -> (i < length v)%nat -> zwrite v z x = Val (<[i := x]> v).
Proof. intros -> H. rewrite zwrite_val by lia. by rewrite Nat2Z.id. Qed.
Lemma take_insert_S {A} (v : list A) j x : (j < length v)%nat -> take (S j) (<[j := x]> v) = take j v ++ [x].
Proof. intros H. rewrite (take_S_r _ _ x) by (by apply list_lookup_insert). by rewrite take_insert by lia. Qed.

Lemma last_value_step k k0 w ps value : default (if decide (k0 = k) then w else value) (lookup_prop (rev ps) k) = default value (lookup_prop (rev ((k0, w) :: ps)) k).
Proof. cbn [rev]. rewrite lookup_prop_app. destruct (lookup_prop (rev ps) k); [done|]. cbn. by destruct (decide _). Qed.

Lemma remove_stretchy_ok k ps : forall fuel (plist : list obj) (i j : nat) kept value zi zj,
  (length ps < fuel)%nat -> (j <= i)%nat -> take j plist = flat kept -> length (flat kept) = j -> drop i plist = flat ps -> (i <= length plist)%nat ->
  zi = Z.of_nat i -> zj = Z.of_nat j ->
  exists plist', remove_loop_stretchy fuel plist k (vsize plist) zi zj value =
      Val (default value (lookup_prop (rev ps) k), plist', Z.of_nat (length (flat (kept ++ others k ps)))) /\
    take (length (flat (kept ++ others k ps))) plist' = flat (kept ++ others k ps).
Proof.
  induction ps as [|[k0 w] ps IH]; intros [|fuel] plist i j kept value zi zj Hf Hji Ht Hj Hd Hi -> ->; cbn in Hf; try lia; cbn [remove_loop_stretchy].
  - apply (f_equal length) in Hd. rewrite drop_length in Hd. cbn in Hd. unfold vsize. destruct (_ <? _) eqn:E; [lia|].
    exists plist. cbn. unfold others. cbn. rewrite app_nil_r. split; [by rewrite Hj|]. by rewrite Hj.
  - cbn [flat] in Hd. apply drop_cons_at in Hd as (R1 & Hd & L1). apply drop_cons_at in Hd as (R2 & Hd & L2).
    unfold vsize. destruct (_ <? _) eqn:E; [|lia]. fold (vsize plist). rewrite (zread_nat _ i k0) by done. cbn [obind]. rewrite same_spec, <- last_value_step.
    destruct (decide (k0 = k)) as [->|Hne].
    + rewrite (zread_nat _ (S i) w) by (done || lia). cbn [obind].
      destruct (IH fuel plist (S (S i)) j kept w (Z.of_nat i + 2) (Z.of_nat j)) as (p' & E1 & E2); try done; try lia.
      assert (Eo : others k ((k, w) :: ps) = others k ps) by (unfold others; by rewrite filter_cons_False by (cbn; tauto)).
      exists p'. rewrite Eo. split; [exact E1|exact E2].
    + rewrite (zwrite_nat _ j) by (done || lia). cbn [obind].
      rewrite (zread_nat _ (S i) w) by (rewrite ?list_lookup_insert_ne by lia; done || lia). cbn [obind].
      rewrite (zwrite_nat _ (S j)) by (rewrite ?insert_length; lia). cbn [obind].
      assert (Eo : kept ++ others k ((k0, w) :: ps) = (kept ++ [(k0, w)]) ++ others k ps) by (unfold others; rewrite filter_cons_True by done; by rewrite <- app_assoc).
      destruct (IH fuel (<[S j := w]> (<[j := k0]> plist)) (S (S i)) (S (S j)) (kept ++ [(k0, w)]) value (Z.of_nat i + 2) (Z.of_nat j + 2)) as (p' & E1 & E2); try lia.
      * rewrite take_insert_S by (rewrite insert_length; lia). rewrite take_insert_S by lia. rewrite Ht, flat_app, <- app_assoc. done.
      * rewrite flat_app, app_length. cbn. lia.
      * rewrite drop_insert_gt by lia. rewrite drop_insert_gt by lia. done.
      * rewrite !insert_length. lia.
      * exists p'. rewrite Eo. split; [|exact E2]. rewrite <- E1. unfold vsize. by rewrite !insert_length.
Qed.

Lemma count_loop_ok k ps : forall fuel pre count, (length ps < fuel)%nat ->
  count_loop fuel (pre ++ flat ps) k (Z.of_nat (length pre)) count = Val (count + (Z.of_nat (length (flat ps)) - Z.of_nat (length (flat (others k ps))))).
Proof.
  induction ps as [|[k0 w] ps IH]; intros [|fuel] pre count Hf; cbn in Hf; try lia; cbn [count_loop flat]; unfold vsize; rewrite app_length; cbn [length].
  - destruct (_ <? _) eqn:E; [lia|]. f_equal. cbn. lia.
  - destruct (_ <? _) eqn:E; [|lia]. rewrite zread_at by done. cbn [obind]. rewrite same_spec.
    rewrite app_cons_assoc, app_cons_assoc. replace (Z.of_nat (length pre) + 2) with (Z.of_nat (length ((pre ++ [k0]) ++ [w]))) by (rewrite !app_length; cbn; lia).
    rewrite IH by lia. f_equal. unfold others. destruct (decide (k0 = k)) as [->|Hne].
    + rewrite filter_cons_False by (cbn; tauto). lia.
    + rewrite filter_cons_True by done. cbn [flat length]. lia.
Qed.

Definition kept_by (out : obj -> bool) (ps : props) : props := filter (fun p => out p.1 = false) ps.

Lemma copy_loop_vec_ok out ps : forall fuel pre (new : list obj) j kept value zj,
  (length ps < fuel)%nat -> take j new = flat kept -> length (flat kept) = j -> zj = Z.of_nat j -> (length (flat (kept ++ kept_by out ps)) <= length new)%nat ->
  exists value' new', copy_loop_vec fuel (pre ++ flat ps) out (Z.of_nat (length pre)) new zj value =
      Val (value', new', Z.of_nat (length (flat (kept ++ kept_by out ps)))) /\ length new' = length new /\
    take (length (flat (kept ++ kept_by out ps))) new' = flat (kept ++ kept_by out ps) /\
    (forall k, (forall x, out x = same x k) -> value' = default value (lookup_prop (rev ps) k)).
Proof.
  induction ps as [|[k0 w] ps IH]; intros [|fuel] pre new j kept value zj Hf Ht Hj -> Hn; cbn in Hf; try lia; cbn [copy_loop_vec flat]; unfold vsize; rewrite app_length; cbn [length].
  - destruct (_ <? _) eqn:E; [lia|]. exists value, new. unfold kept_by. cbn. rewrite app_nil_r, Hj. done.
  - destruct (_ <? _) eqn:E; [|lia]. rewrite zread_at by done. cbn [obind].
    rewrite app_cons_assoc, zread_at by (rewrite app_length; cbn; lia). cbn [obind].
    rewrite app_cons_assoc. replace (Z.of_nat (length pre) + 2) with (Z.of_nat (length ((pre ++ [k0]) ++ [w]))) by (rewrite !app_length; cbn; lia).
    destruct (out k0) eqn:Ek.
    + assert (Eo : kept_by out ((k0, w) :: ps) = kept_by out ps) by (unfold kept_by; by rewrite filter_cons_False by (cbn; congruence)). rewrite Eo in Hn |- *.
      destruct (IH fuel ((pre ++ [k0]) ++ [w]) new j kept w (Z.of_nat j)) as (v' & n' & E1 & E2 & E3 & E4); try done; try lia.
      exists v', n'. split; [exact E1|]. split; [done|]. split; [done|]. intros k Hk. rewrite (E4 k Hk), <- last_value_step. rewrite Hk, same_spec in Ek.
      by destruct (decide (k0 = k)).
    + assert (Eo : kept ++ kept_by out ((k0, w) :: ps) = (kept ++ [(k0, w)]) ++ kept_by out ps) by (unfold kept_by; rewrite filter_cons_True by done; by rewrite <- app_assoc).
      rewrite Eo in Hn |- *. assert (Hl : (S (S j) <= length new)%nat).
      { rewrite !flat_app, !app_length in Hn. cbn in Hn. lia. }
      rewrite (zwrite_nat _ j) by (done || lia). cbn [obind]. rewrite (zwrite_nat _ (S j)) by (rewrite ?insert_length; lia). cbn [obind].
      destruct (IH fuel ((pre ++ [k0]) ++ [w]) (<[S j := w]> (<[j := k0]> new)) (S (S j)) (kept ++ [(k0, w)]) value (Z.of_nat j + 2)) as (v' & n' & E1 & E2 & E3 & E4); try lia.
      * rewrite take_insert_S by (rewrite insert_length; lia). rewrite take_insert_S by lia. rewrite Ht, flat_app, <- app_assoc. done.
      * rewrite flat_app, app_length. cbn. lia.
      * rewrite !insert_length. lia.
      * exists v', n'. split; [exact E1|]. rewrite !insert_length in E2. split; [done|]. split; [done|]. intros k Hk. rewrite (E4 k Hk), <- last_value_step.
        rewrite Hk, same_spec in Ek. by destruct (decide (k0 = k)).
Qed.

Lemma kept_others k ps : kept_by (fun x => same x k) ps = others k ps.
Proof.
  unfold kept_by, others. apply list_filter_iff. intros [k0 w]. cbn. rewrite same_spec. destruct (decide _); naive_solver.
Qed.

Lemma others_full k ps : length (others k ps) = length ps -> others k ps = ps.
Proof.
  unfold others. induction ps as [|p ps IH]; [done|]. destruct (decide (p.1 = k)) as [Hp|Hp]; intros H.
  - rewrite filter_cons_False in H by tauto. pose proof (filter_length (λ p : obj * obj, p.1 ≠ k) ps). rewrite H in *. cbn [length] in *. lia.
  - rewrite filter_cons_True by done. f_equal. apply IH. rewrite filter_cons_True in H by done. cbn [length] in H. by injection H.
Qed.

Lemma remove_simple_ok k ps : remove_property_simple (flat ps) k = Val (default fls (lookup_prop (rev ps) k), flat (others k ps)).
Proof.
  unfold remove_property_simple. rewrite check_even_flat. cbn [obind].
  assert (Ec : count_loop (S (length (flat ps))) (flat ps) k 0 0 = Val (0 + (Z.of_nat (length (flat ps)) - Z.of_nat (length (flat (others k ps)))))).
  { apply (count_loop_ok k ps (S (length (flat ps))) [] 0). rewrite flat_length. lia. }
  rewrite Ec. cbn [obind].
  assert (Hle : (length (others k ps) <= length ps)%nat) by (unfold others; apply filter_length).
  destruct (_ =? 0) eqn:E.
  - assert (Eo : others k ps = ps).
    { rewrite !flat_length in E. apply others_full. lia. }
    rewrite Eo. f_equal. f_equal.
    assert (lookup_prop (rev ps) k = None) as ->; [|done]. apply lookup_prop_None. rewrite <- Eo. intros ([? ?] & -> & Hx)%elem_of_list_fmap.
    apply elem_of_list_In, in_rev, elem_of_list_In in Hx. unfold others in Hx. apply elem_of_list_filter in Hx as [Hx _]. done.
  - destruct (copy_loop_vec_ok (fun x => same x k) ps (S (length (flat ps))) [] (replicate (Z.to_nat (vsize (flat ps) - (0 + (Z.of_nat (length (flat ps)) - Z.of_nat (length (flat (others k ps))))))) fls) 0%nat [] fls 0)
      as (v' & n' & E1 & E2 & E3 & E4); try done.
    { rewrite flat_length. lia. }
    { rewrite replicate_length, kept_others. cbn [app]. unfold vsize. lia. }
    cbn [app length] in E1. change (Z.of_nat 0) with 0 in E1. rewrite E1. cbn [obind]. rewrite replicate_length in E2. cbn [app] in E3. rewrite kept_others in E3.
    rewrite (E4 k (fun _ => eq_refl)). f_equal. f_equal. rewrite <- E3. symmetry. apply take_ge. rewrite E2. unfold vsize. lia.
Qed.

Lemma remove_stretchy_spec k ps : remove_property_stretchy (flat ps) k = Val (default fls (lookup_prop (rev ps) k), flat (others k ps)).
Proof.
  unfold remove_property_stretchy. rewrite check_even_flat. cbn [obind].
  destruct (remove_stretchy_ok k ps (S (length (flat ps))) (flat ps) 0 0 [] fls 0 0) as (p' & E1 & E2); try done; try lia.
  { rewrite flat_length. lia. }
  rewrite E1. cbn [obind]. rewrite Nat2Z.id. by rewrite E2.
Qed.

Lemma left_out_spec keywords x : left_out keywords x = bool_decide (x ∈ keywords).
Proof.
  assert (H : existsb (fun k => same x k) keywords = bool_decide (x ∈ keywords)).
  { apply eq_true_iff_eq. rewrite existsb_exists, bool_decide_eq_true. unfold same. split.
    - intros (y & Hy & ->%bool_decide_eq_true). by apply elem_of_list_In.
    - intros Hx. exists x. split; [by apply elem_of_list_In|by apply bool_decide_eq_true]. }
  unfold left_out. destruct keywords as [|k1 [|k2 ks]]; [exact H| |exact H]. rewrite <- H. cbn. rewrite orb_false_r. unfold same.
  apply eq_true_iff_eq. rewrite !bool_decide_eq_true. split; congruence.
Qed.
Lemma kept_left_out keywords ps : kept_by (left_out keywords) ps = filter (fun p => p.1 ∉ keywords) ps.
Proof. unfold kept_by. apply list_filter_iff. intros [k0 w]. cbn. by rewrite left_out_spec, bool_decide_eq_false. Qed.

Lemma remove_keywords_vec_ok keywords ps : remove_keywords_vec (flat ps) keywords = Val (flat (filter (fun p => p.1 ∉ keywords) ps)).
Proof.
  unfold remove_keywords_vec. case_bool_decide as H0.
  { destruct ps as [|[? ?] ?]; [done|discriminate H0]. }
  case_bool_decide as H1.
  { subst. do 2 f_equal. clear H0. induction ps as [|p ps IH]; [done|]. rewrite filter_cons_True by (by apply not_elem_of_nil). f_equal. exact IH. }
  rewrite check_even_flat. cbn [obind].
  destruct (copy_loop_vec_ok (left_out keywords) ps (S (length (flat ps))) [] (replicate (length (flat ps)) fls) 0%nat [] fls 0) as (v' & n' & E1 & E2 & E3 & E4); try done.
  { rewrite flat_length. lia. }
  { rewrite replicate_length. cbn [app]. rewrite !flat_length. unfold kept_by. pose proof (filter_length (λ p : obj * obj, left_out keywords p.1 = false) ps). lia. }
  cbn [app length] in E1. change (Z.of_nat 0) with 0 in E1. rewrite E1. cbn [obind]. rewrite Nat2Z.id. cbn [app] in E3 |- *. by rewrite E3, kept_left_out.
Qed.

(** *** Lists *)
Lemma seg_props h l k v ps cs e : seg h l (flat ((k, v) :: ps)) cs e ->
  exists c1 c2 cs' t, cs = c1 :: c2 :: cs' /\ l = OList c1 /\ c1 <> 0%nat /\ c2 <> 0%nat /\ h !! c1 = Some (k, OList c2) /\ h !! c2 = Some (v, t) /\ seg h t (flat ps) cs' e.
Proof.
  cbn [flat]. destruct cs as [|c1 [|c2 cs]]; cbn; [done|naive_solver|]. intros (-> & H1 & t1 & E1 & -> & H2 & t2 & E2 & H). naive_solver.
Qed.
Lemma seg_is_list h t xs cs : seg h t xs cs nil -> is_list t = true.
Proof. destruct xs, cs; cbn; [by intros ->|done|done|]. by intros (-> & _). Qed.
Lemma seg_nil_inv h l cs e : seg h l [] cs e -> cs = [] /\ l = e.
Proof. by destruct cs. Qed.

Lemma get_property_list_ok k d ps : forall fuel h l cs, seg h l (flat ps) cs nil -> (length ps < fuel)%nat ->
  get_property_list fuel h l k d = Val (default d (lookup_prop ps k)).
Proof.
  induction ps as [|[k0 w] ps IH]; intros [|fuel] h l cs Hl Hf; cbn in Hf; try lia; cbn [get_property_list].
  - apply seg_nil_inv in Hl as [_ ->]. done.
  - apply seg_props in Hl as (c1 & c2 & cs' & t & -> & -> & N1 & N2 & E1 & E2 & Hl). rewrite is_nil_S by done.
    rewrite (head_val _ _ _ _ E1), (tail_val _ _ _ _ E1). cbn [obind check_list is_list]. rewrite same_spec. cbn [lookup_prop].
    rewrite (head_val _ _ _ _ E2), (tail_val _ _ _ _ E2). destruct (decide _); [done|]. cbn [obind].
    rewrite (check_list_seg _ _ _ _ Hl). cbn [obind]. apply (IH fuel h t cs' Hl). lia.
Qed.

Lemma put_loop_list_ok k v ps : forall fuel h l cs, NoDup cs -> seg h l (flat ps) cs nil -> (length ps < fuel)%nat ->
  match lookup_prop ps k with
  | Some _ => exists h', put_loop_list fuel h l k v = Val (Some h') /\ seg h' l (flat (set_prop ps k v)) cs nil /\ only_pairs cs h h' /\ length h' = length h
  | None => put_loop_list fuel h l k v = Val None
  end.
Proof.
  induction ps as [|[k0 w] ps IH]; intros [|fuel] h l cs Hn Hl Hf; cbn in Hf; try lia; cbn [put_loop_list].
  - apply seg_nil_inv in Hl as [_ ->]. done.
  - apply seg_props in Hl as (c1 & c2 & cs' & t & -> & -> & N1 & N2 & E1 & E2 & Hl). rewrite is_nil_S by done.
    rewrite (head_val _ _ _ _ E1), (tail_val _ _ _ _ E1). cbn [obind]. rewrite same_spec. cbn [lookup_prop set_prop].
    apply NoDup_cons in Hn as [Hn1 [Hn2 Hn]%NoDup_cons]. apply not_elem_of_cons in Hn1 as [Hn1 Hn1'].
    destruct (decide (k0 = k)) as [->|Hne].
    + rewrite (set_head_val _ _ _ _ _ E2). cbn [obind]. eexists. split; [reflexivity|]. split; [|split].
      * cbn [flat seg]. split; [done|]. split; [done|]. exists (OList c2). rewrite list_lookup_insert_ne by done. split; [done|].
        split; [done|]. split; [done|]. exists t. split; [apply list_lookup_insert; by apply lookup_lt_Some in E2|]. by apply seg_update.
      * split; [by rewrite insert_length|]. intros a _ Ha. apply list_lookup_insert_ne. intros ->. apply Ha. right. left.
      * by rewrite insert_length.
    + rewrite (tail_val _ _ _ _ E2). cbn [obind]. specialize (IH fuel h t cs' Hn Hl ltac:(lia)). destruct (lookup_prop ps k); [|done].
      destruct IH as (h' & R & S & (O1 & O2) & L). exists h'. split; [done|]. split; [|split; [|done]].
      * cbn [flat seg]. split; [done|]. split; [done|]. exists (OList c2). rewrite O2; [|by apply lookup_lt_Some in E1|done]. split; [done|].
        split; [done|]. split; [done|]. exists t. rewrite O2; [|by apply lookup_lt_Some in E2|done]. done.
      * split; [lia|]. intros a Ha Hin. apply O2; [done|]. intros H. apply Hin. by do 2 right.
Qed.

(** concatenate! *)
Lemma find_tail_ok x xs : forall fuel h p cs y t, seg h p (xs ++ [y]) cs t -> is_nil t = true -> (length xs < fuel)%nat ->
  exists cs' c, cs = cs' ++ [c] /\ h !! c = Some (y, t) /\ find_tail fuel h p x = Val (<[c := (y, x)]> h).
Proof.
  induction xs as [|z xs IH]; intros [|fuel] h p cs y t Hs Ht Hf; cbn in Hf; try lia; cbn [find_tail app] in *.
  - destruct cs as [|c [|? ?]]; cbn in Hs; [done| |naive_solver]. destruct Hs as (-> & Hc & t' & E & ->).
    exists [], c. split; [done|]. split; [done|]. rewrite (tail_val _ _ _ _ E). cbn [obind]. rewrite Ht. by apply set_tail_val with t.
  - destruct cs as [|c cs]; cbn in Hs; [done|]. destruct Hs as (-> & Hc & t' & E & Hs). rewrite (tail_val _ _ _ _ E). cbn [obind].
    assert (is_nil t' = false /\ is_list t' = true) as [Q1 Q2].
    { destruct xs, cs; cbn in Hs; try done; destruct Hs as (-> & Hc' & _); split; try done; by apply is_nil_S. }
    rewrite Q1. unfold check_list. rewrite Q2. cbn [obind]. destruct (IH fuel h t' cs y t Hs Ht ltac:(lia)) as (cs' & c' & -> & E' & R).
    exists (c :: cs'), c'. done.
Qed.

Lemma lists_update h b c os xss css : b ∉ concat css -> lists h os xss css -> lists (<[b := c]> h) os xss css.
Proof.
  intros Hb H. induction H as [|o xs cs os xss css Hl H IH]; [constructor|]. cbn in Hb. rewrite elem_of_app in Hb. constructor; [|apply IH; tauto].
  apply seg_update; [tauto|done].
Qed.

Lemma connect_ok fuel os : forall xss css h p xs cs, lists h os xss css -> lst h p xs cs -> xs <> [] -> NoDup (cs ++ concat css) ->
  (length xs < fuel)%nat -> Forall (fun xs => length xs < fuel)%nat xss ->
  exists h', connect fuel h p os = Val h' /\ lst h' p (xs ++ concat xss) (cs ++ concat css) /\ only_tails (cs ++ concat css) h h' /\ length h' = length h.
Proof.
  induction os as [|o os IH]; intros xss css h p xs cs Hls Hp Hne Hnd Hf HF; inversion Hls as [|? ys ds ? yss dss Hl Hls']; subst; cbn [connect].
  - exists h. cbn [concat]. rewrite !app_nil_r. split; [done|]. split; [done|]. split; [apply only_tails_refl|done].
  - apply List.Forall_cons_iff in HF as [HF1 HF]. destruct (is_nil o) eqn:Eo.
    + destruct o as [[|?]|?]; try done. apply seg_nonpair in Hl as (-> & -> & _); [|done]. cbn [concat app]. apply IH; done.
    + destruct (exists_last Hne) as (xs' & y & ->).
      destruct (find_tail_ok o xs' fuel h p cs y nil Hp eq_refl) as (cs' & c & -> & E & R).
      { rewrite app_length in Hf. cbn in Hf. lia. }
      rewrite R. cbn [obind]. cbn [concat] in Hnd |- *. pose proof Hnd as Hnd0. apply NoDup_app in Hnd as (Hn1 & Hn2 & Hn3).
      assert (Hc : c ∉ ds ++ concat dss). { apply Hn2. apply elem_of_app. right. left. }
      rewrite not_elem_of_app in Hc. destruct Hc as [Hc1 Hc2].
      assert (Hp' : seg (<[c := (y, o)]> h) p (xs' ++ [y]) (cs' ++ [c]) o).
      { eapply seg_redirect; [done|exact Hp|]. apply seg_length in Hp. rewrite !app_length in Hp. cbn in Hp. lia. }
      destruct (IH yss dss (<[c := (y, o)]> h) o ys ds) as (h' & R' & S' & O' & L'); try done.
      { by apply lists_update. } { by apply seg_update. }
      { intros ->. destruct ds; [|done]. cbn in Hl. subst o. done. }
      exists h'. split; [done|]. split; [|split].
      * eapply seg_app; [|exact S']. eapply only_tails_seg; [exact O'| |exact Hp']. intros a H1 H2. by apply (Hn2 a).
      * eapply only_tails_trans; [|eapply only_tails_sub; [|exact O']].
        -- apply only_tails_set with nil; [|done]. apply elem_of_app. left. apply elem_of_app. right. left.
        -- intros a Ha. apply elem_of_app. by right.
      * rewrite L'. by rewrite insert_length.
Qed.

Lemma concatenate_bang_ok fuel os : forall xss css h p xs cs, lists h os xss css -> lst h p xs cs -> NoDup (cs ++ concat css) ->
  (length xs < fuel)%nat -> Forall (fun xs => length xs < fuel)%nat xss ->
  exists r h', concatenate_bang fuel h p os = Val (r, h') /\ lst h' r (xs ++ concat xss) (cs ++ concat css) /\ only_tails (cs ++ concat css) h h' /\ length h' = length h /\ (xs <> [] -> r = p).
Proof.
  unfold concatenate_bang.
  induction os as [|o os IH]; intros xss css h p xs cs Hls Hp Hnd Hf HF; inversion Hls as [|? ys ds ? yss dss Hl Hls']; subst; cbn [find_result].
  - exists p, h. cbn [concat]. rewrite !app_nil_r. split; [done|]. split; [done|]. split; [apply only_tails_refl|done].
  - destruct (is_nil p) eqn:Ep.
    + destruct p as [[|?]|?]; try done. apply seg_nonpair in Hp as (-> & -> & _); [|done]. apply List.Forall_cons_iff in HF as [HF1 HF].
      cbn [concat app] in *. destruct (IH yss dss h o ys ds) as (r & h' & Q1 & Q2 & Q3 & Q4 & _); try done. by exists r, h'.
    + destruct (connect_ok fuel (o :: os) (ys :: yss) (ds :: dss) h p xs cs) as (h' & R & S & O & L); try done.
      { intros ->. destruct cs; [|done]. cbn in Hp. by subst p. }
      rewrite R. cbn [obind]. exists p, h'. done.
Qed.

Lemma only_tails_pairs cs h h' : only_tails cs h h' -> only_pairs cs h h'.
Proof. intros (L & A & _). split; done. Qed.

(** keyword-sequence and value-sequence *)
Lemma keyword_loop_ok ps : forall fuel h0 h l cs acc ys ds, h !! 0%nat <> None -> seg h l (flat ps) cs nil -> lst h acc ys ds -> unchanged h0 h -> fresh h0 ds ->
  (length ps + length ps + length ys < fuel)%nat ->
  exists o h', keyword_loop fuel h l acc = Val (o, h') /\ is_lst h' o (rev ys ++ ps.*1) /\ unchanged h0 h'.
Proof.
  induction ps as [|[k0 w] ps IH]; intros [|fuel] h0 h l cs acc ys ds H0 Hl Ha Hu Hfr Hf; cbn in Hf; try lia; cbn [keyword_loop].
  - apply seg_nil_inv in Hl as [_ ->]. unfold reverse_bang.
    destruct (reverse_bang_loop_ok ys (S fuel) h acc ds nil nil [] []) as (o & h' & Hr & Hs & Ho & Hln); try done.
    { intros a _ H. by apply elem_of_nil in H. }
    exists o, h'. split; [exact Hr|]. rewrite !app_nil_r in Hs. split; [exists (rev ds); cbn; by rewrite app_nil_r|]. by eapply only_tails_fresh.
  - apply seg_props in Hl as (c1 & c2 & cs' & t & -> & -> & N1 & N2 & E1 & E2 & Hl). rewrite is_nil_S by done.
    rewrite (tail_val _ _ _ _ E1). cbn [obind]. rewrite (tail_val _ _ _ _ E2), (head_val _ _ _ _ E1). cbn [obind pair].
    assert (Hl' : seg (h ++ [(k0, acc)]) t (flat ps) cs' nil) by (by apply seg_alloc).
    rewrite (check_list_seg _ _ _ _ Hl'). cbn [obind].
    destruct (IH fuel h0 (h ++ [(k0, acc)]) t cs' (OList (length h)) (k0 :: ys) (length h :: ds)) as (o & h' & R & S & U); try done.
    { eapply unchanged_0; [apply unchanged_pair|done]. } { by apply pair_seg. } { eapply unchanged_trans; [done|apply unchanged_pair]. } { by apply fresh_cons. } { cbn. lia. }
    exists o, h'. split; [exact R|]. split; [|done]. cbn [rev] in S. rewrite <- app_assoc in S. done.
Qed.
Lemma value_loop_ok ps : forall fuel h0 h l cs acc ys ds, h !! 0%nat <> None -> seg h l (flat ps) cs nil -> lst h acc ys ds -> unchanged h0 h -> fresh h0 ds ->
  (length ps + length ps + length ys < fuel)%nat ->
  exists o h', value_loop fuel h l acc = Val (o, h') /\ is_lst h' o (rev ys ++ ps.*2) /\ unchanged h0 h'.
Proof.
  induction ps as [|[k0 w] ps IH]; intros [|fuel] h0 h l cs acc ys ds H0 Hl Ha Hu Hfr Hf; cbn in Hf; try lia; cbn [value_loop].
  - apply seg_nil_inv in Hl as [_ ->]. unfold reverse_bang.
    destruct (reverse_bang_loop_ok ys (S fuel) h acc ds nil nil [] []) as (o & h' & Hr & Hs & Ho & Hln); try done.
    { intros a _ H. by apply elem_of_nil in H. }
    exists o, h'. split; [exact Hr|]. rewrite !app_nil_r in Hs. split; [exists (rev ds); cbn; by rewrite app_nil_r|]. by eapply only_tails_fresh.
  - apply seg_props in Hl as (c1 & c2 & cs' & t & -> & -> & N1 & N2 & E1 & E2 & Hl). rewrite is_nil_S by done.
    rewrite (tail_val _ _ _ _ E1). cbn [obind]. rewrite is_pair_S by done. rewrite (tail_val _ _ _ _ E2), (head_val _ _ _ _ E2). cbn [obind pair].
    assert (Hl' : seg (h ++ [(w, acc)]) t (flat ps) cs' nil) by (by apply seg_alloc).
    rewrite (check_list_seg _ _ _ _ Hl'). cbn [obind].
    destruct (IH fuel h0 (h ++ [(w, acc)]) t cs' (OList (length h)) (w :: ys) (length h :: ds)) as (o & h' & R & S & U); try done.
    { eapply unchanged_0; [apply unchanged_pair|done]. } { by apply pair_seg. } { eapply unchanged_trans; [done|apply unchanged_pair]. } { by apply fresh_cons. } { cbn. lia. }
    exists o, h'. split; [exact R|]. split; [|done]. cbn [rev] in S. rewrite <- app_assoc in S. done.
Qed.

(** do-remove-property! *)
Lemma element_0 h c x t : c <> 0%nat -> h !! c = Some (x, t) -> element 2 h (OList c) 0 None = Val x.
Proof. intros Hc E. unfold element. cbn [Z.ltb Z.compare element_loop]. rewrite is_pair_S by done. cbn. by rewrite (vread_val _ _ _ E). Qed.
Lemma element_1 h c x c2 y t : c <> 0%nat -> c2 <> 0%nat -> h !! c = Some (x, OList c2) -> h !! c2 = Some (y, t) -> element 2 h (OList c) 1 None = Val y.
Proof.
  intros Hc Hc2 E E2. unfold element. cbn [Z.ltb Z.compare element_loop]. rewrite is_pair_S by done. cbn [Z.eqb Z.add]. rewrite (tail_val _ _ _ _ E). cbn [obind].
  rewrite is_pair_S by done. cbn [Z.eqb Pos.eqb]. by rewrite (head_val _ _ _ _ E2).
Qed.

Lemma remove_loop_list_ok k plist ps : forall fuel h done ds pl cs ppl,
  NoDup (ds ++ cs) -> seg h plist (flat done) ds pl -> seg h pl (flat ps) cs nil -> (length ps < fuel)%nat ->
  (done = [] \/ exists xs x ds' c, flat done = xs ++ [x] /\ ds = ds' ++ [c] /\ ppl = Some (OList c)) ->
  lookup_prop done k = None ->
  exists r h' cs', remove_loop_list fuel h plist k pl ppl = Val (default fls (lookup_prop ps k), r, h') /\
    lst h' r (flat (remove_first (done ++ ps) k)) cs' /\ cs' ⊆ ds ++ cs /\ only_tails (ds ++ cs) h h' /\ length h' = length h.
Proof.
  induction ps as [|[k0 w] ps IH]; intros [|fuel] h done ds pl cs ppl Hnd Hd Hl Hf Hp Hnone; cbn in Hf; try lia; cbn [remove_loop_list].
  - apply seg_nil_inv in Hl as [-> ->]. cbn [is_nil nil]. exists plist, h, ds. split; [done|]. rewrite !app_nil_r.
    split; [|split; [done|split; [apply only_tails_refl|done]]]. rewrite remove_first_none by done. exact Hd.
  - apply seg_props in Hl as (c1 & c2 & cs' & t & -> & -> & N1 & N2 & E1 & E2 & Hl). rewrite is_nil_S by done.
    rewrite (element_0 _ _ _ _ N1 E1). cbn [obind]. rewrite same_spec.
    assert (Hsame : same (OList c1) plist = bool_decide (done = [])).
    { unfold same. destruct done as [|[k' v'] done].
      - cbn in Hd. destruct ds; [|done]. cbn in Hd. subst plist. by rewrite !bool_decide_true.
      - apply seg_props in Hd as (d1 & d2 & ds' & t' & -> & -> & _). rewrite !bool_decide_false; [done|done|]. intros [= ->].
        apply NoDup_app in Hnd as (_ & Hnd & _). apply (Hnd d1); left. }
    destruct (decide (k0 = k)) as [->|Hne].
    + rewrite (element_1 _ _ _ _ _ _ N1 N2 E1 E2). cbn [obind]. rewrite Hsame. cbn [lookup_prop]. rewrite decide_True by done. cbn [default].
      rewrite remove_first_app by done. cbn [remove_first]. rewrite decide_True by done.
      case_bool_decide as Hdn.
      * subst done. cbn in Hd. destruct ds; [|done]. cbn in Hd. subst plist. rewrite (tail_val _ _ _ _ E1). cbn [obind]. rewrite (tail_val _ _ _ _ E2). cbn [obind].
        exists t, h, cs'. split; [done|]. split; [exact Hl|]. split; [by do 2 apply list_subseteq_cons|]. split; [apply only_tails_refl|done].
      * destruct Hp as [?|(xs & x & ds' & c & Ex & -> & ->)]; [done|]. rewrite (tail_val _ _ _ _ E1). cbn [obind]. rewrite (tail_val _ _ _ _ E2). cbn [obind].
        rewrite Ex in Hd. assert (Hlen : length xs = length ds') by (apply seg_length in Hd; rewrite !app_length in Hd; cbn in Hd; lia).
        pose proof Hd as Hd'. apply seg_split in Hd' as (m & _ & Hm); [|done]. cbn in Hm. destruct Hm as (-> & Nc & t0 & Ec & ->).
        rewrite (set_tail_val _ _ _ _ _ Ec). cbn [obind]. exists plist, (<[c := (x, t)]> h), ((ds' ++ [c]) ++ cs'). split; [done|].
        apply NoDup_app in Hnd as (Hn1 & Hn2 & Hn3). split; [|split; [|split]].
        -- rewrite flat_app, Ex. eapply seg_app; [eapply seg_redirect; [done|exact Hd|done]|]. apply seg_update; [|exact Hl].
           intros Hin. apply (Hn2 c); [apply elem_of_app; right; left|by do 2 right].
        -- intros a. rewrite !elem_of_app, !elem_of_cons. tauto.
        -- apply only_tails_set with (OList c1); [|done]. rewrite !elem_of_app, !elem_of_cons. tauto.
        -- by rewrite insert_length.
    + rewrite Hsame.
      assert (Eppl : (if bool_decide (done = []) then tail h (OList c1) else match ppl with Some p => do t <- tail h p ; tail h t | None => type_error end) = Val (OList c2)).
      { case_bool_decide as Hdn; [by rewrite (tail_val _ _ _ _ E1)|]. destruct Hp as [?|(xs & x & ds' & c & Ex & -> & ->)]; [done|].
        rewrite Ex in Hd. assert (Hlen : length xs = length ds') by (apply seg_length in Hd; rewrite !app_length in Hd; cbn in Hd; lia).
        apply seg_split in Hd as (m & _ & Hm); [|done]. cbn in Hm. destruct Hm as (-> & Nc & t0 & Ec & ->).
        rewrite (tail_val _ _ _ _ Ec). cbn [obind]. by rewrite (tail_val _ _ _ _ E1). }
      rewrite Eppl. cbn [obind]. rewrite (tail_val _ _ _ _ E1). cbn [obind]. rewrite (tail_val _ _ _ _ E2). cbn [obind lookup_prop]. rewrite decide_False by done.
      destruct (IH fuel h (done ++ [(k0, w)]) (ds ++ [c1; c2]) t cs' (Some (OList c2))) as (r & h' & cs2 & R & S & Sub & O & L).
      * rewrite <- app_assoc. exact Hnd.
      * rewrite flat_app. eapply seg_app; [exact Hd|]. cbn. split; [done|]. split; [done|]. exists (OList c2). split; [done|]. split; [done|]. split; [done|]. by exists t.
      * exact Hl.
      * lia.
      * right. exists (flat done ++ [k0]), w, (ds ++ [c1]), c2. rewrite flat_app. by rewrite <- !app_assoc.
      * rewrite lookup_prop_app, Hnone. cbn. by rewrite decide_False.
      * exists r, h', cs2. rewrite <- !app_assoc in *. cbn [app] in *. done.
Qed.

(** remove-keywords on lists *)
Lemma elements_loop_ok xs : forall fuel h l cs, seg h l xs cs nil -> (length xs < fuel)%nat -> elements_loop fuel h l = Val xs.
Proof.
  induction xs as [|x xs IH]; intros [|fuel] h l cs Hl Hf; cbn in Hf; try lia; cbn [elements_loop].
  - apply seg_nil_inv in Hl as [_ ->]. done.
  - destruct cs as [|c cs]; [done|]. cbn in Hl. destruct Hl as (-> & Nc & t & E & Hl). rewrite is_nil_S by done.
    rewrite (head_val _ _ _ _ E), (tail_val _ _ _ _ E). cbn [obind]. rewrite (check_list_seg _ _ _ _ Hl). cbn [obind].
    rewrite (IH fuel h t cs Hl) by lia. done.
Qed.

Lemma keywords_loop_list_ok out ps : forall fuel h l cs p (new : list obj) j kept zj,
  seg h l (flat (p :: ps)) cs nil -> (length ps < fuel)%nat -> take j new = flat kept -> length (flat kept) = j -> zj = Z.of_nat j ->
  (length (flat (kept ++ kept_by out (p :: ps))) <= length new)%nat ->
  exists new', keywords_loop_list fuel h l out new zj = Val (new', Z.of_nat (length (flat (kept ++ kept_by out (p :: ps))))) /\
    take (length (flat (kept ++ kept_by out (p :: ps)))) new' = flat (kept ++ kept_by out (p :: ps)).
Proof.
  induction ps as [|p' ps IH]; intros [|fuel] h l cs [k0 w] new j kept zj Hl Hf Ht Hj -> Hn; cbn in Hf; try lia; cbn [keywords_loop_list];
    apply seg_props in Hl as (c1 & c2 & cs' & t & -> & -> & N1 & N2 & E1 & E2 & Hl);
    rewrite (head_val _ _ _ _ E1), (tail_val _ _ _ _ E1); cbn [obind check_list is_list];
    rewrite (head_val _ _ _ _ E2), (tail_val _ _ _ _ E2); cbn [obind]; rewrite (check_list_seg _ _ _ _ Hl); cbn [obind].
  - assert (Et : is_nil t = true) by (apply seg_nil_inv in Hl as [_ ->]; done).
    destruct (out k0) eqn:Ek.
    + assert (Eo : kept_by out [(k0, w)] = []) by (unfold kept_by; by rewrite filter_cons_False by (cbn; congruence)).
      cbn [obind]. rewrite Et, Eo, app_nil_r, Hj. exists new. split; [done|]. done.
    + assert (Eo : kept_by out [(k0, w)] = [(k0, w)]) by (unfold kept_by; by rewrite filter_cons_True by done). rewrite Eo in Hn |- *.
      assert (Hn2 : (S (S j) <= length new)%nat). { rewrite flat_app, app_length in Hn. cbn in Hn. lia. }
      rewrite (zwrite_nat _ j) by (done || lia). cbn [obind]. rewrite (zwrite_nat _ (S j)) by (rewrite ?insert_length; lia). cbn [obind]. rewrite Et.
      exists (<[S j := w]> (<[j := k0]> new)). rewrite !flat_app, !app_length, Hj. cbn [flat length]. split; [do 2 f_equal; lia|].
      replace (j + 2)%nat with (S (S j)) by lia. rewrite take_insert_S by (rewrite insert_length; lia). rewrite take_insert_S by lia. by rewrite Ht, <- app_assoc.
  - assert (Et : is_nil t = false).
    { destruct p' as [k' w']. apply seg_props in Hl as (d1 & d2 & ds' & t' & -> & -> & M1 & _). by apply is_nil_S. }
    destruct (out k0) eqn:Ek.
    + assert (Eo : kept_by out ((k0, w) :: p' :: ps) = kept_by out (p' :: ps)) by (unfold kept_by; by rewrite (filter_cons_False _ (k0, w)) by (cbn; congruence)).
      rewrite Eo in Hn |- *. cbn [obind]. rewrite Et. apply (IH fuel h t cs' p' new j kept); try done. lia.
    + assert (Eo : kept ++ kept_by out ((k0, w) :: p' :: ps) = (kept ++ [(k0, w)]) ++ kept_by out (p' :: ps)) by (unfold kept_by; rewrite (filter_cons_True _ (k0, w)) by done; by rewrite <- app_assoc).
      rewrite Eo in Hn |- *. assert (Hn2 : (S (S j) <= length new)%nat). { rewrite !flat_app, !app_length in Hn. cbn [flat length] in Hn. lia. }
      rewrite (zwrite_nat _ j) by (done || lia). cbn [obind]. rewrite (zwrite_nat _ (S j)) by (rewrite ?insert_length; lia). cbn [obind]. rewrite Et.
      apply (IH fuel h t cs' p' _ (S (S j)) (kept ++ [(k0, w)])); try done; try lia.
      * rewrite take_insert_S by (rewrite insert_length; lia). rewrite take_insert_S by lia. rewrite Ht, flat_app, <- app_assoc. done.
      * rewrite flat_app, app_length. cbn. lia.
      * rewrite !insert_length. lia.
Qed.
