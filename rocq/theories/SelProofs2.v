(** Proofs about add, reverse, last and concatenate. *)
From stdpp Require Import list_numbers.
From Verif Require Import Base CollModel CollSpec CollProofs CollIterProofs AccModel AccSpec EqModel EqSpec EqProofs SeqOpModel SeqOpSpec SeqOpProofs SelModel SelSpec SelProofs.
From Coq Require Import ZArith ZifyBool ZifyNat.
Local Open Scope outcome_scope.
Local Open Scope Z_scope.

(** [r] makes a sequence of type [ty] with the elements [m]; if a string cannot hold them, it signals an error. *)
Definition gives (ty : ttype) (r : outcome coll) (m : list value) : Prop :=
  (Forall (fun v => takes_t ty v = true) m -> exists c, r = Val c /\ has_type ty c /\ elements_are c m /\ wf_coll c) /\
  (~ Forall (fun v => takes_t ty v = true) m -> exists e, r = Signal e).

Lemma as_type_gives ty m : sequence_type ty -> gives ty (as_type ty m) m.
Proof. intros H. split; [by apply as_type_ok|by apply as_type_bad]. Qed.

Lemma as_coll_gives fuel ty c m : sequence_type ty -> holds_list c m -> (length m < fuel)%nat -> gives ty (as_coll fuel ty c) m.
Proof. intros Hs H Hf. unfold as_coll. rewrite (as_list_ok fuel c m) by done. cbn [obind]. by apply as_type_gives. Qed.

Lemma gives_bad ty r m v : v ∈ m -> takes_t ty v = false -> (exists e, r = Signal e) -> gives ty r m.
Proof.
  intros Hv Ht Hr. split; [|done]. intros H. rewrite Forall_forall in H. specialize (H v Hv). congruence.
Qed.

Lemma editable_type ty c m : has_type ty c -> editable c -> contents c = m -> Forall (fun v => takes_t ty v = true) m ->
  exists c', Val c = Val c' /\ has_type ty c' /\ elements_are c' m /\ wf_coll c'.
Proof.
  intros Ht He <- Hf. exists c. split; [done|]. split; [done|]. split; [by apply elements_editable|].
  destruct ty as [k| | |], c as [k'| | | | |]; cbn in *; try done. subst k'. by destruct k.
Qed.

(** ** add *)

Lemma add_vector_ok k l v : wf_coll (CVec k l) -> storable k v = true -> add (CVec k l) v = Val (CVec k (l ++ [v])).
Proof.
  intros Hw Hv. cbn [add type_for_copy make_filled]. rewrite Hv. cbn [obind].
  pose proof (vec_copy_ok k k l (length l) 0 (replicate (length l + 1) v) 0) as Hc. change (Z.of_nat 0) with 0 in Hc.
  rewrite Hc; [|lia|rewrite replicate_length; lia|].
  2:{ destruct k; cbn in Hw |- *; try (by apply Forall_true). done. }
  cbn [obind array_write]. rewrite Hv. rewrite drop_0, firstn_all.
  rewrite zwrite_val by (rewrite splice_length; rewrite replicate_length; cbn; lia). cbn [obind]. do 2 f_equal.
  unfold splice. rewrite take_0. cbn [app]. rewrite Nat2Z.id. rewrite insert_app_r_alt by lia. rewrite Nat.sub_diag.
  rewrite Nat.add_0_l, drop_replicate. by replace (length l + 1 - length l)%nat with 1%nat by lia.
Qed.

Lemma add_vector_bad k l v : storable k v = false -> exists e, add (CVec k l) v = Signal e.
Proof. intros Hv. cbn [add type_for_copy make_filled]. rewrite Hv. by eexists. Qed.

Lemma add_deque_ok d l v : exists f, add (CDeq d l) v = Val (CDeq f (v :: l)).
Proof.
  cbn [add]. destruct (copy_ok (CDeq d l) 0 None) as (c' & -> & Hs & He & Hc); [done|done|unfold in_bounds; cbn; lia|].
  cbn [obind]. destruct c' as [|f l'| | | |]; try done. exists (f - 1). cbn in Hc. subst l'. unfold copied.
  cbn [end_of contents]. rewrite drop_0. rewrite firstn_all2 by lia. done.
Qed.

(** ** reverse *)

Lemma storable_wf k l : wf_coll (CVec k l) -> Forall (fun v => storable k v = true) l.
Proof. destruct k; cbn; intros; try (by apply Forall_true). done. Qed.

Lemma wf_storable k l : Forall (fun v => storable k v = true) l -> wf_coll (CVec k l).
Proof. by destruct k. Qed.

Lemma reverse_bang_loop_ok k : forall n l i, Forall (fun v => storable k v = true) l -> (2 * (i + n) <= length l)%nat ->
  exists l', reverse_bang_loop n (CVec k l) (Z.of_nat i) (Z.of_nat (length l) - 1 - Z.of_nat i) = Val (CVec k l') /\ length l' = length l /\
  forall p, l' !! p = if decide ((i <= p < i + n)%nat \/ (length l - i - n <= p < length l - i)%nat) then l !! (length l - 1 - p)%nat else l !! p.
Proof.
  induction n as [|n IH]; intros l i Ht Hi; cbn [reverse_bang_loop].
  { exists l. split; [done|]. split; [done|]. intros p. destruct (decide _); [lia|done]. }
  destruct (lookup_lt_is_Some_2 l i) as [x Hx]; [lia|]. destruct (lookup_lt_is_Some_2 l (length l - 1 - i)) as [y Hy]; [lia|].
  assert (Hj : Z.of_nat (length l) - 1 - Z.of_nat i = Z.of_nat (length l - 1 - i)) by lia. rewrite Hj.
  cbn [array_read]. rewrite (zread_val l _ x) by (try lia; by rewrite Nat2Z.id). cbn [obind].
  rewrite (zread_val l _ y) by (try lia; by rewrite Nat2Z.id). cbn [obind array_write].
  rewrite (Forall_lookup_1 _ _ _ _ Ht Hy).
  rewrite zwrite_val by lia. cbn [obind array_write]. rewrite (Forall_lookup_1 _ _ _ _ Ht Hx). rewrite zwrite_val by (rewrite insert_length; lia). cbn [obind]. rewrite !Nat2Z.id.
  set (l1 := <[(length l - 1 - i)%nat:=x]> (<[i:=y]> l)). assert (Hl1 : length l1 = length l) by (unfold l1; by rewrite !insert_length).
  destruct (IH l1 (S i)) as (l' & Hr & Hl' & Hp).
  - unfold l1. apply Forall_insert; [apply Forall_insert|]; [done|by eapply (Forall_lookup_1 _ _ _ _ Ht Hy)|by eapply (Forall_lookup_1 _ _ _ _ Ht Hx)].
  - lia.
  - exists l'. rewrite <- Hr, Hl1. split; [f_equal; lia|]. split; [congruence|]. intros p. rewrite Hp, Hl1.
    assert (Hlk : forall q, l1 !! q = if decide (q = i) then Some y else if decide (q = length l - 1 - i)%nat then Some x else l !! q).
    { intros q. unfold l1. destruct (decide (q = length l - 1 - i)%nat) as [->|Hq].
      - rewrite list_lookup_insert by (rewrite insert_length; lia). destruct (decide _); [lia|done].
      - rewrite list_lookup_insert_ne by done. destruct (decide (q = i)) as [->|]; [by rewrite list_lookup_insert by lia|by rewrite list_lookup_insert_ne]. }
    rewrite !Hlk. destruct (decide (p < length l)%nat) as [Hpl|Hpl].
    2:{ repeat destruct (decide _); try lia; done. }
    destruct (decide (p = i)) as [->|]; [|destruct (decide (p = length l - 1 - i)%nat) as [->|]].
    + repeat destruct (decide _); try lia. by rewrite <- Hy.
    + repeat destruct (decide _); try lia. replace (length l - 1 - (length l - 1 - i))%nat with i by lia. by rewrite <- Hx.
    + repeat destruct (decide _); try lia; done.
Qed.

Lemma reverse_bang_ok k l : wf_coll (CVec k l) -> reverse_bang (CVec k l) = Val (CVec k (rev l)).
Proof.
  intros Hw. unfold reverse_bang. rewrite (len_editable (CVec k l)) by done. cbn [obind contents].
  destruct (reverse_bang_loop_ok k (Z.to_nat (Z.of_nat (length l) / 2)) l 0) as (l' & Hr & Hl & Hp).
  - by apply storable_wf.
  - pose proof (Z.mul_div_le (Z.of_nat (length l)) 2 ltac:(lia)). lia.
  - change (Z.of_nat 0) with 0 in Hr. rewrite Z.sub_0_r in Hr. rewrite Hr. do 2 f_equal. apply list_eq. intros p. rewrite Hp.
    assert (rev l = reverse l) as -> by (unfold reverse; by rewrite rev_alt).
    pose proof (Z.div_mod (Z.of_nat (length l)) 2 ltac:(lia)). pose proof (Z.mod_pos_bound (Z.of_nat (length l)) 2 ltac:(lia)).
    destruct (decide (p < length l)%nat) as [Hpl|Hpl].
    + rewrite reverse_lookup by done. replace (length l - S p)%nat with (length l - 1 - p)%nat by lia. destruct (decide _); [done|].
      f_equal. lia.
    + rewrite (lookup_ge_None_2 (reverse l)) by (rewrite reverse_length; lia). destruct (decide _); [lia|]. apply lookup_ge_None_2. lia.
Qed.

Lemma reverse_loop_ok k l : Forall (fun v => storable k v = true) l ->
  forall n new, (n <= length l)%nat -> length new = length l ->
  reverse_loop n (CVec k new) (Z.of_nat n - 1) (CVec k l) (Z.of_nat (length l - n)) = Val (CVec k (rev (drop (length l - n) l) ++ drop n new)).
Proof.
  intros Ht. induction n as [|n IH]; intros new Hn Hl; cbn [reverse_loop].
  { rewrite Nat.sub_0_r, drop_all. by rewrite drop_0. }
  destruct (lookup_lt_is_Some_2 l (length l - S n)) as [x Hx]; [lia|]. cbn [array_read].
  rewrite (zread_val l _ x) by (try lia; by rewrite Nat2Z.id). cbn [obind array_write]. rewrite (Forall_lookup_1 _ _ _ _ Ht Hx).
  rewrite zwrite_val by lia. cbn [obind]. replace (Z.of_nat (S n) - 1 - 1) with (Z.of_nat n - 1) by lia.
  replace (Z.of_nat (length l - S n) + 1) with (Z.of_nat (length l - n)) by lia.
  rewrite IH; [|lia|by rewrite insert_length]. do 2 f_equal. rewrite (drop_S l x (length l - S n)) by done. cbn [rev].
  replace (S (length l - S n)) with (length l - n)%nat by lia. rewrite <- app_assoc. f_equal. cbn [app].
  replace (Z.to_nat (Z.of_nat (S n) - 1)) with n by lia.
  rewrite (drop_S _ x n) by (apply list_lookup_insert; lia). f_equal. by rewrite drop_insert_gt by lia.
Qed.

Lemma reverse_vector_ok k l : wf_coll (CVec k l) -> reverse_vector (CVec k l) = Val (CVec k (rev l)).
Proof.
  intros Hw. pose proof (storable_wf k l Hw) as Ht. unfold reverse_vector. rewrite (len_editable (CVec k l)) by done. cbn [obind contents type_for_copy].
  destruct l as [|x l]; [by destruct k|]. destruct (Z.eqb_spec (Z.of_nat (length (x :: l))) 0) as [E|_]; [cbn in E; lia|].
  assert (checked_element (CVec k (x :: l)) 0 = Val x) as -> by (by apply (checked_holds _ (x :: l) 0 x); [apply holds_editable|]).
  cbn [obind make_filled]. inversion Ht as [|? ? Hx _]; subst. rewrite Hx. cbn [obind]. rewrite Nat2Z.id.
  pose proof (reverse_loop_ok k (x :: l) Ht (length (x :: l)) (replicate (length (x :: l)) x)) as Hr.
  rewrite Nat.sub_diag in Hr. change (Z.of_nat 0) with 0 in Hr. rewrite Hr; [|lia|by rewrite replicate_length].
  rewrite drop_0, drop_ge by (rewrite replicate_length; lia). by rewrite app_nil_r.
Qed.

Lemma reverse_sequence_ok fuel c m : wf_coll c -> holds_list c m -> (length m < fuel)%nat ->
  exists c', reverse_sequence fuel c = Val c' /\ of_class_of c c' /\ elements_are c' (rev m) /\ wf_coll c'.
Proof.
  intros Hw H Hf. unfold reverse_sequence. rewrite (for_in_ok fuel c m) by done.
  assert (forall l r, foldM (fun (l : list value) item => Val (item :: l)) r l = Val (rev l ++ r)) as ->.
  { induction l as [|x l IH]; intros r; [done|]. cbn [foldM obind rev]. rewrite IH. by rewrite <- app_assoc. }
  cbn [obind]. rewrite app_nil_r. apply (as_own c m); try done. intros v Hv. apply elem_of_list_In, in_rev in Hv. by apply elem_of_list_In.
Qed.

Lemma last_ok c m default : holds_list c m ->
  last_ c default = match last m with Some v => Val v | None => match default with Some d => Val d | None => Signal "subscript out of bounds" end end.
Proof.
  intros H. unfold last_. rewrite (len_holds c m) by done. cbn [obind]. rewrite last_lookup. destruct m as [|x m]; [done|].
  destruct (Z.eqb_spec (Z.of_nat (length (x :: m))) 0) as [E|_]; [cbn in E; lia|].
  destruct (lookup_lt_is_Some_2 (x :: m) (length m)) as [v Hv]; [cbn; lia|]. cbn [length Nat.pred]. rewrite Hv.
  replace (Z.of_nat (S (length m)) - 1) with (Z.of_nat (length m)) by lia. by apply (checked_holds c (x :: m)).
Qed.

(** ** Storing into a vector *)

Definition put_step : coll * Z -> value -> outcome (coll * Z) :=
  fun '(result, key) val => do result <- array_write val result key ; Val (result, key + 1).

Lemma put_ok k : forall m r j, (j + length m <= length r)%nat -> Forall (fun v => storable k v = true) m ->
  foldM put_step (CVec k r, Z.of_nat j) m = Val (CVec k (splice r j m), Z.of_nat (j + length m)).
Proof.
  induction m as [|x m IH]; intros r j Hj Ht; cbn [foldM put_step].
  { rewrite splice_nil. cbn. by rewrite Nat.add_0_r. }
  inversion Ht as [|? ? Hx Hm]; subst. cbn [length] in *. cbn [array_write]. rewrite Hx, zwrite_val by lia. cbn [obind]. rewrite Nat2Z.id.
  replace (Z.of_nat j + 1) with (Z.of_nat (S j)) by lia. rewrite IH; [|rewrite insert_length; lia|done].
  rewrite splice_cons by lia. do 2 f_equal. lia.
Qed.

Lemma put_bad k : forall m r j, (j + length m <= length r)%nat -> ~ Forall (fun v => storable k v = true) m ->
  exists e, foldM put_step (CVec k r, Z.of_nat j) m = Signal e.
Proof.
  induction m as [|x m IH]; intros r j Hj Ht; cbn [foldM put_step]; [by destruct Ht|]. cbn [length] in *. cbn [array_write].
  destruct (storable k x) eqn:Hx; [|by eexists]. rewrite zwrite_val by lia. cbn [obind]. rewrite Nat2Z.id.
  replace (Z.of_nat j + 1) with (Z.of_nat (S j)) by lia. apply IH; [rewrite insert_length; lia|]. intros Hm. apply Ht. by constructor.
Qed.

Lemma storable_dec k (m : list value) : {Forall (fun v => storable k v = true) m} + {~ Forall (fun v => storable k v = true) m}.
Proof. apply (Forall_dec (fun v => storable k v = true)). Defined.

Lemma splice_app r m1 m2 : length r = (length m1 + length m2)%nat -> splice (splice r 0 m1) (length m1) m2 = m1 ++ m2.
Proof.
  intros H. unfold splice. rewrite take_0. cbn [app]. rewrite take_app. f_equal. rewrite drop_ge; [by rewrite app_nil_r|].
  rewrite app_length, drop_length. lia.
Qed.

(** ** concatenate-as-two *)

Lemma foldM_push : forall m f l,
  foldM (fun d val => match d with CDeq first l => Val (CDeq first (l ++ [val])) | _ => bad end) (CDeq f l) m = Val (CDeq f (l ++ m)).
Proof.
  induction m as [|x m IH]; intros f l; cbn [foldM]; [by rewrite app_nil_r|]. cbn [obind]. rewrite IH. by rewrite <- app_assoc.
Qed.

Lemma fold_left_cons (m : list value) : forall l, fold_left (fun (result : list value) p => p :: result) m l = rev m ++ l.
Proof. induction m as [|x m IH]; intros l; [done|]. cbn. rewrite IH. by rewrite <- app_assoc. Qed.

Lemma foldM_rev : forall l r, foldM (fun (l : list value) item => Val (item :: l)) r l = Val (rev l ++ r).
Proof. induction l as [|x l IH]; intros r; [done|]. cbn [foldM obind rev]. rewrite IH. by rewrite <- app_assoc. Qed.

Lemma two_gives fuel ty c1 m1 c2 m2 : sequence_type ty -> holds_list c1 m1 -> holds_list c2 m2 ->
  (length m1 < fuel)%nat -> (length m2 < fuel)%nat -> gives ty (concatenate_as_two fuel ty c1 c2) (m1 ++ m2).
Proof.
  intros Hty H1 H2 Hf1 Hf2. unfold concatenate_as_two. rewrite (is_empty_holds c1 m1), (is_empty_holds c2 m2) by done. cbn [obind].
  assert (Hnl : forall X : outcome coll, (m1 <> [] -> m2 <> [] -> gives ty X (m1 ++ m2)) ->
    gives ty (if bool_decide (m1 = []) then as_coll fuel ty c2 else if bool_decide (m2 = []) then as_coll fuel ty c1 else X) (m1 ++ m2)).
  { intros X HX. destruct (decide (length m1 = O)) as [E1|E1].
    - destruct m1; [|done]. rewrite bool_decide_true by done. cbn [app]. by apply as_coll_gives.
    - rewrite bool_decide_false by (by intros ->). destruct (decide (length m2 = O)) as [E2|E2].
      + destruct m2; [|done]. rewrite bool_decide_true by done. rewrite app_nil_r. by apply as_coll_gives.
      + rewrite bool_decide_false by (by intros ->). apply HX; by intros ->. }
  destruct ty as [k| | |]; [| | |done].
  - cbn [obind]. apply Hnl. intros N1 N2. rewrite (len_holds c1 m1), (len_holds c2 m2) by done. cbn [obind].
    destruct m1 as [|x m1]; [done|]. change 0 with (Z.of_nat 0) at 1. rewrite (checked_holds c1 (x :: m1) 0 x H1 eq_refl). change (Z.of_nat 0) with 0. cbn [obind make_filled].
    destruct (storable k x) eqn:Hx. 2:{ apply (gives_bad _ _ _ x); [by left|done|by eexists]. }
    cbn [obind]. unfold store_in. fold put_step. rewrite (for_in_ok fuel c1 (x :: m1)) by done.
    set (r := replicate _ x). assert (Hr : length r = (length (x :: m1) + length m2)%nat) by (unfold r; rewrite replicate_length; lia).
    destruct (storable_dec k (x :: m1)) as [T1|T1].
    2:{ destruct (put_bad k (x :: m1) r 0) as [e He]; [lia|done|]. change (Z.of_nat 0) with 0 in He. rewrite He. cbn [obind]. split; [|by eexists].
        intros HF. exfalso. apply T1. by apply Forall_app in HF as [? ?]. }
    pose proof (put_ok k (x :: m1) r 0) as Hp. change (Z.of_nat 0) with 0 in Hp. rewrite Hp by (done || lia). cbn [obind].
    rewrite (for_in_ok fuel c2 m2) by done.
    assert (Hs : length (splice r 0 (x :: m1)) = length r) by (apply splice_length; lia).
    destruct (storable_dec k m2) as [T2|T2].
    2:{ destruct (put_bad k m2 (splice r 0 (x :: m1)) (0 + length (x :: m1))) as [e ->]; [lia|done|]. cbn [obind]. split; [|by eexists].
        intros HF. exfalso. apply T2. by apply Forall_app in HF as [? ?]. }
    rewrite put_ok by (done || lia). cbn [obind]. cbn [Nat.add]. rewrite splice_app by lia. split.
    + intros HF. by apply editable_type.
    + intros HF. exfalso. apply HF. by apply Forall_app.
  - cbn [obind]. apply Hnl. intros N1 N2. rewrite (for_in_ok fuel c1 m1) by done. cbn [make_empty]. rewrite foldM_push. cbn [obind app].
    rewrite (for_in_ok fuel c2 m2) by done. rewrite foldM_push. split.
    + intros HF. by apply editable_type.
    + intros HF. exfalso. apply HF. by apply Forall_true.
  - destruct (decide (length m2 = O)) as [E2|E2].
    + destruct m2; [|done]. rewrite bool_decide_true by done. rewrite app_nil_r. by apply as_coll_gives.
    + rewrite bool_decide_false by (by intros ->). rewrite (as_list_ok fuel c2 m2) by done. cbn [obind].
      assert (Hg : gives TList (Val (CList (m1 ++ m2))) (m1 ++ m2)).
      { split; [intros HF; by apply editable_type|]. intros HF. exfalso. apply HF. by apply Forall_true. }
      destruct (decide (length m1 = O)) as [E1|E1].
      * destruct m1; [|done]. rewrite bool_decide_true by done. exact Hg.
      * rewrite bool_decide_false by (by intros ->). rewrite (for_in_ok fuel c1 m1) by done. rewrite foldM_rev. cbn [obind].
        rewrite fold_left_cons, app_nil_r, rev_involutive. exact Hg.
Qed.

(** ** concatenate-as on lists *)

Lemma concatenate_list_ok fuel : forall rest ms c m, holds_list c m -> Forall2 holds_list rest ms ->
  (length m + length (concat ms) < fuel)%nat ->
  concatenate_as_list fuel c rest = Val (CList (m ++ concat ms)).
Proof.
  assert (Hone : forall c1 m1 c2 m2, holds_list c1 m1 -> holds_list c2 m2 -> (length m1 < fuel)%nat -> (length m2 < fuel)%nat ->
    concatenate_as_two fuel TList c1 c2 = Val (CList (m1 ++ m2))).
  { intros c1 m1 c2 m2 H1 H2 F1 F2. destruct (two_gives fuel TList c1 m1 c2 m2) as [HV _]; try done.
    destruct HV as (c & -> & Ht & He & _); [by apply Forall_true|]. destruct c; try done. do 2 f_equal. by apply (elements_editable (CList l)). }
  induction rest as [|s rest IH]; intros ms c m Hc Hr Hf; inversion Hr as [|? m' ? ms' Hs Hrest]; subst; cbn [concatenate_as_list obind concat] in *.
  - rewrite (Hone c m (CList []) []); [done|done|by apply (holds_editable (CList []))|lia|cbn; lia].
  - rewrite app_length in Hf. rewrite (IH ms' s m'); [|done|done|lia]. cbn [obind].
    apply Hone; [done|by apply (holds_editable (CList _))|lia|rewrite app_length; lia].
Qed.

(** ** Storing through an iteration protocol *)

Definition fip_step (rf : fip) : coll * state -> value -> outcome (coll * state) :=
  fun '(result, s) val =>
    do result <- run_set (f_set rf) val result s ;
    do s <- run_next (f_next rf) result s ;
    Val (result, s).

Lemma set_bad c i v : editable c -> (i < length (contents c))%nat -> ~ takes1 c v ->
  exists e, run_set (f_set (fip_of c)) v c (pos_state c i) = Signal e.
Proof.
  intros He Hi Ht. destruct c as [k l|d l|l| | |]; cbn in *; try done.
  rewrite bool_decide_true by done. destruct (storable k v); [done|]. by eexists.
Qed.

Lemma takes1_dec c v : {takes1 c v} + {~ takes1 c v}.
Proof. unfold takes1. destruct c; try (by left). apply bool_eq_dec. Defined.
Lemma Forall_takes1_dec c (m : list value) : {Forall (takes1 c) m} + {~ Forall (takes1 c) m}.
Proof.
  induction m as [|x m [IH|IH]]; [left; constructor| |].
  - destruct (takes1_dec c x); [left; by constructor|right; intros H; by inversion H].
  - right. intros H; by inversion H.
Defined.

Lemma fip_step_ok c : forall m r j, editable r -> fip_of r = fip_of c -> (j + length m <= length (contents r))%nat -> Forall (takes1 r) m ->
  foldM (fip_step (fip_of c)) (r, pos_state r j) m = Val (wl r (splice (contents r) j m), pos_state r (j + length m)).
Proof.
  induction m as [|x m IH]; intros r j He Hfc Hj Ht; cbn [foldM fip_step].
  { rewrite splice_nil, wl_contents. cbn. by rewrite Nat.add_0_r. }
  inversion Ht as [|? ? Hx Hm]; subst. cbn [length] in *. rewrite <- Hfc. rewrite set_pos by (done || lia). cbn [obind].
  set (r' := wl r (<[j:=x]> (contents r))). assert (He' : editable r') by by apply editable_wl.
  assert (Hl : contents r' = <[j:=x]> (contents r)) by (by apply contents_wl).
  assert (Hf : fip_of r' = fip_of r) by (apply fip_wl; [done|apply insert_length]). rewrite <- Hf.
  assert (Hp : forall i, pos_state r i = pos_state r' i) by (intros; symmetry; by apply pos_wl). rewrite !Hp.
  rewrite at_next by (rewrite ?Hl, ?insert_length; done || lia). cbn [obind]. rewrite Hf, Hfc, IH.
  - rewrite Hl. unfold r' at 1. rewrite wl_wl. rewrite splice_cons by lia. do 3 f_equal. lia.
  - done.
  - congruence.
  - rewrite Hl, insert_length. lia.
  - eapply Forall_impl; [exact Hm|]. intros y Hy. by apply takes1_wl.
Qed.

Lemma fip_step_bad c : forall m r j, editable r -> fip_of r = fip_of c -> (j + length m <= length (contents r))%nat -> ~ Forall (takes1 r) m ->
  exists e, foldM (fip_step (fip_of c)) (r, pos_state r j) m = Signal e.
Proof.
  induction m as [|x m IH]; intros r j He Hfc Hj Ht; cbn [foldM fip_step]; [by destruct Ht|].
  cbn [length] in *. rewrite <- Hfc. destruct (takes1_dec r x) as [Hx|Hx].
  2:{ destruct (set_bad r j x) as [e ->]; [done|lia|done|]. by eexists. }
  rewrite set_pos by (done || lia). cbn [obind].
  set (r' := wl r (<[j:=x]> (contents r))). assert (He' : editable r') by by apply editable_wl.
  assert (Hl : contents r' = <[j:=x]> (contents r)) by (by apply contents_wl).
  assert (Hf : fip_of r' = fip_of r) by (apply fip_wl; [done|apply insert_length]). rewrite <- Hf.
  assert (Hp : forall i, pos_state r i = pos_state r' i) by (intros; symmetry; by apply pos_wl). rewrite !Hp.
  rewrite at_next by (rewrite ?Hl, ?insert_length; done || lia). cbn [obind]. rewrite Hf, Hfc. apply IH; [done|congruence|rewrite Hl, insert_length; lia|].
  intros Hm. apply Ht. constructor; [done|]. eapply Forall_impl; [exact Hm|]. intros y Hy. by apply takes1_wl in Hy.
Qed.

Lemma splice_splice r j m1 m2 : (j + length m1 + length m2 <= length r)%nat -> splice (splice r j m1) (j + length m1) m2 = splice r j (m1 ++ m2).
Proof.
  intros H. apply list_eq. intros i. rewrite !lookup_splice by (rewrite ?splice_length, ?app_length; lia). rewrite app_length.
  repeat destruct (decide _); try lia; try done.
  - rewrite lookup_app_l by lia. done.
  - rewrite lookup_app_r by lia. f_equal. lia.
Qed.

(** All the sequences, one after the other. *)
Lemma store_all_gives fuel : forall seqs ms c r j, Forall2 holds_list seqs ms -> editable r -> fip_of r = fip_of c ->
  (j + length (concat ms) <= length (contents r))%nat -> (length (concat ms) < fuel)%nat ->
  (Forall (takes1 r) (concat ms) -> exists s, store_all fuel seqs (fip_of c) (r, pos_state r j) = Val (wl r (splice (contents r) j (concat ms)), s)) /\
  (~ Forall (takes1 r) (concat ms) -> exists e, store_all fuel seqs (fip_of c) (r, pos_state r j) = Signal e).
Proof.
  induction seqs as [|s seqs IH]; intros ms c r j Hs He Hfc Hj Hf; inversion Hs as [|? m ? ms' Hm Hms]; subst; cbn [store_all concat] in *.
  { split; [|intros []; constructor]. intros _. eexists. by rewrite splice_nil, wl_contents. }
  rewrite app_length in *. unfold store_fip. fold (fip_step (fip_of c)). rewrite (for_in_ok fuel s m) by (done || lia).
  destruct (Forall_takes1_dec r m) as [T|T].
  - rewrite fip_step_ok by (done || lia). cbn [obind]. set (r' := wl r (splice (contents r) j m)).
    assert (He' : editable r') by by apply editable_wl. assert (Hl : contents r' = splice (contents r) j m) by (by apply contents_wl).
    assert (Hll : length (splice (contents r) j m) = length (contents r)) by (apply splice_length; lia).
    rewrite <- (pos_wl r (splice (contents r) j m)) by done. fold r'.
    assert (Ht : forall l, Forall (takes1 r') l <-> Forall (takes1 r) l).
    { intros l. split; intros Hl'; (eapply Forall_impl; [exact Hl'|]); intros y Hy; by apply (takes1_wl r (splice (contents r) j m)). }
    destruct (IH ms' c r' (j + length m)%nat) as [HV HS]; [done|done|rewrite <- Hfc; by apply fip_wl|rewrite Hl; lia|lia|].
    split.
    + intros [_ HT]%Forall_app. destruct HV as [st ->]; [by apply Ht|]. exists st. unfold r' at 1. rewrite wl_wl, Hl. by rewrite splice_splice by lia.
    + intros HT. apply HS. intros H'. apply HT. apply Forall_app. split; [done|by apply Ht].
  - destruct (fip_step_bad c m r j) as [e ->]; [done|done|lia|done|]. cbn [obind]. split; [|by eexists]. by intros [? _]%Forall_app.
Qed.

(** ** The sizes *)

Fixpoint first_pos (ms : list (list value)) : option nat :=
  match ms with [] => None | [] :: ms => option_map S (first_pos ms) | _ :: _ => Some O end.
Fixpoint non_empty (ms : list (list value)) : nat :=
  match ms with [] => O | [] :: ms => non_empty ms | _ :: ms => S (non_empty ms) end.

Lemma count_seqs_ok : forall seqs ms idx tot num nei, Forall2 holds_list seqs ms -> 0 <= num ->
  count_seqs seqs idx tot num nei =
    Val (tot + Z.of_nat (length (concat ms)), num + Z.of_nat (non_empty ms),
         if num =? 0 then match first_pos ms with Some p => idx + Z.of_nat p | None => nei end else nei).
Proof.
  induction seqs as [|s seqs IH]; intros ms idx tot num nei Hs Hn; inversion Hs as [|? m ? ms' Hm Hms]; subst; cbn [count_seqs concat first_pos non_empty].
  { cbn. rewrite !Z.add_0_r. by destruct (num =? 0). }
  rewrite (len_holds s m) by done. cbn [obind]. destruct m as [|x m].
  - cbn [length]. change (Z.of_nat 0 =? 0) with true. cbn [app]. rewrite (IH ms') by done. do 3 f_equal.
    destruct (num =? 0); [|done]. destruct (first_pos ms'); [|done]. cbn. lia.
  - destruct (Z.eqb_spec (Z.of_nat (length (x :: m))) 0) as [E|_]; [cbn in E; lia|]. rewrite (IH ms') by (done || lia). rewrite app_length.
    do 2 f_equal; [f_equal; lia|]. destruct (Z.eqb_spec (num + 1) 0); [lia|]. destruct (Z.eqb_spec (num + 1) 1), (Z.eqb_spec num 0); try lia; done.
Qed.

Lemma first_pos_some ms p : first_pos ms = Some p -> exists x m, ms !! p = Some (x :: m) /\ (non_empty ms = 1%nat -> concat ms = x :: m).
Proof.
  revert p. induction ms as [|[|x m] ms IH]; intros p; cbn [first_pos non_empty concat]; [done| |].
  - intros (q & Hq & ->)%fmap_Some. destruct (IH q Hq) as (x & m & H1 & H2). by exists x, m.
  - intros [= <-]. exists x, m. split; [done|]. intros [= H]. clear IH. assert (concat ms = []) as ->; [|by rewrite app_nil_r].
    induction ms as [|[|] ms IH]; [done| |done]. cbn in *. by apply IH.
Qed.
Lemma non_empty_zero ms : non_empty ms = O <-> concat ms = [].
Proof. induction ms as [|[|x m] ms IH]; cbn; [done|done|]. split; done. Qed.
Lemma first_pos_none ms : first_pos ms = None -> non_empty ms = O.
Proof. induction ms as [|[|x m] ms IH]; cbn; [done| |done]. destruct (first_pos ms); [done|]. intros _. by apply IH. Qed.

Lemma in_concat_lookup (ms : list (list value)) p m v : ms !! p = Some m -> v ∈ m -> v ∈ concat ms.
Proof.
  revert p. induction ms as [|m' ms IH]; intros [|p] Hp Hv; try done; cbn in *.
  - injection Hp as ->. apply elem_of_app. by left.
  - apply elem_of_app. right. by eapply IH.
Qed.

Lemma length_lookup_concat (ms : list (list value)) p m : ms !! p = Some m -> (length m <= length (concat ms))%nat.
Proof.
  revert p. induction ms as [|m' ms IH]; intros [|p] Hp; try done; cbn in *; rewrite app_length.
  - injection Hp as ->. lia.
  - pose proof (IH p Hp). lia.
Qed.

(** ** concatenate-as on <sequence> *)

Lemma takes1_t ty c v : has_type ty c -> takes1 c v <-> takes_t ty v = true.
Proof. destruct ty as [k| | |], c as [k'| | | | |]; cbn; try done. by intros ->. Qed.

Lemma make_filled_ok ty n v : sequence_type ty -> takes_t ty v = true ->
  exists r, make_filled ty n v = Val r /\ has_type ty r /\ editable r /\ contents r = replicate n v.
Proof.
  intros Hs Ht. destruct ty as [k| | |]; try done; cbn [make_filled].
  - cbn in Ht. rewrite Ht. by eexists.
  - by eexists.
  - by eexists.
Qed.

Lemma has_type_wl ty r l : has_type ty r -> has_type ty (wl r l).
Proof. by destruct ty, r. Qed.

Lemma sequence_gives fuel ty c m rest ms : sequence_type ty -> holds_list c m -> Forall2 holds_list rest ms ->
  (length m + length (concat ms) < fuel)%nat -> gives ty (concatenate_as_sequence fuel ty c rest) (m ++ concat ms).
Proof.
  intros Hty Hc Hr Hf. destruct rest as [|s1 [|s2 rest]]; cbn [concatenate_as_sequence].
  - inversion Hr; subst. cbn [concat]. rewrite app_nil_r. apply as_coll_gives; [done|done|lia].
  - inversion Hr as [|? m1 ? ? H1 H2]; subst. inversion H2; subst. cbn [concat] in *. rewrite app_nil_r in *. apply two_gives; try done; lia.
  - set (seqs := s1 :: s2 :: rest) in *. rewrite (len_holds c m), (is_empty_holds c m) by done. cbn [obind].
    set (n0 := if bool_decide (m = []) then 0 else 1).
    rewrite (count_seqs_ok seqs ms) by (done || (unfold n0; destruct (bool_decide _); lia)). cbn [obind].
    (* the first sequence, put before the others *)
    assert (Hall : Forall2 holds_list (c :: seqs) (m :: ms)) by by constructor.
    set (nei := if n0 =? 0 then _ else _).
    assert (Hnum : n0 + Z.of_nat (non_empty ms) = Z.of_nat (non_empty (m :: ms))).
    { unfold n0. destruct m; cbn [non_empty]; [rewrite bool_decide_true by done|rewrite bool_decide_false by done]; lia. }
    assert (Hnei : forall p, first_pos (m :: ms) = Some p -> nei = Z.of_nat p).
    { intros p Hp. unfold nei, n0. destruct m; cbn [first_pos] in Hp.
      - rewrite bool_decide_true by done. cbn. apply fmap_Some in Hp as (q & -> & ->). lia.
      - rewrite bool_decide_false by done. cbn. injection Hp as <-. lia. }
    rewrite Hnum. clearbody nei. change (m ++ concat ms) with (concat (m :: ms)).
    assert (Hfa : (length (concat (m :: ms)) < fuel)%nat) by (cbn; rewrite app_length; lia).
    destruct (Z.eqb_spec (Z.of_nat (non_empty (m :: ms))) 0) as [E0|E0].
    { rewrite (proj1 (non_empty_zero (m :: ms))) by lia. by apply as_type_gives. }
    destruct (first_pos (m :: ms)) as [p|] eqn:Ep; [|apply first_pos_none in Ep; lia].
    rewrite (Hnei p) by done. destruct (first_pos_some _ _ Ep) as (x & m' & Hp & H1).
    destruct (Forall2_lookup_r _ _ _ _ _ Hall Hp) as (s & Hs & Hholds).
    assert (Hlen : (length (x :: m') < fuel)%nat) by (pose proof (length_lookup_concat _ _ _ Hp); lia).
    assert (Hsel : forall X (k : coll -> outcome X), (do s <- (if Z.of_nat p =? 0 then Val c else nth_seq seqs (Z.of_nat p - 1)) ; k s) = k s).
    { intros X k. destruct p as [|p].
      - cbn in Hs |- *. by injection Hs as ->.
      - destruct (Z.eqb_spec (Z.of_nat (S p)) 0); [lia|]. unfold nth_seq. destruct (Z.ltb_spec (Z.of_nat (S p) - 1) 0); [lia|].
        assert (Z.to_nat (Z.of_nat (S p) - 1) = p) as -> by lia. change ((c :: seqs) !! S p) with (seqs !! p) in Hs. by rewrite Hs. }
    destruct (Z.eqb_spec (Z.of_nat (non_empty (m :: ms))) 1) as [E1|E1].
    { specialize (Hsel _ (as_coll fuel ty)). rewrite H1 by lia.
      assert (forall Y, (if Z.of_nat p =? 0 then as_coll fuel ty c else Y) = (if Z.of_nat p =? 0 then as_coll fuel ty c else Y)) as _ by done.
      destruct (Z.of_nat p =? 0); cbn [obind] in Hsel; rewrite Hsel; by apply as_coll_gives. }
    rewrite Hsel. change 0 with (Z.of_nat 0) at 1. rewrite (checked_holds s (x :: m') 0 x Hholds eq_refl). cbn [obind].
    assert (Hin : x ∈ concat (m :: ms)) by (eapply in_concat_lookup; [exact Hp|by left]).
    destruct (takes_t ty x) eqn:Hx.
    2:{ apply (gives_bad _ _ _ x); [done|done|]. destruct ty as [k| | |]; try done. cbn in Hx |- *. rewrite Hx. by eexists. }
    destruct (make_filled_ok ty (Z.to_nat (Z.of_nat (length m) + Z.of_nat (length (concat ms)))) x) as (r & -> & Htr & Her & Hcr); [done|done|].
    cbn [obind]. assert (Hlr : length (contents r) = length (concat (m :: ms))) by (rewrite Hcr, replicate_length; cbn [concat]; rewrite app_length; lia).
    pose proof (store_all_gives fuel (c :: seqs) (m :: ms) r r 0 Hall Her eq_refl) as [HV HS]; [lia|done|].
    cbn [store_all] in HV, HS. rewrite <- fip_init in HV, HS.
    assert (Hiff : Forall (takes1 r) (concat (m :: ms)) <-> Forall (fun v => takes_t ty v = true) (concat (m :: ms))).
    { split; intros H; (eapply Forall_impl; [exact H|]); intros v Hv; by apply (takes1_t ty r). }
    assert (Heq : (do r0 <- store_fip fuel c (fip_of r) (r, f_init (fip_of r)); do ' (result, _) <- store_all fuel seqs (fip_of r) r0; Val result)
      = (do ' (result, _) <- (do r0 <- store_fip fuel c (fip_of r) (r, f_init (fip_of r)); store_all fuel seqs (fip_of r) r0) ; Val result)).
    { by destruct (store_fip fuel c (fip_of r) (r, f_init (fip_of r))). }
    rewrite Heq. split.
    + intros HF. destruct HV as [st ->]; [by apply Hiff|]. cbn [obind]. apply editable_type; [by apply has_type_wl|by apply editable_wl| |done].
      rewrite contents_wl by done. apply splice_all. done.
    + intros HF. destruct HS as [e ->]; [by intros ?%Hiff|]. by eexists.
Qed.

(** ** concatenate-as on vectors *)

Definition first_element (ms : list (list value)) : option value :=
  match first_pos ms with Some p => ms !! p ≫= head | None => None end.

Lemma count_vectors_ok k : forall vs ms tot num fill, Forall2 holds_list vs ms ->
  count_vectors k vs tot num fill =
    Val (if forallb (of_kind k) vs then
           Some (tot + Z.of_nat (length (concat ms)), num + Z.of_nat (non_empty ms), match fill with Some x => Some x | None => first_element ms end)
         else None).
Proof.
  induction vs as [|v vs IH]; intros ms tot num fill Hv; inversion Hv as [|? m ? ms' Hm Hms]; subst; cbn [count_vectors forallb].
  { cbn. rewrite !Z.add_0_r. by destruct fill. }
  destruct (of_kind k v); [|done]. cbn [negb andb]. rewrite (len_holds v m) by done. cbn [obind concat non_empty]. destruct m as [|x m].
  - cbn [length]. change (Z.of_nat 0 =? 0) with true. cbn iota. rewrite (IH ms') by done. cbn [app].
    assert (first_element ([] :: ms') = first_element ms') as ->; [|done]. unfold first_element. cbn [first_pos]. by destruct (first_pos ms').
  - destruct (Z.eqb_spec (Z.of_nat (length (x :: m))) 0) as [E|_]; [cbn in E; lia|].
    assert (match fill with Some x => Val (Some x) | None => do x <- checked_element v 0; Val (Some x) end
      = Val (match fill with Some x => Some x | None => Some x end)) as ->.
    { destruct fill; [done|]. change 0 with (Z.of_nat 0). by rewrite (checked_holds v (x :: m) 0 x Hm eq_refl). }
    cbn [obind]. rewrite (IH ms') by done. rewrite app_length. f_equal. destruct (forallb (of_kind k) vs); [|done].
    do 3 f_equal; [lia|lia|]. by destruct fill.
Qed.

Lemma first_non_empty_ok : forall vs ms p, Forall2 holds_list vs ms -> first_pos ms = Some p ->
  exists v, first_non_empty vs = Val v /\ vs !! p = Some v.
Proof.
  induction vs as [|v vs IH]; intros ms p Hv Hp; inversion Hv as [|? m ? ms' Hm Hms]; subst; [done|]. cbn [first_non_empty].
  rewrite (is_empty_holds v m) by done. cbn [obind]. destruct m as [|x m]; cbn [first_pos] in Hp.
  - rewrite bool_decide_true by done. apply fmap_Some in Hp as (q & Hq & ->). by apply (IH ms').
  - rewrite bool_decide_false by done. injection Hp as <-. by eexists.
Qed.

Lemma vec_copy_bad k k' src : forall n i r j, (i + n <= length src)%nat -> (j + n <= length r)%nat ->
  ~ Forall (fun v => storable k v = true) (take n (drop i src)) ->
  exists e, vec_copy_loop n (CVec k r) (Z.of_nat j) (CVec k' src) (Z.of_nat i) = Signal e.
Proof.
  induction n as [|n IH]; intros i r j Hi Hj Ht; cbn [vec_copy_loop]; [exfalso; apply Ht; rewrite take_0; constructor|].
  destruct (lookup_lt_is_Some_2 src i) as [x Hx]; [lia|]. cbn [array_read]. rewrite (zread_val src _ x) by (try lia; by rewrite Nat2Z.id).
  cbn [obind array_write]. destruct (storable k x) eqn:Ex; [|by eexists]. rewrite zwrite_val by lia. cbn [obind]. rewrite Nat2Z.id.
  replace (Z.of_nat j + 1) with (Z.of_nat (S j)) by lia. replace (Z.of_nat i + 1) with (Z.of_nat (S i)) by lia.
  apply IH; [lia|rewrite insert_length; lia|]. intros H. apply Ht. rewrite (drop_S _ x i) by done. cbn [take]. by constructor.
Qed.

Definition is_vec (c : coll) : Prop := match c with CVec _ _ => True | _ => False end.

Lemma copy_vectors_gives k : forall vs ms r j, Forall2 holds_list vs ms -> Forall is_vec vs -> (j + length (concat ms) <= length r)%nat ->
  (Forall (fun v => storable k v = true) (concat ms) -> copy_vectors vs (CVec k r) (Z.of_nat j) = Val (CVec k (splice r j (concat ms)))) /\
  (~ Forall (fun v => storable k v = true) (concat ms) -> exists e, copy_vectors vs (CVec k r) (Z.of_nat j) = Signal e).
Proof.
  induction vs as [|v vs IH]; intros ms r j Hv Hvec Hj; inversion Hv as [|? m ? ms' Hm Hms]; subst; cbn [copy_vectors concat] in *.
  { split; [by rewrite splice_nil|]. intros []. constructor. }
  inversion Hvec as [|? ? Hv1 Hvec']; subst. rewrite app_length in Hj. rewrite (len_holds v m) by done. cbn [obind]. rewrite Nat2Z.id.
  destruct v as [k' l| | | | |]; try done. assert (l = m) as -> by (by apply (holds_contents (CVec k' l) m)).
  destruct (storable_dec k m) as [T|T].
  - pose proof (vec_copy_ok k k' m (length m) 0 r j) as Hc. change (Z.of_nat 0) with 0 in Hc. rewrite Hc by (done || lia). cbn [obind].
    rewrite drop_0, firstn_all. replace (Z.of_nat j + Z.of_nat (length m)) with (Z.of_nat (j + length m)) by lia.
    destruct (IH ms' (splice r j m) (j + length m)%nat) as [HV HS]; [done|done|rewrite splice_length; lia|]. split.
    + intros [_ HT]%Forall_app. rewrite HV by done. by rewrite splice_splice by lia.
    + intros HT. apply HS. intros H'. apply HT. by apply Forall_app.
  - destruct (vec_copy_bad k k' m (length m) 0 r j) as [e He]; [lia|lia|by rewrite drop_0, firstn_all|]. change (Z.of_nat 0) with 0 in He. rewrite He.
    cbn [obind]. split; [|by eexists]. by intros [? _]%Forall_app.
Qed.

Lemma replace_vectors_ok : forall vs ms r j, Forall2 holds_list vs ms -> Forall is_vec vs -> (j + length (concat ms) <= length r)%nat ->
  replace_vectors vs r (Z.of_nat j) = Val (splice r j (concat ms)).
Proof.
  induction vs as [|v vs IH]; intros ms r j Hv Hvec Hj; inversion Hv as [|? m ? ms' Hm Hms]; subst; cbn [replace_vectors concat] in *.
  { by rewrite splice_nil. }
  inversion Hvec as [|? ? Hv1 Hvec']; subst. rewrite app_length in Hj. destruct v as [k' l| | | | |]; try done.
  assert (l = m) as -> by (by apply (holds_contents (CVec k' l) m)).
  assert (primitive_replace r (Z.of_nat j) m 0 (Z.of_nat (length m)) = Val (splice r j m)) as ->.
  { unfold primitive_replace. destruct (Z.leb_spec (Z.of_nat (length m)) 0).
    - destruct m; [|cbn in *; lia]. by rewrite splice_nil.
    - destruct (Z.leb_spec 0 (Z.of_nat j)); [|lia]. destruct (Z.leb_spec (Z.of_nat j + Z.of_nat (length m)) (Z.of_nat (length r))); [|lia].
      destruct (Z.leb_spec 0 0); [|lia]. destruct (Z.leb_spec (0 + Z.of_nat (length m)) (Z.of_nat (length m))); [|lia]. cbn [andb].
      rewrite !Nat2Z.id. change (Z.to_nat 0) with O. rewrite drop_0, firstn_all. unfold splice. do 4 f_equal. lia. }
  cbn [obind]. replace (Z.of_nat j + Z.of_nat (length m)) with (Z.of_nat (j + length m)) by lia.
  rewrite (IH ms') by (done || (rewrite splice_length; lia)). by rewrite splice_splice by lia.
Qed.

Lemma of_kind_vec k v : of_kind k v = true -> exists l, v = CVec k l.
Proof. destruct v as [k' l| | | | |]; try done. cbn. intros ->%bool_decide_eq_true_1. by eexists. Qed.

Lemma of_kinds k vs : forallb (of_kind k) vs = true -> Forall is_vec vs.
Proof.
  rewrite forallb_forall. intros H. apply Forall_forall. intros v Hv. apply elem_of_list_In in Hv. by destruct (of_kind_vec k v (H v Hv)) as [l ->].
Qed.

Lemma kinds_storable k vs ms : forallb (of_kind k) vs = true -> Forall wf_coll vs -> Forall2 holds_list vs ms ->
  Forall (fun v => storable k v = true) (concat ms).
Proof.
  intros Hk Hw H. induction H as [|v m vs ms Hm Hms IH]; [constructor|]. cbn in Hk. apply andb_prop in Hk as [Hk1 Hk2].
  inversion Hw as [|? ? Hw1 Hw2]; subst. apply Forall_app. split; [|by apply IH]. destruct (of_kind_vec k v Hk1) as [l ->].
  assert (l = m) as <- by (by apply (holds_contents (CVec k l) m)). by apply storable_wf.
Qed.

Lemma first_element_some ms : non_empty ms <> O -> exists x, first_element ms = Some x /\ x ∈ concat ms.
Proof.
  intros H. unfold first_element. destruct (first_pos ms) as [p|] eqn:Ep; [|by apply first_pos_none in Ep].
  destruct (first_pos_some _ _ Ep) as (x & m & Hp & _). rewrite Hp. exists x. split; [done|]. eapply in_concat_lookup; [exact Hp|by left].
Qed.

Lemma vector_gives fuel k k0 l rest ms : let c := CVec k0 l in wf_coll c -> Forall wf_coll rest -> Forall2 holds_list rest ms ->
  (length l + length (concat ms) < fuel)%nat -> gives (TVec k) (concatenate_as_vector fuel k c rest) (l ++ concat ms).
Proof.
  intros c Hw Hws Hr Hf. assert (Hc : holds_list c l) by by apply (holds_editable c).
  unfold concatenate_as_vector. rewrite (len_holds c l) by done. cbn [obind]. rewrite (count_vectors_ok k rest ms) by done. cbn [obind].
  destruct (forallb (of_kind k) rest) eqn:Hk; [|by apply sequence_gives].
  pose proof (kinds_storable k rest ms Hk Hws Hr) as Hst. set (n0 := if _ =? 0 then 0 else 1).
  assert (Hn0 : n0 = if bool_decide (l = []) then 0 else 1) by (unfold n0; by destruct l).
  assert (Hnil : l = [] \/ l <> []) by (destruct l; [by left|by right]).
  destruct (Z.eqb_spec (n0 + Z.of_nat (non_empty ms)) 0) as [E0|E0].
  { destruct Hnil as [->|Hne]; [|rewrite bool_decide_false in Hn0 by done; lia]. rewrite bool_decide_true in Hn0 by done.
    rewrite (proj1 (non_empty_zero ms)) by lia. split; [intros HF; by apply editable_type|]. intros []. constructor. }
  destruct (Z.eqb_spec (n0 + Z.of_nat (non_empty ms)) 1) as [E1|E1].
  { destruct Hnil as [->|Hne].
    - rewrite bool_decide_true in Hn0 by done. cbn [length]. change (0 <? Z.of_nat 0) with false. cbn [app]. cbn iota.
      destruct (first_pos ms) as [p|] eqn:Ep; [|apply first_pos_none in Ep; lia]. destruct (first_non_empty_ok rest ms p Hr Ep) as (v & -> & Hv). cbn [obind].
      destruct (first_pos_some _ _ Ep) as (x & m & Hp & H1). rewrite H1 by lia. destruct (Forall2_lookup_l _ _ _ _ _ Hr Hv) as (m' & Hp' & Hh).
      assert (m' = x :: m) as -> by congruence. apply as_coll_gives; [done|done|]. pose proof (length_lookup_concat _ _ _ Hp). lia.
    - rewrite bool_decide_false in Hn0 by done. rewrite (proj1 (non_empty_zero ms)) by lia. rewrite app_nil_r.
      destruct (Z.ltb_spec 0 (Z.of_nat (length l))); [|destruct l; [done|cbn in *; lia]]. apply as_coll_gives; [done|done|lia]. }
  destruct (first_element_some ms) as (x & Hx & Hin). { destruct (bool_decide (l = [])); lia. }
  rewrite Hx. cbn [make_filled]. rewrite Forall_forall in Hst. rewrite (Hst x Hin). cbn [obind].
  destruct (copy_vectors_gives k (c :: rest) (l :: ms) (replicate (Z.to_nat (Z.of_nat (length l) + Z.of_nat (length (concat ms)))) x) 0) as [HV HS].
  - by constructor.
  - constructor; [done|by apply (of_kinds k)].
  - rewrite replicate_length. cbn [concat]. rewrite app_length. lia.
  - change (Z.of_nat 0) with 0 in HV, HS. cbn [concat] in *. split.
    + intros HF. rewrite HV by done. apply editable_type; [done|done| |done]. cbn [contents]. apply splice_all. rewrite replicate_length, app_length. lia.
    + intros HF. by apply HS.
Qed.

Lemma primitive_gives fuel k l rest ms : let c := CVec k l in wf_coll c -> Forall wf_coll rest -> Forall2 holds_list rest ms ->
  (length l + length (concat ms) < fuel)%nat -> gives (TVec k) (concatenate_as_primitive fuel k c rest) (l ++ concat ms).
Proof.
  intros c Hw Hws Hr Hf. assert (Hc : holds_list c l) by by apply (holds_editable c).
  unfold concatenate_as_primitive. rewrite (len_holds c l) by done. cbn [obind]. rewrite (count_vectors_ok k rest ms) by done. cbn [obind].
  destruct (forallb (of_kind k) rest) eqn:Hk; [|by apply vector_gives].
  assert (Hst : Forall (fun v => storable k v = true) (l ++ concat ms)).
  { apply Forall_app. split; [by apply storable_wf|]. by apply (kinds_storable k rest ms). }
  set (n0 := if _ =? 0 then 0 else 1).
  assert (Hn0 : n0 = if bool_decide (l = []) then 0 else 1) by (unfold n0; by destruct l).
  assert (Hnil : l = [] \/ l <> []) by (destruct l; [by left|by right]).
  split; [|done]. intros _.
  destruct (Z.eqb_spec (n0 + Z.of_nat (non_empty ms)) 0) as [E0|E0].
  { destruct Hnil as [->|Hne]; [|rewrite bool_decide_false in Hn0 by done; lia]. rewrite bool_decide_true in Hn0 by done.
    rewrite (proj1 (non_empty_zero ms)) by lia. apply editable_type; try done. constructor. }
  destruct (Z.eqb_spec (n0 + Z.of_nat (non_empty ms)) 1) as [E1|E1].
  { destruct Hnil as [->|Hne].
    - rewrite bool_decide_true in Hn0 by done. cbn [length]. change (0 <? Z.of_nat 0) with false. cbn [app]. cbn iota.
      destruct (first_pos ms) as [p|] eqn:Ep; [|apply first_pos_none in Ep; lia]. destruct (first_non_empty_ok rest ms p Hr Ep) as (v & -> & Hv).
      destruct (first_pos_some _ _ Ep) as (x & m & Hp & H1). rewrite H1 by lia. destruct (Forall2_lookup_l _ _ _ _ _ Hr Hv) as (m' & Hp' & Hh).
      assert (m' = x :: m) as -> by congruence.
      rewrite forallb_forall in Hk. destruct (of_kind_vec k v) as [lv ->]. { apply Hk. apply elem_of_list_In. by eapply elem_of_list_lookup_2. }
      apply editable_type; [done|done|exact (holds_contents (CVec k lv) (x :: m) I Hh)|]. cbn [app] in Hst. by rewrite H1 in Hst by lia.
    - rewrite bool_decide_false in Hn0 by done. rewrite (proj1 (non_empty_zero ms)) in * by lia. rewrite app_nil_r in *.
      destruct (Z.ltb_spec 0 (Z.of_nat (length l))); [|destruct l; [done|cbn in *; lia]]. by apply editable_type. }
  unfold make_sized. cbn [make_filled].
  assert (storable k (match k with VkString => VChr 32 | _ => VFalse end) = true) as -> by by destruct k. cbn [obind].
  set (r := replicate _ _). assert (Hr' : length r = (length l + length (concat ms))%nat) by (unfold r; rewrite replicate_length; lia).
  pose proof (replace_vectors_ok (c :: rest) (l :: ms) r 0) as Hrep. change (Z.of_nat 0) with 0 in Hrep. rewrite Hrep.
  - cbn [obind concat]. apply editable_type; [done|done| |done]. cbn [contents]. apply splice_all. rewrite app_length. lia.
  - by constructor.
  - constructor; [done|by apply (of_kinds k)].
  - cbn [concat]. rewrite app_length. lia.
Qed.

Lemma concatenate_as_gives fuel ty c m rest ms : sequence_type ty -> wf_coll c -> Forall wf_coll rest -> holds_list c m -> Forall2 holds_list rest ms ->
  (length m + length (concat ms) < fuel)%nat -> gives ty (concatenate_as fuel ty c rest) (m ++ concat ms).
Proof.
  intros Hty Hw Hws Hc Hr Hf.
  assert (Hv : forall k k0 l, c = CVec k0 l -> gives (TVec k) (concatenate_as_vector fuel k c rest) (m ++ concat ms)).
  { intros k k0 l ->. assert (l = m) as <- by (by apply (holds_contents (CVec k0 l) m)). by apply vector_gives. }
  assert (Hp : forall k l, c = CVec k l -> gives (TVec k) (concatenate_as_primitive fuel k c rest) (m ++ concat ms)).
  { intros k l ->. assert (l = m) as <- by (by apply (holds_contents (CVec k l) m)). by apply primitive_gives. }
  destruct ty as [k| | |]; try done; cbn [concatenate_as].
  - destruct k, c as [k0 l| | | | |]; try (by apply sequence_gives); try (by eapply Hv); destruct k0; try (by eapply Hv); by eapply Hp.
  - by apply sequence_gives.
  - rewrite (concatenate_list_ok fuel rest ms c m) by done. split; [intros HF; by apply editable_type|]. intros []. by apply Forall_true.
Qed.
