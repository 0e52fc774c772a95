(** Proofs about the stretchy vector model. *)
From Coq Require Import ZifyBool ZifyNat ZifyN.
From Verif Require Import Base DequeModel DequeSpec DequeProofs StretchyModel StretchySpec.
Local Open Scope Z_scope.
Local Open Scope outcome_scope.
Ltac Zify.zify_post_hook ::= Z.div_mod_to_equations.

Lemma pot_search_spec fuel p value :
  1 <= p -> value <= p + Z.of_nat fuel -> exists q, pot_search fuel p value = Val q /\ value <= q /\ 1 <= q.
Proof.
  revert p. induction fuel as [|fuel IH]; intros p Hp Hv; cbn [pot_search]; case_bool_decide.
  - eexists. split; [done|]. lia.
  - lia.
  - eexists. split; [done|]. lia.
  - apply IH; lia.
Qed.

Lemma power_of_two_ceiling_spec value :
  exists q, power_of_two_ceiling value = Val q /\ value <= q /\ 1 <= q.
Proof. unfold power_of_two_ceiling. apply pot_search_spec; lia. Qed.

Section loops.
Context {A : Type}.

Lemma siter_spec (l a b : list A) state limit n :
  state = Z.of_nat (length a) -> limit = Z.of_nat (length a + length l) -> (length l <= n)%nat ->
  siter (a ++ l ++ b) state limit n = Val (numbered state l).
Proof.
  revert a state n. induction l as [|x l IH]; intros a state n Hst Hlim Hn.
  - destruct n; cbn [siter]; rewrite bool_decide_true by (simpl in *; lia); done.
  - destruct n as [|n]; [simpl in Hn; lia|]. cbn [siter].
    rewrite bool_decide_false by (simpl in *; lia).
    cbn [app]. rewrite zread_mid by done. cbn [obind].
    rewrite (cons_middle x a), (assoc_L (++) a [x]).
    rewrite (IH (a ++ [x]) (state + 1) n).
    + done.
    + rewrite app_length. simpl. lia.
    + rewrite app_length. simpl in *. lia.
    + simpl in Hn. lia.
Qed.

Lemma numbered_app k (l1 l2 : list A) :
  numbered k (l1 ++ l2) = numbered k l1 ++ numbered (k + Z.of_nat (length l1)) l2.
Proof.
  revert k. induction l1 as [|x l1 IH]; intros k; cbn [numbered app length].
  - by rewrite Z.add_0_r.
  - rewrite IH. cbn [app]. do 3 f_equal. lia.
Qed.

Lemma siter_back_spec (l b : list A) n :
  (length l <= n)%nat ->
  siter_back (l ++ b) (Z.of_nat (length l) - 1) (-1) n = Val (reverse (numbered 0 l)).
Proof.
  revert b n. induction l as [|x l IH] using rev_ind; intros b n Hn.
  - destruct n; cbn [siter_back]; rewrite bool_decide_true by (simpl in *; lia); done.
  - rewrite app_length in *. cbn [length] in *.
    destruct n as [|n]; [lia|]. cbn [siter_back].
    rewrite bool_decide_false by lia.
    rewrite <- (assoc_L (++)). cbn [app]. rewrite zread_mid by lia. cbn [obind].
    replace (Z.of_nat (length l + 1) - 1 - 1) with (Z.of_nat (length l) - 1) by lia.
    rewrite (IH (x :: b) n) by lia. cbn [obind].
    rewrite numbered_app, reverse_app. cbn [numbered]. f_equal. cbn. do 2 f_equal. lia.
Qed.

End loops.

Section proofs.
Context {A : Type} (ff : A) (ok : A -> bool).

(** The slots are the elements followed by fill values. *)
Definition srepr (r : srep A) (l : list A) : Prop :=
  ssize r = Z.of_nat (length l) /\ exists k, sslots r = l ++ replicate k ff.

Lemma srepr_intro l k n s : n = Z.of_nat (length l) -> s = l ++ replicate k ff -> srepr (SRep n s) l.
Proof. intros -> ->. split; [done|]. exists k. done. Qed.

Lemma make_stretchy_spec cap size fill :
  0 <= size <= cap -> fill = ff \/ cap = size ->
  exists r, make_stretchy cap size fill = Val r /\ srepr r (replicate (Z.to_nat size) fill).
Proof.
  intros Hs Hf. unfold make_stretchy.
  rewrite !bool_decide_false by lia. case_bool_decide.
  - eexists. split; [done|]. apply (srepr_intro _ (Z.to_nat (cap - size))).
    + rewrite replicate_length. lia.
    + destruct Hf as [->| ->].
      * rewrite <- replicate_add. f_equal. lia.
      * rewrite Z.sub_diag. cbn [Z.to_nat replicate]. by rewrite app_nil_r.
  - eexists. split; [done|]. replace size with 0 by lia. apply (srepr_intro [] 0); done.
Qed.

Lemma strusted_size_setter_spec n r l :
  srepr r l -> 0 <= n ->
  exists r', strusted_size_setter ff n r = Val r' /\ srepr r' (resized ff (Z.to_nat n) l).
Proof.
  intros (Hs & k & Hk) Hn. unfold strusted_size_setter, resized, capacity. rewrite Hs, Hk.
  rewrite app_length, replicate_length.
  case_bool_decide as H1; [|case_bool_decide as H2].
  - destruct (power_of_two_ceiling_spec n) as (q & -> & Hq & _). cbn [obind].
    rewrite Nat2Z.id.
    replace (Z.to_nat q) with (length l + ((Z.to_nat n - length l) + (Z.to_nat q - Z.to_nat n)))%nat by lia.
    rewrite (replicate_add (length l)).
    pose proof (copy_loop_spec l (replicate (length l) ff) [] (replicate k ff) []
      (replicate ((Z.to_nat n - length l) + (Z.to_nat q - Z.to_nat n)) ff) 0 0) as Hc.
    cbn [app] in Hc. rewrite Hc by (rewrite ?replicate_length; done). cbn [obind].
    rewrite replicate_add.
    pose proof (fill_loop_spec ff (replicate (Z.to_nat n - length l) ff) l
       (replicate (Z.to_nat q - Z.to_nat n) ff) (Z.of_nat (length l)) eq_refl) as Hf.
    rewrite replicate_length in Hf.
    replace (Z.to_nat (n - Z.of_nat (length l))) with (Z.to_nat n - length l)%nat by lia.
    rewrite Hf. cbn [obind]. eexists. split; [done|].
    rewrite firstn_all2 by lia.
    apply (srepr_intro _ (Z.to_nat q - Z.to_nat n)).
    + rewrite app_length, replicate_length. lia.
    + by rewrite <- (assoc_L (++)).
  - pose proof (fill_loop_spec ff (drop (Z.to_nat n) l) (take (Z.to_nat n) l) (replicate k ff) n) as Hf.
    rewrite (assoc_L (++)), take_drop in Hf.
    replace (Z.to_nat (Z.of_nat (length l) - n)) with (length (drop (Z.to_nat n) l)) by (rewrite drop_length; lia).
    rewrite Hf by (rewrite take_length; lia). cbn [obind].
    eexists. split; [done|].
    apply (srepr_intro _ (length (drop (Z.to_nat n) l) + k)).
    + rewrite app_length, take_length, replicate_length. lia.
    + replace (Z.to_nat n - length l)%nat with O by lia. cbn [replicate].
      rewrite app_nil_r, replicate_add. done.
  - eexists. split; [done|]. rewrite firstn_all2 by lia.
    apply (srepr_intro _ (length l + k - Z.to_nat n)).
    + rewrite app_length, replicate_length. lia.
    + rewrite <- (assoc_L (++)), <- replicate_add. do 2 f_equal. lia.
Qed.

Definition srefines (o : sop A) : Prop :=
  forall r l, srepr r l -> exists r',
    sstep ff ok o r = Val (r', snd (sspec_step ff ok o l)) /\
    srepr r' (fst (sspec_step ff ok o l)).

Lemma swrite_spec r l1 y l2 x : srepr r (l1 ++ y :: l2) ->
  exists s, zwrite (sslots r) (Z.of_nat (length l1)) x = Val s /\
    srepr (SRep (ssize r) s) (l1 ++ x :: l2).
Proof.
  intros (Hs & k & Hk). rewrite Hk, <- (assoc_L (++)). cbn [app].
  rewrite zwrite_mid by done. eexists. split; [done|].
  apply (srepr_intro _ k).
  - rewrite Hs, !app_length. done.
  - by rewrite <- (assoc_L (++)).
Qed.

Lemma resized_end n (l : list A) : 0 <= n -> Z.of_nat (length l) <= n ->
  resized ff (Z.to_nat (n + 1)) l = (l ++ replicate (Z.to_nat n - length l) ff) ++ [ff].
Proof.
  intros H0 Hn. unfold resized. rewrite firstn_all2 by lia.
  replace (Z.to_nat (n + 1) - length l)%nat with ((Z.to_nat n - length l) + 1)%nat by lia.
  by rewrite replicate_add, (assoc_L (++)).
Qed.

Lemma add_refines x : ok x = true -> srefines (SAdd x).
Proof.
  intros Ho r l Hr. cbn [sstep sspec_step]. unfold add_bang. rewrite Ho.
  pose proof Hr as (Hs & k & Hk).
  destruct (strusted_size_setter_spec (ssize r + 1) r l Hr) as (r' & -> & Hr'); [lia|].
  cbn [obind]. rewrite Hs in Hr'. rewrite resized_end in Hr' by lia.
  replace (Z.to_nat (Z.of_nat (length l)) - length l)%nat with O in Hr' by lia.
  cbn [replicate] in Hr'. rewrite app_nil_r in Hr'.
  destruct (swrite_spec r' l ff [] x Hr') as (s & Hw & Hr2). rewrite Hs, Hw. cbn [obind fst snd].
  eauto.
Qed.

Lemma selement_refines i d : srefines (SElement i d).
Proof.
  intros r l Hr. pose proof Hr as (Hs & k & Hk). cbn [sstep]. unfold selement. cbn [sspec_step].
  rewrite Hs. case_bool_decide as Hi.
  - destruct (lookup_split l i Hi) as (l1 & x & l2 & -> & ->).
    rewrite Hk, <- (assoc_L (++)). cbn [app].
    rewrite zread_mid by done. cbn [obind].
    rewrite Nat2Z.id, list_lookup_middle by done. cbn [fst snd]. eauto.
  - destruct d as [x|]; [destruct (ok x)|]; cbn [fst snd]; eauto.
Qed.

Lemma ssize_setter_refines n : ok ff = true -> srefines (SSetSize n).
Proof.
  intros Ho r l Hr. cbn [sstep sspec_step]. unfold ssize_setter. rewrite Ho, andb_false_r.
  case_bool_decide; [cbn [fst snd]; eauto|].
  destruct (strusted_size_setter_spec n r l Hr) as (r' & -> & Hr'); [lia|].
  cbn [obind fst snd]. eauto.
Qed.

Lemma sset_element_refines i x : ok ff = true -> srefines (SSetElement i x).
Proof.
  intros Hff r l Hr. pose proof Hr as (Hs & _). cbn [sstep sspec_step]. unfold selement_setter.
  destruct (ok x) eqn:Ho; cbn [negb]; [|cbn [fst snd]; eauto].
  case_bool_decide as Hi; [cbn [fst snd]; eauto|]. rewrite Hs.
  destruct (decide (i < Z.of_nat (length l))) as [Hn|Hn].
  { rewrite (bool_decide_true (i < _)) by done. rewrite (bool_decide_false (i >= _)) by lia.
    cbn [obind]. destruct (lookup_split l i) as (l1 & y & l2 & -> & ->); [lia|].
    destruct (swrite_spec r l1 y l2 x Hr) as (s & -> & Hr2). cbn [obind fst snd].
    eexists. split; [done|].
    rewrite Nat2Z.id, insert_app_r_alt, Nat.sub_diag by lia. done. }
  rewrite (bool_decide_false (i < _)) by done. rewrite (bool_decide_true (i >= _)) by lia.
  rewrite Hff.
  assert (exists r', (if bool_decide (i = Z.of_nat (length l)) then
             do r1 <- strusted_size_setter ff (i + 1) r; Val (r1, RUnit)
           else ssize_setter ff (i + 1) r)
       = Val (r', if bool_decide (i = Z.of_nat (length l)) then RUnit else RInt (i + 1)) /\
     srepr r' ((l ++ replicate (Z.to_nat i - length l) ff) ++ [ff])) as (r' & -> & Hr').
  { destruct (strusted_size_setter_spec (i + 1) r l Hr) as (r' & He & Hr'); [lia|].
    rewrite resized_end in Hr' by lia. exists r'. split; [|done].
    unfold ssize_setter. rewrite He. cbn [obind]. rewrite (bool_decide_false (i + 1 < 0)) by lia.
    by case_bool_decide. }
  cbn [obind].
  destruct (swrite_spec r' _ ff [] x Hr') as (s & Hw & Hr2).
  rewrite app_length, replicate_length in Hw.
  replace (Z.of_nat (length l + (Z.to_nat i - length l))) with i in Hw by lia.
  case_bool_decide as Heq; rewrite Hw; cbn [obind fst snd]; eexists; (split; [done|]).
  - replace (Z.to_nat i - length l)%nat with O in Hr2 by lia. cbn [replicate] in Hr2.
    rewrite app_nil_r in Hr2. done.
  - rewrite (assoc_L (++)). done.
Qed.

Lemma sremove_refines p c : srefines (SRemove p c).
Proof.
  intros r l (Hs & k & Hk). cbn [sstep]. unfold sremove_bang.
  set (count := match c with Some c0 => c0 | None => ssize r end).
  assert (sspec_step ff ok (SRemove p c) l = (remove_first p (Z.to_nat count) l, RUnit)) as ->.
  { unfold count. destruct c; [done|]. cbn [sspec_step]. f_equal. symmetry.
    apply remove_first_all. lia. }
  destruct (grovel_spec p l [] [] (replicate k ff) count 0 0) as (g' & Hg & He); [done|done|].
  cbn [app] in He, Hg. rewrite Hk, Hs, Nat2Z.id, He. cbn [obind].
  set (l' := remove_first p (Z.to_nat count) l) in *.
  rewrite app_length in Hg.
  replace (Z.to_nat (Z.of_nat (length l) - (0 + Z.of_nat (length l')))) with (length g') by lia.
  rewrite fill_loop_spec by lia. cbn [obind fst snd].
  eexists. split; [done|].
  apply (srepr_intro _ (length g' + k)); [lia|]. by rewrite replicate_add.
Qed.




Lemma sstep_refines o : ok ff = true -> adds_well_typed ok o -> srefines o.
Proof.
  intros Hff Ho. destruct o; eauto using add_refines, selement_refines, ssize_setter_refines,
    sset_element_refines, sremove_refines.
  - intros r l Hr. pose proof Hr as (Hs & _). cbn [sstep sspec_step fst snd]. rewrite Hs. eauto.
  - intros r l Hr. pose proof Hr as (Hs & _). cbn [sstep sspec_step fst snd]. exists r. split; [|done].
    do 3 f_equal. apply bool_decide_ext. rewrite Hs. split.
    + intros H. apply nil_length_inv. lia.
    + intros ->. done.
  - intros r l Hr. pose proof Hr as (Hs & k & Hk). cbn [sstep sspec_step fst snd]. unfold siterate.
    pose proof (siter_spec l [] (replicate k ff) 0 (ssize r) (length (sslots r))) as Hi.
    cbn [app] in Hi. rewrite Hk in *. rewrite Hi; [cbn [obind]; eauto|done|simpl; lia|].
    rewrite app_length. lia.
  - intros r l Hr. pose proof Hr as (Hs & k & Hk). cbn [sstep sspec_step fst snd]. unfold siterate_back.
    rewrite Hk, Hs. rewrite siter_back_spec by (rewrite app_length; lia). cbn [obind]. eauto.
Qed.

Lemma srun_refines ops : ok ff = true -> Forall (adds_well_typed ok) ops ->
  forall r l, srepr r l -> exists r',
  srun ff ok ops r = Val (r', snd (sspec_run ff ok ops l)) /\
  srepr r' (fst (sspec_run ff ok ops l)).
Proof.
  intros Hff. induction ops as [|o ops IH]; intros Ht r l Hr; cbn [srun sspec_run].
  - eauto.
  - apply Forall_cons in Ht as [Ho Hops].
    destruct (sstep_refines o Hff Ho r l Hr) as (r1 & -> & Hr1).
    destruct (sspec_step ff ok o l) as [l1 e1]. cbn [obind fst snd] in *.
    destruct (IH Hops r1 l1 Hr1) as (r2 & -> & Hr2).
    destruct (sspec_run ff ok ops l1) as [l2 e2]. cbn [obind fst snd] in *. eauto.
Qed.

Lemma srun_from_make_refines cap size fill ops :
  ok ff = true -> Forall (adds_well_typed ok) ops ->
  0 <= size <= cap -> fill = ff \/ cap = size ->
  exists r, srun_from_make ff ok cap size fill ops
    = Val (r, snd (sspec_run ff ok ops (replicate (Z.to_nat size) fill))) /\
    0 <= ssize r <= capacity r.
Proof.
  intros Hff Ht Hs Hf. unfold srun_from_make.
  destruct (make_stretchy_spec cap size fill Hs Hf) as (r & -> & Hr). cbn [obind].
  destruct (srun_refines ops Hff Ht r _ Hr) as (r' & -> & Hl & k & Hk).
  eexists. split; [done|]. rewrite Hl. unfold capacity. rewrite Hk, app_length. lia.
Qed.

End proofs.

Lemma srun_object_refines {A} (ff : A) cap size fill ops :
  0 <= size <= cap -> fill = ff \/ cap = size ->
  exists r, srun_from_make ff (fun _ => true) cap size fill ops
    = Val (r, snd (sspec_run ff (fun _ => true) ops (replicate (Z.to_nat size) fill))) /\
    0 <= ssize r <= capacity r.
Proof.
  intros. apply srun_from_make_refines; try done.
  apply Forall_forall. intros [] _; done.
Qed.
