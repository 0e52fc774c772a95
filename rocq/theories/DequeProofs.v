(** Proofs about the deque model. *)
From Coq Require Import ZifyBool ZifyNat ZifyN.
From Verif Require Import Base DequeModel DequeSpec.
Local Open Scope Z_scope.
Local Open Scope outcome_scope.
Ltac Zify.zify_post_hook ::= Z.div_mod_to_equations.

Lemma zread_mid {A} (a b : list A) x i :
  i = Z.of_nat (length a) -> zread (a ++ x :: b) i = Val x.
Proof.
  intros ->. apply zread_val; [lia|]. rewrite Nat2Z.id. by rewrite list_lookup_middle.
Qed.

Lemma zwrite_mid {A} (a b : list A) y x i :
  i = Z.of_nat (length a) -> zwrite (a ++ y :: b) i x = Val (a ++ x :: b).
Proof.
  intros ->. rewrite zwrite_val.
  - rewrite Nat2Z.id. f_equal. by rewrite insert_app_r_alt, Nat.sub_diag by lia.
  - rewrite app_length. simpl. lia.
Qed.

Section loops.
Context {A : Type}.

Lemma fill_loop_spec x (m a b : list A) i :
  i = Z.of_nat (length a) ->
  fill_loop (a ++ m ++ b) i x (length m) = Val (a ++ replicate (length m) x ++ b).
Proof.
  revert a i. induction m as [|y m IH]; intros a i Hi; [done|].
  cbn [length fill_loop]. cbn [app]. rewrite (zwrite_mid _ _ y) by done.
  cbn [obind]. rewrite (cons_middle x a), (assoc_L (++) a [x]), (IH (a ++ [x])) by (rewrite app_length; simpl; lia).
  by rewrite <- (assoc_L (++)).
Qed.

Lemma copy_loop_spec (m m' a b c d : list A) si di :
  length m' = length m ->
  si = Z.of_nat (length a) -> di = Z.of_nat (length c) ->
  copy_loop (a ++ m ++ b) (c ++ m' ++ d) si di (length m) = Val (c ++ m ++ d).
Proof.
  revert m' a c si di. induction m as [|y m IH]; intros [|y' m'] a c si di Hl Hs Hd; try done.
  cbn [length copy_loop app]. rewrite zread_mid by done. cbn [obind].
  rewrite zwrite_mid by done. cbn [obind].
  rewrite (cons_middle y a), (assoc_L (++) a [y]).
  rewrite (cons_middle y c), (assoc_L (++) c [y]).
  rewrite (IH m' (a ++ [y]) (c ++ [y])).
  - by rewrite <- (assoc_L (++)).
  - simpl in Hl. lia.
  - rewrite app_length. simpl. lia.
  - rewrite app_length. simpl. lia.
Qed.

Lemma move_up_spec (m a g b : list A) si di :
  si = Z.of_nat (length a + length g) -> di = Z.of_nat (length a) ->
  exists g2, length g2 = length g /\
  move_up_loop (a ++ g ++ m ++ b) si di (length m) = Val (a ++ m ++ g2 ++ b).
Proof.
  revert a g si di. induction m as [|x m IH]; intros a g si di Hs Hd.
  - exists g. done.
  - cbn [length move_up_loop app].
    rewrite (assoc_L (++) a g), zread_mid by (rewrite app_length; lia). cbn [obind].
    destruct g as [|y g].
    + rewrite app_nil_r. rewrite zwrite_mid by done. cbn [obind].
      rewrite (cons_middle x a), (assoc_L (++) a [x]).
      destruct (IH (a ++ [x]) [] (si + 1) (di + 1)) as (g2 & Hg & He).
      * rewrite app_length; simpl in *; lia.
      * rewrite app_length; simpl in *; lia.
      * exists g2. split; [done|]. cbn [app] in He. rewrite He. by rewrite <- (assoc_L (++)).
    + rewrite <- (assoc_L (++)). cbn [app]. rewrite zwrite_mid by done. cbn [obind].
      rewrite (cons_middle x g), (assoc_L (++) g [x]).
      rewrite (cons_middle x a), (assoc_L (++) a [x]).
      destruct (IH (a ++ [x]) (g ++ [x]) (si + 1) (di + 1)) as (g2 & Hg & He).
      * rewrite !app_length; simpl in *; lia.
      * rewrite app_length; simpl in *; lia.
      * exists g2. rewrite Hg, app_length. split; [simpl; lia|]. rewrite He.
        by rewrite <- (assoc_L (++)).
Qed.

Lemma move_down_spec (m a g b : list A) si di :
  si = Z.of_nat (length a + length m) - 1 ->
  di = Z.of_nat (length a + length m + length g) - 1 ->
  exists g2, length g2 = length g /\
  move_down_loop (a ++ m ++ g ++ b) si di (length m) = Val (a ++ g2 ++ m ++ b).
Proof.
  revert g b si di. induction m as [|x m IH] using rev_ind; intros g b si di Hs Hd.
  - exists g. done.
  - rewrite app_length, Nat.add_comm. cbn [length Nat.add move_down_loop].
    rewrite <- (assoc_L (++) m [x]). cbn [app].
    rewrite (assoc_L (++) a m).
    rewrite zread_mid by (rewrite !app_length in *; simpl in *; lia). cbn [obind].
    destruct g as [|y g _] using rev_ind.
    + cbn [app]. rewrite zwrite_mid by (rewrite !app_length in *; simpl in *; lia). cbn [obind].
      destruct (IH [] (x :: b) (si - 1) (di - 1)) as (g2 & Hg & He).
      * rewrite !app_length in *; simpl in *; lia.
      * rewrite !app_length in *; simpl in *; lia.
      * exists g2. split; [done|]. cbn [app] in He. rewrite <- (assoc_L (++)), He.
        by rewrite <- (assoc_L (++) m).
    + rewrite <- (assoc_L (++) g [y]). cbn [app].
      rewrite (cons_middle x), (assoc_L (++) [x]), (assoc_L (++) (a ++ m)).
      rewrite zwrite_mid by (rewrite !app_length in *; simpl in *; lia). cbn [obind].
      destruct (IH ([x] ++ g) (x :: b) (si - 1) (di - 1)) as (g2 & Hg & He).
      * rewrite !app_length in *; simpl in *; lia.
      * rewrite !app_length in *; simpl in *; lia.
      * exists g2. rewrite Hg, !app_length. split; [simpl; lia|].
        rewrite <- (assoc_L (++) a m) in *. rewrite <- (assoc_L (++)). rewrite <- (assoc_L (++) m).
        rewrite He. by rewrite <- (assoc_L (++) m).
Qed.

Lemma lookup_split (l : list A) i :
  0 <= i < Z.of_nat (length l) ->
  exists l1 x l2, l = l1 ++ x :: l2 /\ i = Z.of_nat (length l1).
Proof.
  intros Hi. destruct (lookup_lt_is_Some_2 l (Z.to_nat i)) as [x Hx]; [lia|].
  apply elem_of_list_split_length in Hx as (l1 & l2 & -> & Hl).
  exists l1, x, l2. split; [done|]. lia.
Qed.

Lemma remove_first_all p (l : list A) c : (length l <= c)%nat -> remove_first p c l = remove_all p l.
Proof.
  revert c. induction l as [|x l IH]; intros c Hc; [done|].
  cbn [length] in Hc. destruct c as [|c]; [lia|]. cbn [remove_first]. unfold remove_all in *.
  cbn [List.filter]. destruct (p x); cbn [negb].
  - apply IH. lia.
  - f_equal. apply IH. lia.
Qed.

Lemma remove_first_0 p (l : list A) : remove_first p 0 l = l.
Proof. by destruct l. Qed.

Lemma grovel_spec p (m k g b : list A) count src dst :
  dst = Z.of_nat (length k) -> src = Z.of_nat (length k + length g) ->
  exists g', length (remove_first p (Z.to_nat count) m ++ g') = length (g ++ m) /\
  grovel p (k ++ g ++ m ++ b) count src dst (length m) =
    Val (k ++ remove_first p (Z.to_nat count) m ++ g' ++ b,
         dst + Z.of_nat (length (remove_first p (Z.to_nat count) m))).
Proof.
  revert k g count src dst. induction m as [|x m IH]; intros k g count src dst Hd Hs.
  - exists g. cbn [length grovel remove_first app]. rewrite app_nil_r. split; [done|].
    by rewrite Z.add_0_r.
  - cbn [length grovel].
    cbn [app]. rewrite (assoc_L (++) k g), zread_mid by (rewrite app_length; lia). cbn [obind].
    destruct (bool_decide (count > 0) && p x) eqn:Hc.
    + apply andb_true_iff in Hc as [Hc Hp]. rewrite bool_decide_eq_true in Hc.
      replace (Z.to_nat count) with (S (Z.to_nat (count - 1))) by lia.
      cbn [remove_first]. rewrite Hp.
      destruct (IH k (g ++ [x]) (count - 1) (src + 1) dst) as (g' & Hg' & He).
      * done.
      * rewrite app_length. simpl. lia.
      * exists g'. rewrite <- (assoc_L (++) k).
        rewrite <- (assoc_L (++) g) in He. cbn [app] in He. rewrite He. split; [|done].
        rewrite Hg', !app_length. simpl. lia.
    + assert (remove_first p (Z.to_nat count) (x :: m) = x :: remove_first p (Z.to_nat count) m) as ->.
      { destruct (Z.to_nat count) eqn:E; cbn [remove_first].
        - by rewrite remove_first_0.
        - destruct (p x); [|done]. rewrite bool_decide_true in Hc by lia. done. }
      rewrite <- (assoc_L (++) k).
      destruct g as [|y g].
      * cbn [app]. rewrite zwrite_mid by done. cbn [obind].
        rewrite (cons_middle x k), (assoc_L (++) k).
        destruct (IH (k ++ [x]) [] count (src + 1) (dst + 1)) as (g' & Hg' & He).
        -- rewrite app_length. simpl. lia.
        -- rewrite app_length. simpl in *. lia.
        -- exists g'. cbn [app] in He. rewrite He. split.
           ++ cbn [app] in *; rewrite ?app_length in *; cbn [length] in *; rewrite ?app_length in *; cbn [length] in *. lia.
           ++ rewrite <- (assoc_L (++)). cbn [length]. f_equal. f_equal. lia.
      * cbn [app]. rewrite zwrite_mid by done. cbn [obind].
        rewrite (cons_middle x k), (assoc_L (++) k).
        destruct (IH (k ++ [x]) (g ++ [x]) count (src + 1) (dst + 1)) as (g' & Hg' & He).
        -- rewrite app_length. simpl. lia.
        -- rewrite !app_length. simpl in *. lia.
        -- exists g'. rewrite <- (assoc_L (++) g) in He. cbn [app] in He. rewrite He. split.
           ++ cbn [app] in *; rewrite ?app_length in *; cbn [length] in *; rewrite ?app_length in *; cbn [length] in *. rewrite ?app_length in *. simpl in *. lia.
           ++ rewrite <- (assoc_L (++)). cbn [length]. f_equal. f_equal. lia.
Qed.

Lemma swap_loop_spec n (a l b : list A) i j :
  (length l = 2 * n \/ length l = 2 * n + 1)%nat ->
  i = Z.of_nat (length a) -> j = Z.of_nat (length a + length l) - 1 ->
  swap_loop (a ++ l ++ b) i j n = Val (a ++ reverse l ++ b).
Proof.
  revert a l b i j. induction n as [|n IH]; intros a l b i j Hl Hi Hj.
  - cbn [swap_loop]. destruct l as [|x [|y l]]; try done. simpl in Hl. lia.
  - destruct l as [|x l]; [simpl in Hl; lia|].
    destruct l as [|y l _] using rev_ind; [simpl in Hl; lia|].
    cbn [swap_loop app length] in *. rewrite app_length in *. cbn [length] in *.
    rewrite zread_mid by done. cbn [obind].
    rewrite (cons_middle x a), (assoc_L (++) a [x]), <- (assoc_L (++) l [y]), (assoc_L (++) (a ++ [x])).
    cbn [app]. rewrite zread_mid by (rewrite !app_length; simpl; lia). cbn [obind].
    rewrite <- !(assoc_L (++)). cbn [app].
    rewrite zwrite_mid by done. cbn [obind].
    rewrite (cons_middle y a), (assoc_L (++) a [y]), (assoc_L (++) (a ++ [y])).
    rewrite zwrite_mid by (rewrite !app_length; simpl; lia). cbn [obind].
    rewrite <- !(assoc_L (++) (a ++ [y])).
    rewrite IH.
    + rewrite reverse_cons, reverse_app. rewrite <- !(assoc_L (++)). done.
    + lia.
    + rewrite app_length. simpl. lia.
    + rewrite app_length. simpl. lia.
Qed.

Lemma forward_iter_spec r (l a b : list A) state limit n :
  rslots r = a ++ l ++ b ->
  state = Z.of_nat (length a) -> limit = Z.of_nat (length a + length l) -> (length l <= n)%nat ->
  forward_iter r state limit n = Val (numbered (state - rfirst r) l).
Proof.
  revert a state n. induction l as [|x l IH]; intros a state n Hs Hst Hlim Hn.
  - destruct n; cbn [forward_iter]; rewrite bool_decide_true by (simpl in *; lia); done.
  - destruct n as [|n]; [simpl in Hn; lia|]. cbn [forward_iter].
    rewrite bool_decide_false by (simpl in *; lia).
    rewrite Hs. cbn [app]. rewrite zread_mid by done. cbn [obind].
    rewrite (IH (a ++ [x]) (state + 1) n).
    + cbn [obind numbered]. do 3 f_equal. lia.
    + rewrite Hs, <- (assoc_L (++)). done.
    + rewrite app_length. simpl. lia.
    + rewrite app_length. simpl in *. lia.
    + simpl in Hn. lia.
Qed.

Lemma as_list_loop_spec r (l a b acc : list A) index :
  rslots r = a ++ l ++ b -> index = Z.of_nat (length a + length l) - 1 ->
  as_list_loop r index acc (length l) = Val (l ++ acc).
Proof.
  revert b acc index. induction l as [|x l IH] using rev_ind; intros b acc index Hs Hi; [done|].
  rewrite app_length in *. cbn [length] in *. rewrite Nat.add_1_r. cbn [as_list_loop].
  rewrite Hs. rewrite <- (assoc_L (++) l [x]), (assoc_L (++) a). cbn [app].
  rewrite zread_mid by (rewrite app_length; lia). cbn [obind].
  rewrite (IH (x :: b)).
  - rewrite <- (assoc_L (++)). done.
  - rewrite Hs. rewrite <- (assoc_L (++) l). done.
  - lia.
Qed.

End loops.

Section proofs.
Context {A : Type} (ff : A) (ok : A -> bool).





(** The representation relation: the slots are [a ++ l ++ b] with the elements [l] at
    first-index. *)
Definition repr (r : rep A) (l : list A) : Prop :=
  exists a b, rslots r = a ++ l ++ b /\
    rfirst r = Z.of_nat (length a) /\
    rlast r = Z.of_nat (length a + length l) - 1 /\
    (4 <= length (a ++ l ++ b))%nat.

Lemma repr_intro a l b f la :
  f = Z.of_nat (length a) -> la = Z.of_nat (length a + length l) - 1 ->
  (4 <= length a + length l + length b)%nat ->
  repr (Rep f la (a ++ l ++ b)) l.
Proof.
  intros -> -> H. exists a, b. split_and!; try done. rewrite !app_length. lia.
Qed.

Lemma make_deque_spec n fill :
  0 <= n -> exists r, make_deque ff n fill = Val r /\ repr r (spec_make ff n fill).
Proof.
  intros Hn. unfold make_deque, spec_make, min_data_size. rewrite bool_decide_false by lia.
  assert (exists d, Z.max (n * 2) 4 = Z.of_nat d) as [d Hd] by (exists (Z.to_nat (Z.max (n * 2) 4)); lia).
  rewrite Hd. cbv zeta. rewrite Nat2Z.id.
  assert (Z.quot (Z.of_nat d) 2 = Z.of_nat (d / 2)) as ->.
  { rewrite Z.quot_div_nonneg by lia. lia. }
  assert (exists k, n = Z.of_nat k) as [k ->] by (exists (Z.to_nat n); lia).
  rewrite Nat2Z.id.
  assert (upto (Z.of_nat (d / 2)) (Z.of_nat (d / 2) + Z.of_nat k - 1) = k) as -> by (unfold upto; lia).
  assert (replicate d ff = replicate (d / 2) ff ++ replicate k ff ++ replicate (d - d / 2 - k) ff) as ->.
  { rewrite <- !replicate_add. f_equal. lia. }
  assert (forall x, fill_loop (replicate (d / 2) ff ++ replicate k ff ++ replicate (d - d / 2 - k) ff)
     (Z.of_nat (d / 2)) x k = Val (replicate (d / 2) ff ++ replicate k x ++ replicate (d - d / 2 - k) ff)) as Hf.
  { intros x. pose proof (fill_loop_spec x (replicate k ff) (replicate (d / 2) ff)
      (replicate (d - d / 2 - k) ff) (Z.of_nat (d / 2))) as H.
    rewrite !replicate_length in H. by apply H. }
  destruct fill as [x|]; cbn [default]; [rewrite Hf|]; cbn [obind];
    eexists; (split; [reflexivity|]); apply repr_intro;
    rewrite !replicate_length; lia.
Qed.

Lemma grow_spec a l b f la :
  f = Z.of_nat (length a) -> la = Z.of_nat (length a + length l) - 1 ->
  (4 <= length l)%nat ->
  exists a' b', grow ff (Rep f la (a ++ l ++ b))
     = Val (Rep (Z.of_nat (length a')) (Z.of_nat (length a' + length l) - 1) (a' ++ l ++ b'))
  /\ (0 < length a')%nat /\ (0 < length b')%nat.
Proof.
  intros Hf Hl H4. unfold grow. cbn [rfirst rlast rslots].
  assert (la - f + 1 = Z.of_nat (length l)) as -> by lia.
  assert (upto f la = length l) as -> by (unfold upto; lia).
  assert (Z.quot (Z.of_nat (length l)) 2 = Z.of_nat (length l / 2)) as ->.
  { rewrite Z.quot_div_nonneg by lia. lia. }
  assert (Z.to_nat (Z.of_nat (length l) * 2) = length l / 2 + (length l + (length l - length l / 2)))%nat as -> by lia.
  rewrite !replicate_add.
  rewrite copy_loop_spec by (rewrite ?replicate_length; lia). cbn [obind].
  exists (replicate (length l / 2) ff), (replicate (length l - length l / 2) ff).
  rewrite !replicate_length. split_and!; try lia. f_equal. f_equal; lia.
Qed.

(** After make-room the elements are unchanged and there is a free slot on that side. *)
Lemma make_room_at_first_spec r l :
  repr r l -> rfirst r = 0 ->
  exists r', make_room_at_first ff r = Val r' /\ repr r' l /\ rfirst r' <> 0.
Proof.
  intros (a & b & Hs & Hf & Hl & H4) H0.
  destruct a as [|? ?]; [|simpl in *; lia]. destruct r as [f la s]. cbn [rfirst rlast rslots] in *. subst s.
  unfold make_room_at_first, rep_size, deque_size. cbn [rfirst rlast rslots].
  assert (exists a' b', (if bool_decide (Z.of_nat (length ([] ++ l ++ b)) = la - f + 1)
     then grow ff (Rep f la ([] ++ l ++ b)) else Val (Rep f la ([] ++ l ++ b)))
    = Val (Rep (Z.of_nat (length a')) (Z.of_nat (length a' + length l) - 1) (a' ++ l ++ b'))
    /\ (0 < length b')%nat /\ (4 <= length (a' ++ l ++ b'))%nat) as (a' & b' & -> & Hb' & H4').
  { case_bool_decide as Hc.
    - destruct (grow_spec [] l b f la) as (a' & b' & He & ? & ?).
      + done.
      + simpl in *. lia.
      + rewrite !app_length in *. simpl in *. lia.
      + exists a', b'. rewrite He, !app_length. simpl in *. rewrite !app_length in *. split_and!; try done; lia.
    - exists [], b. split_and!; try done.
      + rewrite Hf, Hl. done.
      + rewrite !app_length in *. simpl in *. lia. }
  cbn [obind rfirst rlast rslots]. rewrite bool_decide_false.
  2:{ rewrite !app_length. lia. }
  rewrite !app_length.
  destruct (move_down_spec l a' b' [] (Z.of_nat (length a' + length l) - 1)
     (Z.of_nat (length a' + length l + length b') - 1)) as (g2 & Hg2 & Hm); [lia|lia|].
  rewrite !app_nil_r in Hm.
  match goal with |- context [move_down_loop _ ?x ?y ?n] =>
    replace n with (length l) by (unfold upto; lia);
    replace x with (Z.of_nat (length a' + length l) - 1) by lia;
    replace y with (Z.of_nat (length a' + length l + length b') - 1) by lia end.
  rewrite Hm. cbn [obind]. eexists. split; [reflexivity|].
  rewrite <- (app_nil_r (a' ++ g2 ++ l)), <- !(assoc_L (++)), (assoc_L (++) a').
  split; [apply repr_intro|cbn [rfirst]]; rewrite ?app_length in *; simpl; lia.
Qed.

Lemma make_room_at_last_spec r l :
  repr r l -> rlast r = rep_size r - 1 ->
  exists r', make_room_at_last ff r = Val r' /\ repr r' l /\ rlast r' <> rep_size r' - 1.
Proof.
  intros (a & b & Hs & Hf & Hl & H4) H0.
  destruct r as [f la s]. unfold rep_size in *. cbn [rfirst rlast rslots] in *. subst s.
  destruct b as [|? ?]; [|rewrite !app_length in *; simpl in *; lia].
  unfold make_room_at_last, rep_size, deque_size. cbn [rfirst rlast rslots].
  assert (exists a' b', (if bool_decide (Z.of_nat (length (a ++ l ++ [])) = la - f + 1)
     then grow ff (Rep f la (a ++ l ++ [])) else Val (Rep f la (a ++ l ++ [])))
    = Val (Rep (Z.of_nat (length a')) (Z.of_nat (length a' + length l) - 1) (a' ++ l ++ b'))
    /\ (0 < length a')%nat /\ (4 <= length (a' ++ l ++ b'))%nat) as (a' & b' & -> & Ha' & H4').
  { case_bool_decide as Hc.
    - destruct (grow_spec a l [] f la) as (a' & b' & He & ? & ?).
      + done.
      + done.
      + rewrite !app_length in *. simpl in *. lia.
      + exists a', b'. rewrite He, !app_length. rewrite !app_length in *. split_and!; try done; lia.
    - exists a, []. split_and!; try done.
      + rewrite Hf, Hl. done.
      + rewrite !app_length in *. simpl in *. lia. }
  cbn [obind rfirst rlast rslots]. rewrite bool_decide_false by lia.
  destruct (move_up_spec l [] a' b' (Z.of_nat (length a')) 0) as (g2 & Hg2 & Hm); [done|done|].
  cbn [app] in Hm.
  match goal with |- context [move_up_loop _ _ _ ?n] =>
    replace n with (length l) by (unfold upto; lia) end.
  rewrite Hm. cbn [obind]. eexists. split; [reflexivity|].
  split; [apply (repr_intro [] l (g2 ++ b'))|cbn [rlast rslots]]; rewrite ?app_length in *; simpl; lia.
Qed.

Lemma push_spec r l x :
  repr r l -> exists r' e, push ff ok r x = Val (r', e) /\
    (fst (spec_step ff ok (Push x) l), e) = spec_step ff ok (Push x) l /\
    repr r' (fst (spec_step ff ok (Push x) l)).
Proof.
  intros Hr. unfold push. cbn [spec_step]. destruct (ok x) eqn:Ho.
  2:{ eexists _, _. split_and!; [reflexivity| |]; done. }
  assert (exists r', push_loop ff 2 r = Val r' /\ repr r' l /\ rfirst r' <> 0) as (r' & -> & Hr' & H0).
  { cbn [push_loop]. case_bool_decide as H.
    - destruct (make_room_at_first_spec r l) as (r' & -> & Hr' & Hn); [done..|].
      cbn [obind]. rewrite bool_decide_false by done. eauto.
    - eauto. }
  cbn [obind].
  destruct Hr' as (a & b & Hs & Hf & Hl & H4). rewrite Hs.
  destruct a as [|y a _] using rev_ind; [simpl in *; lia|].
  rewrite <- (assoc_L (++)). cbn [app].
  rewrite zwrite_mid by (rewrite app_length in *; simpl in *; lia). cbn [obind].
  eexists _, _. split; [reflexivity|]. split; [done|]. cbn [fst].
  rewrite app_comm_cons. apply repr_intro; rewrite !app_length in *; simpl in *; lia.
Qed.

Lemma trusted_push_last_spec r l x :
  repr r l -> exists r', trusted_push_last ff r x = Val r' /\ repr r' (l ++ [x]).
Proof.
  intros Hr. unfold trusted_push_last.
  assert (exists r', push_last_loop ff 2 r = Val r' /\ repr r' l /\ rlast r' <> rep_size r' - 1) as (r' & -> & Hr' & H0).
  { cbn [push_last_loop]. case_bool_decide as H.
    - destruct (make_room_at_last_spec r l) as (r' & -> & Hr' & Hn); [done..|].
      cbn [obind]. rewrite bool_decide_false by done. eauto.
    - eauto. }
  cbn [obind].
  destruct Hr' as (a & b & Hs & Hf & Hl & H4). unfold rep_size in H0. rewrite Hs in *.
  destruct b as [|y b]; [rewrite !app_length in *; simpl in *; lia|].
  rewrite (assoc_L (++)).
  rewrite zwrite_mid by (rewrite app_length in *; simpl in *; lia). cbn [obind].
  eexists. split; [reflexivity|].
  rewrite (cons_middle x), <- (assoc_L (++)), (assoc_L (++) l).
  apply repr_intro; rewrite !app_length in *; simpl in *; lia.
Qed.

Lemma pop_last_spec r l :
  repr r l -> exists r' e, pop_last ff r = Val (r', e) /\
    spec_step ff ok PopLast l = (fst (spec_step ff ok PopLast l), e) /\
    repr r' (fst (spec_step ff ok PopLast l)).
Proof.
  intros Hr. pose proof Hr as (a & b & Hs & Hf & Hl & H4). unfold pop_last. cbn [spec_step].
  destruct l as [|x l _] using rev_ind.
  - rewrite bool_decide_true by (simpl in *; lia). cbn [last]. eexists _, _. split_and!; done.
  - rewrite bool_decide_false by (rewrite app_length in *; simpl in *; lia).
    rewrite Hs. rewrite <- (assoc_L (++) l [x]), (assoc_L (++) a l). cbn [app].
    rewrite zread_mid by (rewrite app_length in *; simpl in *; lia). cbn [obind].
    rewrite zwrite_mid by (rewrite app_length in *; simpl in *; lia). cbn [obind].
    rewrite last_snoc. eexists _, _. split; [reflexivity|].
    split; [done|]. cbn [fst].
    rewrite take_app_alt by (rewrite app_length; simpl; lia).
    rewrite <- (assoc_L (++)). apply repr_intro; rewrite !app_length in *; simpl in *; lia.
Qed.

Lemma pop_last_n_spec n r l :
  repr r l -> (n <= length l)%nat ->
  exists r', pop_last_n ff r n = Val r' /\ repr r' (take (length l - n) l).
Proof.
  revert r l. induction n as [|n IH]; intros r l Hr Hn; cbn [pop_last_n].
  - exists r. rewrite firstn_all2 by lia. done.
  - destruct (pop_last_spec r l Hr) as (r' & e & -> & He & Hr'). cbn [obind].
    cbn [spec_step] in He, Hr'. destruct l as [|x l _] using rev_ind; [simpl in Hn; lia|].
    rewrite last_snoc in He, Hr'. cbn [fst] in Hr', He.
    injection He as <-.
    rewrite app_length in *. cbn [length] in *.
    rewrite take_app_alt in Hr' by lia.
    destruct (IH r' l Hr') as (r2 & He2 & Hr2); [lia|].
    exists r2. split; [done|]. replace (length l + 1 - S n)%nat with (length l - n)%nat by lia.
    rewrite take_app_le by lia. done.
Qed.

Lemma push_last_n_spec n r l x :
  repr r l -> exists r', push_last_n ff r x n = Val r' /\ repr r' (l ++ replicate n x).
Proof.
  revert r l. induction n as [|n IH]; intros r l Hr; cbn [push_last_n].
  - exists r. cbn [replicate]. rewrite app_nil_r. done.
  - destruct (trusted_push_last_spec r l x Hr) as (r' & -> & Hr'). cbn [obind].
    destruct (IH r' _ Hr') as (r2 & He2 & Hr2). exists r2. split; [done|].
    rewrite <- (assoc_L (++)) in Hr2. done.
Qed.

Lemma repr_size r l : repr r l -> deque_size r = Z.of_nat (length l).
Proof. intros (a & b & Hs & Hf & Hl & H4). unfold deque_size. lia. Qed.

Lemma trusted_size_setter_spec n r l :
  repr r l -> 0 <= n ->
  exists r', trusted_size_setter ff n r = Val r' /\ repr r' (resized ff (Z.to_nat n) l).
Proof.
  intros Hr Hn. unfold trusted_size_setter, resized. rewrite (repr_size r l Hr).
  repeat case_bool_decide.
  - destruct (pop_last_n_spec (Z.to_nat (- (n - Z.of_nat (length l)))) r l Hr) as (r' & He & Hr'); [lia|].
    exists r'. split; [done|].
    replace (length l - Z.to_nat (- (n - Z.of_nat (length l))))%nat with (Z.to_nat n) in Hr' by lia.
    replace (Z.to_nat n - length l)%nat with O by lia. cbn [replicate]. rewrite app_nil_r. done.
  - destruct (push_last_n_spec (Z.to_nat (n - Z.of_nat (length l))) r l ff Hr) as (r' & He & Hr').
    exists r'. split; [done|].
    rewrite firstn_all2 by lia.
    by replace (Z.to_nat n - length l)%nat with (Z.to_nat (n - Z.of_nat (length l))) by lia.
  - exists r. split; [done|]. rewrite firstn_all2 by lia.
    replace (Z.to_nat n - length l)%nat with O by lia. cbn [replicate]. rewrite app_nil_r. done.
Qed.

Definition refines (o : op A) : Prop :=
  forall r l, repr r l -> exists r',
    step ff ok o r = Val (r', snd (spec_step ff ok o l)) /\
    repr r' (fst (spec_step ff ok o l)).

Lemma push_refines x : refines (Push x).
Proof.
  intros r l Hr. destruct (push_spec r l x Hr) as (r' & e & He & Hs & Hr').
  exists r'. rewrite <- Hs. cbn [step fst snd]. split; [done|].  exact Hr'.
Qed.

Lemma push_last_refines x : refines (PushLast x).
Proof.
  intros r l Hr. cbn [step spec_step]. unfold push_last.
  destruct (ok x).
  - destruct (trusted_push_last_spec r l x Hr) as (r' & -> & Hr'). cbn [obind]. eauto.
  - eauto.
Qed.

Lemma pop_refines : refines Pop.
Proof.
  intros r l Hr. pose proof Hr as (a & b & Hs & Hf & Hl & H4). cbn [step]. unfold pop. cbn [spec_step].
  destruct l as [|x l].
  - rewrite bool_decide_true by (simpl in *; lia). cbn [fst snd]. eauto.
  - rewrite bool_decide_false by (simpl in *; lia).
    rewrite Hs. cbn [app].
    rewrite zread_mid by done. cbn [obind].
    rewrite zwrite_mid by done. cbn [obind].
    cbn [fst snd]. eexists. split; [reflexivity|].
    rewrite (cons_middle ff), (assoc_L (++) a).
    apply repr_intro; rewrite !app_length in *; simpl in *; lia.
Qed.

Lemma pop_last_refines : refines PopLast.
Proof.
  intros r l Hr. destruct (pop_last_spec r l Hr) as (r' & e & He & Hs & Hr').
  exists r'. rewrite Hs. cbn [fst snd]. eauto.
Qed.


Lemma element_refines i d : refines (Element i d).
Proof.
  intros r l Hr. pose proof Hr as (a & b & Hs & Hf & Hl & H4). cbn [step]. unfold element. cbn [spec_step].
  destruct (decide (0 <= i < Z.of_nat (length l))) as [Hi|Hi].
  - rewrite bool_decide_false by lia. rewrite bool_decide_true by done.
    destruct (lookup_split l i Hi) as (l1 & x & l2 & -> & ->).
    rewrite Hs, <- (assoc_L (++)), (assoc_L (++) a). cbn [app].
    rewrite zread_mid by (rewrite app_length; lia). cbn [obind].
    rewrite Nat2Z.id, list_lookup_middle by done. cbn [fst snd]. eauto.
  - rewrite bool_decide_true by lia. rewrite bool_decide_false by done.
    destruct d as [x|]; [destruct (ok x)|]; cbn [fst snd]; eauto.
Qed.

Lemma size_setter_refines n : refines (SetSize n).
Proof.
  intros r l Hr. cbn [step spec_step]. unfold size_setter. rewrite (repr_size r l Hr).
  case_bool_decide; [cbn [fst snd]; eauto|].
  rewrite (bool_decide_ext (Z.of_nat (length l) < n) (~ n <= Z.of_nat (length l))) by lia.
  rewrite bool_decide_not.
  destruct (negb (bool_decide (n <= Z.of_nat (length l))) && negb (ok ff)).
  - cbn [fst snd]; eauto.
  - destruct (trusted_size_setter_spec n r l Hr) as (r' & -> & Hr'); [lia|].
    cbn [obind fst snd]. eauto.
Qed.

Lemma element_setter_in fuel x r l1 y l2 :
  ok x = true -> repr r (l1 ++ y :: l2) ->
  exists r', element_setter ff ok (S fuel) x r (Z.of_nat (length l1)) = Val (r', RVal x) /\
    repr r' (l1 ++ x :: l2).
Proof.
  intros Ho (a & b & Hs & Hf & Hl & H4). cbn [element_setter]. rewrite Ho.
  rewrite bool_decide_false by lia.
  rewrite bool_decide_false by (rewrite app_length in *; simpl in *; lia).
  rewrite Hs, <- (assoc_L (++)), (assoc_L (++) a). cbn [app].
  rewrite zwrite_mid by (rewrite app_length; lia). cbn [obind].
  eexists. split; [reflexivity|].
  rewrite <- (assoc_L (++) a l1), app_comm_cons, (assoc_L (++) l1).
  apply repr_intro; rewrite ?app_length in *; simpl in *; rewrite ?app_length in *; simpl in *; lia.
Qed.

Lemma set_element_refines i x : refines (SetElement i x).
Proof.
  intros r l Hr. cbn [step spec_step].
  destruct (ok x) eqn:Ho; cbn [negb].
  2:{ cbn [element_setter]. rewrite Ho. cbn [fst snd]; eauto. }
  destruct (decide (i < 0)) as [Hi|Hi].
  { rewrite (bool_decide_true (i < 0)) by done. cbn [element_setter]. rewrite Ho.
    rewrite bool_decide_true by done. cbn [fst snd]; eauto. }
  rewrite (bool_decide_false (i < 0)) by done.
  destruct (decide (i < Z.of_nat (length l))) as [Hn|Hn].
  { rewrite (bool_decide_true (i < _)) by done.
    destruct (lookup_split l i) as (l1 & y & l2 & -> & ->); [lia|].
    destruct (element_setter_in 1 x r l1 y l2 Ho Hr) as (r' & He & Hr').
    exists r'. cbn [fst snd]. split; [done|].
    rewrite Nat2Z.id, insert_app_r_alt, Nat.sub_diag by lia. done. }
  rewrite (bool_decide_false (i < _)) by done.
  assert (forall rr, repr rr (l ++ replicate (Z.to_nat i - length l) ff ++ [ff]) ->
    exists r', element_setter ff ok 1 x rr i = Val (r', RVal x) /\
       repr r' (l ++ replicate (Z.to_nat i - length l) ff ++ [x])) as Hlast.
  { intros rr Hrr. rewrite (assoc_L (++)) in Hrr.
    destruct (element_setter_in 0 x rr _ ff [] Ho Hrr) as (r' & He & Hr').
    rewrite app_length, replicate_length in He.
    replace (Z.of_nat (length l + (Z.to_nat i - length l))) with i in He by lia.
    exists r'. split; [done|]. rewrite (assoc_L (++)). done. }
  assert (resized ff (Z.to_nat (i + 1)) l = l ++ replicate (Z.to_nat i - length l) ff ++ [ff]) as Hres.
  { unfold resized. rewrite firstn_all2 by lia.
    replace (Z.to_nat (i + 1) - length l)%nat with ((Z.to_nat i - length l) + 1)%nat by lia.
    by rewrite replicate_add. }
  pose proof (repr_size r l Hr) as Hsz.
  remember 1%nat as one eqn:Hone. cbn [element_setter]. rewrite Ho.
  rewrite (bool_decide_false (i < 0)) by done.
  rewrite bool_decide_true by (unfold deque_size in Hsz; lia).
  rewrite Hsz.
  destruct (decide (Z.of_nat (length l) = i)) as [Heq|Hne].
  - rewrite (bool_decide_true (Z.of_nat (length l) = i)) by done.
    rewrite (bool_decide_true (i = Z.of_nat (length l))) by done.
    destruct (trusted_size_setter_spec (i + 1) r l Hr) as (r' & -> & Hr'); [lia|].
    cbn [obind]. rewrite Hres in Hr'. subst one.
    destruct (Hlast r' Hr') as (r2 & -> & Hr2). exists r2. cbn [fst snd]. split; [done|].
    replace (Z.to_nat i - length l)%nat with O in Hr2 by lia. done.
  - rewrite (bool_decide_false (Z.of_nat (length l) = i)) by done.
    rewrite (bool_decide_false (i = Z.of_nat (length l))) by done.
    destruct (size_setter_refines (i + 1) r l Hr) as (r' & He & Hr').
    cbn [step spec_step] in He, Hr'.
    rewrite (bool_decide_false (i + 1 < 0)) in He, Hr' by lia.
    rewrite (bool_decide_true (Z.of_nat (length l) < i + 1)) in He, Hr' by lia.
    rewrite He. cbn [obind]. destruct (ok ff); cbn [negb andb fst snd] in *.
    + rewrite Hres in Hr'. subst one. destruct (Hlast r' Hr') as (r2 & -> & Hr2). eauto.
    + eauto.
Qed.




Lemma remove_refines p c : refines (RemoveBang p c).
Proof.
  intros r l Hr. cbn [step]. unfold remove_bang.
  pose proof (repr_size r l Hr) as Hsz.
  destruct Hr as (a & b & Hs & Hf & Hl & H4).
  assert (upto (rfirst r) (rlast r) = length l) as -> by (unfold upto; lia).
  set (count := match c with Some c0 => c0 | None => deque_size r end).
  assert (spec_step ff ok (RemoveBang p c) l = (remove_first p (Z.to_nat count) l, RUnit)) as ->.
  { unfold count. destruct c; [done|]. cbn [spec_step]. f_equal. symmetry.
    apply remove_first_all. lia. }
  destruct (grovel_spec p l a [] b count (rfirst r) (rfirst r)) as (g' & Hg & He); [done|simpl; lia|].
  cbn [app] in He, Hg. rewrite Hs, He. cbn [obind].
  set (l' := remove_first p (Z.to_nat count) l) in *.
  rewrite app_length in Hg.
  replace (Z.to_nat (Z.max (rlast r + 1) (rfirst r) - (rfirst r + Z.of_nat (length l')))) with (length g') by lia.
  rewrite (assoc_L (++) a l').
  rewrite fill_loop_spec by (rewrite app_length; lia). cbn [obind fst snd].
  eexists. split; [reflexivity|]. rewrite <- (assoc_L (++)).
  apply repr_intro; rewrite ?app_length, ?replicate_length in *; lia.
Qed.


Lemma reverse_refines : refines ReverseBang.
Proof.
  intros r l (a & b & Hs & Hf & Hl & H4). cbn [step spec_step]. unfold reverse_bang, ceiling_div2.
  rewrite Hs. rewrite (swap_loop_spec _ a l b) by (try done; lia). cbn [obind fst snd].
  eexists. split; [reflexivity|].
  apply repr_intro; rewrite ?reverse_length, ?app_length in *; lia.
Qed.


Lemma iterate_refines : refines Iterate.
Proof.
  intros r l Hr. pose proof Hr as (a & b & Hs & Hf & Hl & H4). cbn [step spec_step].
  unfold iterate_forward.
  rewrite (forward_iter_spec r l a b); try done; try lia.
  - cbn [obind fst snd]. rewrite Z.sub_diag. eauto.
  - rewrite Hs, !app_length. lia.
Qed.


Lemma as_list_refines : refines AsList.
Proof.
  intros r l Hr. pose proof Hr as (a & b & Hs & Hf & Hl & H4). cbn [step spec_step].
  unfold as_list. replace (upto (rfirst r) (rlast r)) with (length l) by (unfold upto; lia).
  rewrite (as_list_loop_spec r l a b) by done. cbn [obind fst snd]. rewrite app_nil_r. eauto.
Qed.

Lemma copy_sequence_spec r l :
  repr r l -> exists r', copy_sequence ff r = Val r' /\ repr r' l.
Proof.
  intros (a & b & Hs & Hf & Hl & H4). unfold copy_sequence.
  destruct (make_deque_spec (rlast r - rfirst r + 1) None) as (t & -> & Ht); [lia|].
  cbn [obind]. destruct Ht as (c & d & Hts & Htf & Htl & Ht4).
  unfold spec_make in *. cbn [default] in *. rewrite replicate_length in *.
  replace (Z.to_nat (rlast r - rfirst r + 1)) with (length l) in * by lia.
  replace (Nat.min (upto (rfirst r) (rlast r)) (upto (rfirst t) (rlast t))) with (length l)
    by (unfold upto; lia).
  rewrite Hs, Hts.
  rewrite copy_loop_spec by (rewrite ?replicate_length; done). cbn [obind].
  eexists. split; [reflexivity|].
  apply repr_intro; rewrite ?app_length, ?replicate_length in *; lia.
Qed.

Lemma step_refines o : refines o.
Proof.
  induction o; eauto using push_refines, push_last_refines, pop_refines, pop_last_refines,
    element_refines, set_element_refines, size_setter_refines, remove_refines,
    reverse_refines, iterate_refines, as_list_refines.
  - intros r l Hr. cbn [step spec_step fst snd]. rewrite (repr_size r l Hr). eauto.
  - intros r l Hr. cbn [step spec_step fst snd]. exists r. split; [|done].
    do 3 f_equal. unfold deque_empty. apply bool_decide_ext.
    destruct Hr as (a & b & Hs & Hf & Hl & H4). split.
    + intros H. apply nil_length_inv. lia.
    + intros ->. simpl in Hl. lia.
  - intros r l Hr. cbn [step spec_step fst snd].
    destruct (copy_sequence_spec r l Hr) as (c & -> & Hc). cbn [obind].
    destruct (IHo c l Hc) as (c' & -> & _). cbn [obind]. eauto.
Qed.

Lemma run_refines ops : forall r l, repr r l -> exists r',
  run ff ok ops r = Val (r', snd (spec_run ff ok ops l)) /\
  repr r' (fst (spec_run ff ok ops l)).
Proof.
  induction ops as [|o ops IH]; intros r l Hr; cbn [run spec_run].
  - eauto.
  - destruct (step_refines o r l Hr) as (r1 & -> & Hr1).
    destruct (spec_step ff ok o l) as [l1 e1]. cbn [obind fst snd] in *.
    destruct (IH r1 l1 Hr1) as (r2 & -> & Hr2).
    destruct (spec_run ff ok ops l1) as [l2 e2]. cbn [obind fst snd] in *. eauto.
Qed.

Lemma run_from_make_refines n fill ops : 0 <= n -> exists r,
  run_from_make ff ok n fill ops = Val (r, snd (spec_run ff ok ops (spec_make ff n fill))).
Proof.
  intros Hn. unfold run_from_make.
  destruct (make_deque_spec n fill Hn) as (r & -> & Hr). cbn [obind].
  destruct (run_refines ops r _ Hr) as (r' & -> & _). eauto.
Qed.

(** Storage safety after every history. *)
Lemma run_storage n fill ops r es :
  run_from_make ff ok n fill ops = Val (r, es) ->
  0 <= rfirst r /\ rfirst r <= rlast r + 1 /\ rlast r + 1 <= rep_size r.
Proof.
  unfold run_from_make. destruct (decide (0 <= n)) as [Hn|Hn].
  - destruct (make_deque_spec n fill Hn) as (r0 & -> & Hr). cbn [obind].
    destruct (run_refines ops r0 _ Hr) as (r' & -> & a & b & Hs & Hf & Hl & H4).
    intros [= -> _]. unfold rep_size. rewrite Hs, !app_length. lia.
  - unfold make_deque. rewrite bool_decide_true by lia. done.
Qed.

End proofs.

(** The element type invariant. *)
Section types.
Context {A : Type} (ff : A) (ok : A -> bool).

Lemma remove_first_Forall P p c (l : list A) : Forall P l -> Forall P (remove_first p c l).
Proof.
  revert c. induction l as [|x l IH]; intros c Hl; [done|]. apply Forall_cons in Hl as [Hx Hl].
  cbn [remove_first]. destruct c; [by constructor|]. destruct (p x); [by apply IH|].
  constructor; [done|]. by apply IH.
Qed.

Lemma spec_step_typed o l :
  Forall (fun x => ok x = true) l -> Forall (fun x => ok x = true) (fst (spec_step ff ok o l)).
Proof.
  intros Hl. destruct o; cbn [spec_step]; try done.
  - destruct (ok x) eqn:E; [|done]. by constructor.
  - destruct (ok x) eqn:E; [|done]. apply Forall_app_2; [done|]. by constructor.
  - destruct l; [done|]. by apply Forall_cons in Hl as [_ ?].
  - destruct (last l); [|done]. cbn [fst]. by apply Forall_take.
  - case_bool_decide; [by destruct (_ !! _)|]. destruct default as [d|]; [|done]. by destruct (ok d).
  - destruct (ok x) eqn:E; cbn [negb]; [|done]. repeat case_bool_decide; try done.
    + cbn [fst]. by apply Forall_insert.
    + cbn [fst]. apply Forall_app_2; [done|]. by constructor.
    + destruct (ok ff) eqn:Ef; [|done]. cbn [fst].
      repeat apply Forall_app_2; [done| |by constructor]. by apply Forall_replicate.
  - case_bool_decide; [done|].
    destruct (bool_decide (Z.of_nat (length l) < n) && negb (ok ff)) eqn:E; [done|].
    cbn [fst]. unfold resized. apply Forall_app_2; [by apply Forall_take|].
    destruct (ok ff) eqn:Ef; [by apply Forall_replicate|].
    apply andb_false_iff in E as [E|E]; [|done]. rewrite bool_decide_eq_false in E.
    replace (Z.to_nat n - length l)%nat with O by lia. constructor.
  - destruct count; cbn [fst]; [by apply remove_first_Forall|].
    rewrite <- (remove_first_all p l (length l)) by lia. by apply remove_first_Forall.
  - cbn [fst]. apply Forall_forall. intros x Hx. rewrite elem_of_reverse in Hx.
    rewrite Forall_forall in Hl. by apply Hl.
Qed.

Lemma spec_run_typed ops l :
  Forall (fun x => ok x = true) l -> Forall (fun x => ok x = true) (fst (spec_run ff ok ops l)).
Proof.
  revert l. induction ops as [|o ops IH]; intros l Hl; cbn [spec_run]; [done|].
  pose proof (spec_step_typed o l Hl) as H.
  destruct (spec_step ff ok o l) as [l1 e1]. cbn [fst] in H. specialize (IH l1 H).
  by destruct (spec_run ff ok ops l1).
Qed.

Lemma run_typed n fill ops : 0 <= n -> n = 0 \/ ok (default ff fill) = true ->
  exists r es, run_from_make ff ok n fill ops = Val (r, es) /\
    exists kes, iterate_forward r = Val kes /\ Forall (fun ke => ok (snd ke) = true) kes.
Proof.
  intros Hn Hok. unfold run_from_make.
  destruct (make_deque_spec ff ok n fill Hn) as (r & -> & Hr). cbn [obind].
  destruct (run_refines ff ok ops r _ Hr) as (r' & -> & Hr').
  eexists _, _. split; [done|].
  destruct (iterate_refines ff ok r' _ Hr') as (r2 & He & _).
  cbn [step] in He. destruct (iterate_forward r') as [kes| | |]; try done.
  exists kes. split; [done|]. cbn [obind spec_step snd] in He. injection He as _ ->.
  assert (Forall (fun x => ok x = true) (fst (spec_run ff ok ops (spec_make ff n fill)))) as Hf.
  { apply spec_run_typed. unfold spec_make. destruct Hok as [->|Hok]; [constructor|].
    by apply Forall_replicate. }
  revert Hf. generalize (fst (spec_run ff ok ops (spec_make ff n fill))) as l.
  generalize 0 as k. intros k l. revert k.
  induction l as [|x l IH]; intros k Hf; cbn [numbered]; [constructor|].
  apply Forall_cons in Hf as [? ?]. constructor; [done|]. by apply IH.
Qed.

End types.
