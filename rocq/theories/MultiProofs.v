(** Strings between three or more double quotes. *)
From Verif Require Import Base LexTable LexModel LexSpec LexProofs LexPathProofs LitModel LitSpec LitProofs LitIntProofs StrSpec StrProofs MultiSpec.
From Coq Require Import ZArith Lia ZifyBool ZifyNat.
Local Open Scope outcome_scope.
Local Open Scope nat_scope.

(** ** The machine *)

Definition is_blank_builder (b : builder) : bool := match b with B_whitespace | B_comment => true | _ => false end.

(** The state and the counters (before the action of the state) after [cs], through states that go on. *)
Fixpoint qrun (s : lstate) (k : counts) (cs : list Z) : option (lstate * counts) :=
  match cs with
  | [] => Some (s, k)
  | c :: cs =>
      match do_state_action s k, state_builder s, step s c with
      | (ANo, k'), _, Some s' => qrun s' k' cs
      | (AYes, k'), Some b, Some s' => if is_blank_builder b then None else qrun s' k' cs
      | _, _, _ => None
      end
  end.

Lemma qrun_app s k cs ds : qrun s k (cs ++ ds) = match qrun s k cs with Some (s', k') => qrun s' k' ds | None => None end.
Proof.
  revert s k. induction cs as [|c cs IH]; intros s k; cbn; [done|]. destruct (do_state_action s k) as [[] k'], (state_builder s) as [[]|], (step s c); cbn; auto.
Qed.

Lemma advance_any fuel text s pos v c rest s' :
  drop pos text = c :: rest -> Forall is_byte text -> step s c = Some s' ->
  exists w, advance_ fuel text s pos v = repeat_ fuel text s' (S pos) w /\ start_pos w = start_pos v /\ kounts w = kounts v.
Proof.
  intros Hd Hb Hs. destruct (drop_cons_lookup _ _ _ _ Hd) as (Hc & _ & Hl). unfold advance_.
  replace (pos <? length text) with true by lia. unfold next_state, step in *.
  destruct (state_transitions s) as [|tr trs] eqn:Et; [discriminate|]. rewrite <- Et in *. clear Et. rewrite Hc.
  pose proof (proj1 (Forall_forall _ _) Hb c (elem_of_list_lookup_2 _ _ _ Hc)) as Hbyte. unfold is_byte in Hbyte.
  replace ((0 <=? c)%Z && (c <=? 255)%Z) with true by lia. cbn [obind]. rewrite Hs, Nat.add_1_r.
  destruct (c =? newline_code)%Z; eexists; (split; [reflexivity|]); done.
Qed.

Lemma repeat_qrun text : Forall is_byte text -> forall cs rest s k s' k' pos v fuel,
  qrun s k cs = Some (s', k') -> kounts v = k -> drop pos text = cs ++ rest ->
  exists w, repeat_ (length cs + S fuel) text s pos v = repeat_ (S fuel) text s' (pos + length cs) w /\ start_pos w = start_pos v /\ kounts w = k'.
Proof.
  intros Hb. induction cs as [|c cs IH]; intros rest s k s' k' pos v fuel Hq Hk Hd; cbn in Hq.
  { injection Hq as <- <-. exists v. cbn [length]. rewrite Nat.add_0_r. auto. }
  cbn in Hd. cbn [length]. change (S (length cs) + S fuel) with (S (length cs + S fuel)). rewrite repeat_unfold, Hk.
  destruct (drop_cons_lookup _ _ _ _ Hd) as (_ & Hd' & _).
  destruct (do_state_action s k) as [acc k1] eqn:Ea. cbv zeta.
  assert (forall s1 v1, step s c = Some s1 -> qrun s1 k1 cs = Some (s', k') -> start_pos v1 = start_pos v -> kounts v1 = k1 ->
    exists w, advance_ (length cs + S fuel) text s pos v1 = repeat_ (S fuel) text s' (pos + S (length cs)) w /\ start_pos w = start_pos v /\ kounts w = k') as Hgo.
  { intros s1 v1 Hs Hq1 Hv1 Hk1. destruct (advance_any (length cs + S fuel) text s pos v1 c _ s1 Hd Hb Hs) as (w & -> & H1 & H2).
    destruct (IH rest s1 k1 s' k' (S pos) w fuel Hq1 ltac:(congruence) Hd') as (w' & -> & H3 & H4). exists w'.
    replace (S pos + length cs) with (pos + S (length cs)) by lia. split; [done|]. split; congruence. }
  destruct acc; try discriminate.
  - destruct (step s c) as [s1|] eqn:Es; [|by destruct (state_builder s)]. eapply Hgo; [reflexivity| |done|done]. by destruct (state_builder s).
  - destruct (state_builder s) as [b|]; [|discriminate]. destruct (step s c) as [s1|] eqn:Es; [|discriminate].
    destruct b; try discriminate Hq; (eapply Hgo; [reflexivity | exact Hq | done | done]).
Qed.

(** A token that ends where its state accepts. *)
Lemma scan_accept text pre cs post lx s' k' k2 b fuel :
  text = pre ++ cs ++ post -> Forall is_byte text -> lx_position lx = length pre -> lx_counts lx = Counts 0 0 0 0 ->
  qrun S_start (Counts 0 0 0 0) cs = Some (s', k') -> do_state_action s' k' = (AAccept, k2) -> state_builder s' = Some b -> string_builder b = true ->
  length cs < fuel ->
  exists t lx', scan fuel text lx = Val (t, lx') /\ tk_builder t = Some b /\ tk_start t = length pre /\ tk_end t = length pre + length cs /\ lx_counts lx' = k2.
Proof.
  intros Ht Hb Hp Hk Hq Ha Hbl Hsb Hf.
  assert (drop (length pre) text = cs ++ post) as Hd by (rewrite Ht, drop_app; reflexivity).
  destruct (repeat_qrun text Hb cs post S_start _ s' k' (length pre) (initial_vars lx) (fuel - S (length cs)) Hq Hk Hd) as (w & Ew & H1 & H2).
  replace (length cs + S (fuel - S (length cs))) with fuel in Ew by lia.
  unfold scan. rewrite Hp, Ew, repeat_unfold, H2, Ha, Hbl. cbv zeta iota.
  destruct b; try discriminate; cbn; eexists _, _; (split; [reflexivity|]); cbn; rewrite H1; cbn; rewrite Hp; auto.
Qed.

Definition K (q e : nat) : counts := Counts q e 0 0.

(** The states of the two kinds of strings. *)
Record kind := Kind { k_start : lstate; k_body : lstate; k_cont : lstate; k_end : lstate; k_builder : builder; k_char : list Z -> Z -> Prop }.
Definition escaped_kind : kind :=
  Kind S_multi_string_start S_multi_string_body S_multi_string_body_continue S_multi_string_end B_make_stringish_literal (denotes_char 34).
Definition raw_kind : kind :=
  Kind S_raw_multi_string_start S_raw_multi_string_body S_raw_multi_string_body_continue S_raw_multi_string_end B_make_raw_string_literal raw_char.

(** Where the machine is inside of the string: in the body, after [n] unescaped quotes; or just after the
    opening delimiter. *)
Definition inside (k : kind) (q : nat) (n : nat) (s : lstate) (c : counts) : Prop :=
  match n with
  | O => (s = k_body k /\ (exists e, e < q /\ c = K q e)) \/ (s = k_cont k /\ c = K q 0)
  | S n => s = k_end k /\ c = K q n
  end.
Definition entry (k : kind) (q : nat) (n : nat) (s : lstate) (c : counts) : Prop :=
  inside k q n s c \/ (n = 0 /\ s = k_start k /\ c = K (q - 1) 0).

Ltac acts := unfold do_state_action; cbn [state_action state_builder run_action K dq_start dq_end dc_start dc_end].

Lemma start_action_multi k q : (k = escaped_kind \/ k = raw_kind) -> 3 <= q -> do_state_action (k_start k) (K (q - 1) 0) = (ANo, K q 0).
Proof.
  intros [-> | ->] Hq; cbn [k_start escaped_kind raw_kind]; acts; replace (S (q - 1)) with q by lia; replace (q =? 2) with false by lia; reflexivity.
Qed.
Lemma body_action k q e : (k = escaped_kind \/ k = raw_kind) -> 3 <= q -> e < q -> do_state_action (k_body k) (K q e) = (ANo, K q 0).
Proof.
  intros [-> | ->] Hq He; cbn [k_body escaped_kind raw_kind]; acts; replace (q =? e) with false by lia; replace (q =? 2) with false by lia; reflexivity.
Qed.
Lemma cont_action k q : (k = escaped_kind \/ k = raw_kind) -> do_state_action (k_cont k) (K q 0) = (ANo, K q 0).
Proof. by intros [-> | ->]. Qed.
Lemma end_action k q n : (k = escaped_kind \/ k = raw_kind) -> S n < q -> do_state_action (k_end k) (K q n) = (ANo, K q (S n)).
Proof. intros [-> | ->] Hq; cbn [k_end escaped_kind raw_kind]; acts; replace (S n =? q) with false by lia; reflexivity. Qed.
Lemma end_accepts k q : (k = escaped_kind \/ k = raw_kind) -> 3 <= q -> do_state_action (k_end k) (K q (q - 1)) = (AAccept, K q q).
Proof.
  intros [-> | ->] Hq; cbn [k_end escaped_kind raw_kind]; acts; replace (S (q - 1)) with q by lia; rewrite Nat.eqb_refl; replace (q =? 2) with false by lia; reflexivity.
Qed.

(** Entering the body by a character that is neither a quote nor a backslash. *)
Definition steps_to (s : lstate) (c : Z) (s' : lstate) : bool := same_state (step s c) s'.
Definition ordinary (k : kind) (c : Z) : bool :=
  (is_printable c || (c =? 10)%Z || (c =? 13)%Z) && negb (c =? 34)%Z && negb ((c =? 92)%Z && match k_start k with S_multi_string_start => true | _ => false end).

Lemma ordinary_step k c : (k = escaped_kind \/ k = raw_kind) -> ordinary k c = true ->
  step (k_start k) c = Some (k_body k) /\ step (k_body k) c = Some (k_cont k) /\ step (k_cont k) c = Some (k_cont k) /\ step (k_end k) c = Some (k_body k).
Proof.
  intros Hk Hc. assert (is_byte c) as Hb by (unfold ordinary, is_printable, is_byte in *; lia).
  destruct Hk as [-> | ->]; [split_and!; apply (class_step (ordinary escaped_kind)); auto | split_and!; apply (class_step (ordinary raw_kind)); auto]; vm_compute; reflexivity.
Qed.

Lemma inside_ordinary k q n s c x : (k = escaped_kind \/ k = raw_kind) -> 3 <= q -> n < q -> entry k q n s c -> ordinary k x = true ->
  exists s' c', qrun s c [x] = Some (s', c') /\ inside k q 0 s' c'.
Proof.
  intros Hk Hq Hn Hi Hx. destruct (ordinary_step k x Hk Hx) as (H1 & H2 & H3 & H4). cbn [qrun].
  destruct Hi as [Hi|(-> & -> & ->)]; [destruct n as [|n]; cbn [inside] in Hi|].
  - destruct Hi as [[-> (e & He & ->)]|[-> ->]].
    + rewrite body_action, H2 by done. eexists _, _. split; [reflexivity|]. right. done.
    + rewrite cont_action, H3 by done. eexists _, _. split; [reflexivity|]. right. done.
  - destruct Hi as [-> ->]. rewrite end_action, H4 by (done || lia). eexists _, _. split; [reflexivity|]. left. split; [done|]. exists (S n). split; [lia | done].
  - rewrite start_action_multi, H1 by done. eexists _, _. split; [reflexivity|]. left. split; [done|]. exists 0. split; [lia | done].
Qed.

Lemma quote_step k : (k = escaped_kind \/ k = raw_kind) ->
  step (k_start k) 34 = Some (k_start k) /\ step (k_body k) 34 = Some (k_end k) /\ step (k_cont k) 34 = Some (k_end k) /\ step (k_end k) 34 = Some (k_end k).
Proof. intros [-> | ->]; split_and!; reflexivity. Qed.

(** A quote inside of the body (not right after the opening delimiter). *)
Lemma inside_quote k q n s c : (k = escaped_kind \/ k = raw_kind) -> 3 <= q -> n < q -> inside k q n s c ->
  exists s' c', qrun s c [34%Z] = Some (s', c') /\ inside k q (S n) s' c'.
Proof.
  intros Hk Hq Hn Hi. destruct (quote_step k Hk) as (H1 & H2 & H3 & H4). cbn [qrun].
  destruct n as [|n]; cbn [inside] in Hi.
  - destruct Hi as [[-> (e & He & ->)]|[-> ->]].
    + rewrite body_action, H2 by done. eexists _, _. split; [reflexivity|]. done.
    + rewrite cont_action, H3 by done. eexists _, _. split; [reflexivity|]. done.
  - destruct Hi as [-> ->]. rewrite end_action, H4 by (done || lia). eexists _, _. split; [reflexivity|]. done.
Qed.


(** A backslash and what follows it. *)
Lemma inside_escape q n s c rest : 3 <= q -> n < q -> entry escaped_kind q n s c ->
  (exists e x, In (e, x) escapes /\ rest = [e]) \/ (exists ds, ds <> [] /\ Forall (is_digit 16) ds /\ rest = 60%Z :: ds ++ [62%Z]) ->
  exists s' c', qrun s c (92%Z :: rest) = Some (s', c') /\ inside escaped_kind q 0 s' c'.
Proof.
  intros Hq Hn Hi Hr.
  assert (exists e, e < q /\ qrun s c (92%Z :: rest) = qrun S_multi_string_escape (K q e) rest) as (e & He & ->).
  { cbn [qrun]. destruct Hi as [Hi|(-> & -> & ->)]; [destruct n as [|n]; cbn [inside] in Hi|].
    - destruct Hi as [[-> (e & He & ->)]|[-> ->]].
      + exists 0. split; [lia|]. rewrite body_action by (auto; lia). reflexivity.
      + exists 0. split; [lia|]. rewrite cont_action by auto. reflexivity.
    - destruct Hi as [-> ->]. exists (S n). split; [lia|]. rewrite end_action by (auto; lia). reflexivity.
    - exists 0. split; [lia|]. rewrite start_action_multi by (auto; lia). reflexivity. }
  assert (do_state_action S_multi_string_escape (K q e) = (ANo, K q 0)) as Ha.
  { acts. replace (q =? e) with false by lia. replace (q =? 2) with false by lia. reflexivity. }
  exists S_multi_string_body_continue, (K q 0). split; [|right; done].
  destruct Hr as [(x & y & Hin & ->)|(ds & Hne & Hds & ->)].
  - cbn [qrun]. rewrite Ha. rewrite (escapes_step S_multi_string_escape S_multi_string_body_continue ltac:(vm_compute; reflexivity) x y Hin). reflexivity.
  - cbn [qrun]. rewrite Ha. change (step S_multi_string_escape 60) with (Some S_multi_string_escape_less). cbv iota beta.
    change (state_builder S_multi_string_escape) with (@None builder). cbv iota beta.
    destruct ds as [|d ds]; [done|]. apply Forall_cons in Hds as [Hd Hds]. cbn [app qrun].
    change (do_state_action S_multi_string_escape_less (K q 0)) with (ANo, K q 0). change (state_builder S_multi_string_escape_less) with (@None builder). cbv iota beta.
    rewrite (digits_step 16 S_multi_string_escape_less S_multi_string_hex_char_digits ltac:(vm_compute; reflexivity) d Hd).
    clear Hne d Hd. induction ds as [|d ds IH]; [reflexivity|]. apply Forall_cons in Hds as [Hd Hds]. cbn [app qrun].
    change (do_state_action S_multi_string_hex_char_digits (K q 0)) with (ANo, K q 0). change (state_builder S_multi_string_hex_char_digits) with (@None builder). cbv iota beta.
    rewrite (digits_step 16 S_multi_string_hex_char_digits S_multi_string_hex_char_digits ltac:(vm_compute; reflexivity) d Hd). auto.
Qed.

Lemma inside_char k q n s c x y : (k = escaped_kind \/ k = raw_kind) -> 3 <= q -> n < q -> entry k q n s c -> k_char k x y ->
  exists s' c', qrun s c x = Some (s', c') /\ inside k q 0 s' c'.
Proof.
  intros Hk Hq Hn Hi Hx. destruct Hk as [-> | ->]; cbn [k_char escaped_kind raw_kind] in Hx.
  - destruct Hx as [z H1 H2 H3|e z Hin|ds Hne Hds _].
    + eapply inside_ordinary; eauto. unfold ordinary. cbn. rewrite H1. lia.
    + eapply (inside_escape q n); eauto 6.
    + eapply (inside_escape q n); eauto 7.
  - destruct Hx as (-> & H1 & H2). eapply inside_ordinary; eauto. unfold ordinary. cbn. rewrite H1. lia.
Qed.

(** ** Lines *)

Lemma inside_line k q n src content : (k = escaped_kind \/ k = raw_kind) -> 3 <= q -> quoted_line q (k_char k) n src content -> n < q ->
  forall s c, inside k q n s c ->
  exists m s' c', m < q /\ qrun s c src = Some (s', c') /\ inside k q m s' c'.
Proof.
  intros Hk Hq. induction 1 as [n|n x y src content Hx H IH|n src content Hlt H IH]; intros Hn s c Hi.
  - exists n, s, c. done.
  - destruct (inside_char k q n s c x y Hk Hq Hn (or_introl Hi) Hx) as (s1 & c1 & E & Hi1).
    destruct (IH ltac:(lia) s1 c1 Hi1) as (m & s2 & c2 & Hm & E2 & Hi2). exists m, s2, c2. rewrite qrun_app, E. done.
  - destruct (inside_quote k q n s c Hk Hq Hn Hi) as (s1 & c1 & E & Hi1).
    destruct (IH Hlt s1 c1 Hi1) as (m & s2 & c2 & Hm & E2 & Hi2). exists m, s2, c2. change (34%Z :: src) with ([34%Z] ++ src). rewrite qrun_app, E. done.
Qed.

(** Ordinary characters. *)
Lemma inside_ordinaries k q xs : (k = escaped_kind \/ k = raw_kind) -> 3 <= q -> Forall (fun x => ordinary k x = true) xs -> xs <> [] ->
  forall n s c, n < q -> entry k q n s c -> exists s' c', qrun s c xs = Some (s', c') /\ inside k q 0 s' c'.
Proof.
  intros Hk Hq. induction xs as [|x xs IH]; intros Hx Hne n s c Hn Hi; [done|]. apply Forall_cons in Hx as [Hx Hxs].
  destruct (inside_ordinary k q n s c x Hk Hq Hn Hi Hx) as (s1 & c1 & E & Hi1). change (x :: xs) with ([x] ++ xs). rewrite qrun_app, E.
  destruct xs as [|y xs]; [cbn; eauto|]. apply (IH Hxs ltac:(done) 0 s1 c1); [lia | by left].
Qed.

Lemma closing k q : (k = escaped_kind \/ k = raw_kind) -> 3 <= q -> forall n s c, n < q -> inside k q n s c ->
  n = 0 -> qrun s c (replicate q 34%Z) = Some (k_end k, K q (q - 1)).
Proof.
  intros Hk Hq n s c Hn Hi ->. destruct (inside_quote k q 0 s c Hk Hq Hn Hi) as (s1 & c1 & E & [-> ->]).
  destruct q as [|q]; [lia|]. change (replicate (S q) 34%Z) with ([34%Z] ++ replicate q 34%Z). rewrite qrun_app, E.
  assert (forall j i, i + j <= q -> qrun (k_end k) (K (S q) i) (replicate j 34%Z) = Some (k_end k, K (S q) (i + j))) as H.
  { clear -Hk. destruct (quote_step k Hk) as (_ & _ & _ & H4). induction j as [|j IH]; intros i Hi; cbn [replicate qrun]; [by rewrite Nat.add_0_r|].
    rewrite end_action, H4 by (done || lia). replace (i + S j) with (S i + j) by lia. rewrite <- IH by lia. done. }
  rewrite (H q 0) by lia. replace (S q - 1) with q by lia. done.
Qed.

(** The opening delimiter. *)
Definition prefix_of (k : kind) (pfx : list Z) : Prop :=
  match k_start k with
  | S_multi_string_start => pfx = [] \/ pfx = [35%Z]
  | _ => pfx = [35%Z; 114%Z] \/ pfx = [35%Z; 82%Z]
  end.

Lemma opening k q pfx : (k = escaped_kind \/ k = raw_kind) -> 3 <= q -> prefix_of k pfx ->
  qrun S_start (Counts 0 0 0 0) (pfx ++ replicate q 34%Z) = Some (k_start k, K (q - 1) 0).
Proof.
  intros Hk Hq Hp. destruct q as [|[|[|q]]]; [lia..|].
  assert (forall j i, 2 <= i -> qrun (k_start k) (K i 0) (replicate j 34%Z) = Some (k_start k, K (i + j) 0)) as H.
  { destruct (quote_step k Hk) as (H1 & _). induction j as [|j IH]; intros i Hi; cbn [replicate qrun]; [by rewrite Nat.add_0_r|].
    replace (K i 0) with (K (S i - 1) 0) by (f_equal; lia). rewrite start_action_multi, H1 by (done || lia).
    replace (i + S j) with (S i + j) by lia. rewrite <- IH by lia. done. }
  assert (qrun S_start (Counts 0 0 0 0) (pfx ++ replicate 3 34%Z) = Some (k_start k, K 2 0)) as H3.
  { destruct Hk as [-> | ->]; cbn [prefix_of k_start escaped_kind raw_kind] in *; destruct Hp as [-> | ->]; vm_compute; reflexivity. }
  change (S (S (S q))) with (3 + q). rewrite replicate_add, app_assoc, qrun_app, H3, H by lia. reflexivity.
Qed.

(** ** The contents *)

Local Open Scope Z_scope.
Definition is_raw (k : kind) : bool := match k_start k with S_multi_string_start => false | _ => true end.

Lemma char_printable k s c : (k = escaped_kind \/ k = raw_kind) -> k_char k s c -> Forall (fun c => is_printable c = true) s.
Proof.
  intros [-> | ->]; cbn [k_char escaped_kind raw_kind]; [apply denotes_char_printable|]. intros (-> & H & _). by repeat constructor.
Qed.
Lemma line_printable k q n src content : (k = escaped_kind \/ k = raw_kind) -> quoted_line q (k_char k) n src content -> Forall (fun c => is_printable c = true) src.
Proof.
  intros Hk. induction 1; [done| |by constructor]. apply Forall_app. split; [by eapply char_printable | done].
Qed.
Lemma spaces_printable k : Forall (fun c => is_printable c = true) (replicate k 32).
Proof. apply Forall_replicate. done. Qed.
Lemma indented_printable k q w line content : (k = escaped_kind \/ k = raw_kind) -> indented q w (k_char k) line content -> Forall (fun c => is_printable c = true) line.
Proof.
  intros Hk [src c H|j Hj]; [|apply spaces_printable]. apply Forall_app. split; [apply spaces_printable | by eapply line_printable].
Qed.

Lemma split_lines_break line nl rest part : Forall (fun c => is_printable c = true) line -> line_break nl -> (nl = [13] -> head rest <> Some 10) ->
  split_lines (line ++ nl ++ rest) part = (do ps <- split_lines rest [] ; Val ((part ++ line) :: ps)).
Proof.
  intros H Hnl Hr. revert part. induction line as [|c line IH]; intros part.
  - rewrite app_nil_r. destruct Hnl as [-> | [-> | ->]]; cbn [app]; [reflexivity | | reflexivity]. cbn [split_lines].
    change (13 =? 10) with false. change (13 =? 13) with true. cbv iota. destruct rest as [|c rest]; [reflexivity|].
    specialize (Hr eq_refl). destruct (decide (c = 10)) as [->|Hc]; [done|]. destruct c as [|p|p]; try reflexivity. do 4 (destruct p as [p|p|]; try reflexivity). by destruct Hc.
  - apply Forall_cons in H as [Hc H]. unfold is_printable in Hc. cbn [app split_lines].
    replace (c =? 10) with false by lia. replace (c =? 13) with false by lia. replace (c =? 9) with false by lia. rewrite IH by done. by rewrite <- app_assoc.
Qed.

Lemma lines_of q w char nl src contents : indented_lines q w char nl src contents ->
  exists lines, Forall2 (indented q w char) lines contents /\ src = concat (map (fun l => l ++ nl) lines).
Proof.
  induction 1 as [|line content src contents H1 H2 (lines & H3 & ->)]; [by exists []|]. exists (line :: lines). split; [by constructor|]. cbn. by rewrite <- app_assoc.
Qed.

Lemma head_lines nl lines pre : Forall (Forall (fun c => is_printable c = true)) lines -> Forall (fun c => is_printable c = true) pre ->
  nl = [13] -> head (concat (map (fun l => l ++ nl) lines) ++ pre) <> Some 10.
Proof.
  intros Hl Hp ->. destruct lines as [|[|c line] lines]; cbn.
  - destruct pre as [|c pre]; cbn; [done|]. apply Forall_cons in Hp as [Hc _]. intros [= ->]. discriminate.
  - discriminate.
  - apply Forall_cons in Hl as [Hl _]. apply Forall_cons in Hl as [Hc _]. intros [= ->]. discriminate.
Qed.

Lemma split_lines_lines nl lines pre : line_break nl -> Forall (Forall (fun c => is_printable c = true)) lines -> Forall (fun c => is_printable c = true) pre ->
  split_lines (concat (map (fun l => l ++ nl) lines) ++ pre) [] = Val (lines ++ [pre]).
Proof.
  intros Hnl Hl Hp. induction lines as [|l lines IH]; cbn [map concat app]; [by rewrite split_lines_printable|].
  pose proof Hl as Hl'. apply Forall_cons in Hl' as [Hl1 Hl2]. rewrite <- !app_assoc.
  rewrite split_lines_break by (auto; intros; by apply head_lines). rewrite IH by done. reflexivity.
Qed.

Lemma process_escapes_line r line finish q : range_codes r -> forall n src content, quoted_line q (denotes_char 34) n src content -> forall fuel pos new,
  drop pos line = src -> (length line <= finish)%nat -> (pos <= length line)%nat -> (length src < fuel)%nat ->
  process_escapes r fuel line finish pos false new = Val (new ++ content).
Proof.
  intros Hr. induction 1 as [n|n s c src content Hc H IH|n src content Hlt H IH]; intros fuel pos new Hd Hfin Hp Hf; (destruct fuel as [|fuel]; [lia|]).
  - cbn. assert (line !! pos = None) as ->. { apply lookup_ge_None. apply (f_equal length) in Hd. rewrite drop_length in Hd. cbn in Hd. lia. } by rewrite app_nil_r.
  - rewrite app_length in Hf. destruct Hc as [x H1 H2 H3|e x Hin|ds Hne Hds Hle].
    + cbn in Hd, Hf. destruct (drop_cons_lookup _ _ _ _ Hd) as (Hl & Hd' & Hlt). cbn. rewrite Hl. replace (x =? 92) with false by lia.
      rewrite Nat.add_1_r, IH by (first [done | lia]). by rewrite <- app_assoc.
    + cbn in Hd, Hf. destruct (drop_cons_lookup _ _ _ _ Hd) as (Hl & Hd' & Hlt). destruct (drop_cons_lookup _ _ _ _ Hd') as (Hl' & Hd'' & Hlt').
      cbn. rewrite Hl. cbn. destruct fuel as [|fuel]; [lia|]. cbn. rewrite Nat.add_1_r, Hl', (escape_not_less e x Hin), (escape_value e x Hin). cbn.
      rewrite Nat.add_1_r, IH by (first [done | lia]). by rewrite <- app_assoc.
    + cbn in Hd, Hf. rewrite app_length in Hf. cbn in Hf. rewrite <- app_assoc in Hd. cbn in Hd.
      destruct (drop_cons_lookup _ _ _ _ Hd) as (Hl & Hd' & Hlt). destruct (drop_cons_lookup _ _ _ _ Hd') as (Hl' & Hd'' & Hlt').
      cbn. rewrite Hl. cbn. destruct fuel as [|fuel]; [lia|]. cbn. rewrite Nat.add_1_r, Hl'. cbn. rewrite Nat.add_1_r.
      assert (length line = S (S pos) + (length ds + S (length src)))%nat as Hlen.
      { apply (f_equal length) in Hd''. rewrite drop_length, app_length in Hd''. cbn in Hd''. lia. }
      unfold parse_hex_escape. rewrite (parse_hex_integer r line finish (S (S pos)) ds src Hr Hne Hds Hle Hd'' ltac:(lia)). cbn [obind].
      assert (drop (S (S pos) + length ds) line = 62 :: src) as Hd3 by (rewrite <- drop_drop, Hd'', drop_app; reflexivity).
      destruct (drop_cons_lookup _ _ _ _ Hd3) as (-> & Hd4 & _). replace (255 <? number 16 ds) with false by lia. cbn [obind].
      rewrite Nat.add_1_r, IH by (first [done | lia]). by rewrite <- app_assoc.
  - cbn in Hf. destruct (drop_cons_lookup _ _ _ _ Hd) as (Hl & Hd' & Hlt'). cbn. rewrite Hl. cbn.
    rewrite Nat.add_1_r, IH by (first [done | lia]). by rewrite <- app_assoc.
Qed.

Lemma line_verbatim q n src content : quoted_line q (denotes_char 34) n src content -> existsb (Z.eqb 92) src = false -> content = src.
Proof.
  induction 1 as [n|n s c src content Hc H IH|n src content Hlt H IH]; intros He; [done| |by rewrite (IH He)].
  rewrite existsb_app in He. apply orb_false_iff in He as [He1 He2]. rewrite (IH He2). destruct Hc; [done | cbn in He1; discriminate..].
Qed.
Lemma line_raw q n src content : quoted_line q raw_char n src content -> content = src.
Proof. induction 1 as [n|n s c src content Hc H IH|n src content Hlt H IH]; [done| |by rewrite IH]. destruct Hc as (-> & _). cbn. by rewrite IH. Qed.

Definition unescape (r : int_range) (escapes : bool) (finish : nat) (line : list Z) : outcome (list Z) :=
  if escapes && existsb (Z.eqb 92) line then process_escapes r (S (length line)) line finish 0 false [] else Val line.

Lemma unescape_line k r q n src content finish : (k = escaped_kind \/ k = raw_kind) -> (k = escaped_kind -> range_codes r) ->
  quoted_line q (k_char k) n src content -> (length src <= finish)%nat -> unescape r (negb (is_raw k)) finish src = Val content.
Proof.
  intros Hk Hr H Hf. unfold unescape. destruct Hk as [-> | ->]; cbn [is_raw k_start escaped_kind raw_kind negb andb k_char] in *.
  - destruct (existsb (Z.eqb 92) src) eqn:Ee; [|by rewrite (line_verbatim _ _ _ _ H Ee)].
    apply (process_escapes_line r src finish q (Hr eq_refl) n src content H _ 0 []); auto. lia.
  - by rewrite (line_raw _ _ _ _ H).
Qed.

Lemma every_eq_replicate j k src : every_eq (replicate j 32 ++ src) (replicate k 32) = true \/ (j < k)%nat.
Proof.
  revert k. induction j as [|j IH]; intros [|k]; cbn; auto; [left; by destruct src | right; lia|]. destruct (IH k) as [H|H]; [left; exact H | right; lia].
Qed.
Lemma every_eq_short j k : every_eq (replicate j 32) (replicate k 32) = true.
Proof. revert k. induction j as [|j IH]; intros [|k]; cbn; auto. Qed.

Lemma process_indented k r q w line content finish : (k = escaped_kind \/ k = raw_kind) -> (k = escaped_kind -> range_codes r) ->
  indented q w (k_char k) line content -> (length line <= finish)%nat ->
  process_line r (negb (is_raw k)) finish (Some (replicate w 32)) line = Val content.
Proof.
  intros Hk Hr H Hf. unfold process_line. destruct H as [src content H|j Hj].
  - rewrite app_length in Hf. pose proof (unescape_line k r q 0 src content finish Hk Hr H ltac:(lia)) as E. unfold unescape in E.
    destruct w as [|w].
    + cbn [replicate app]. destruct src as [|c src]; [|exact E]. inversion H as [|? s c ? ? Hc ? Hs|]; subst; [done|]. exfalso.
      destruct s; [|discriminate]. destruct Hk as [-> | ->]; [by apply denotes_char_nonempty in Hc | by destruct Hc].
    + cbn [replicate app]. unfold remove_prefix. change (32 :: replicate w 32 ++ src) with (replicate (S w) 32 ++ src). change (32 :: replicate w 32) with (replicate (S w) 32).
      destruct (every_eq_replicate (S w) (S w) src) as [-> | ?]; [|lia]. cbn [obind]. rewrite drop_app_alt by done. exact E.
  - destruct j as [|j]; [done|]. cbn [replicate]. destruct w as [|w]; [lia|]. cbn [replicate]. unfold remove_prefix.
    change (32 :: replicate j 32) with (replicate (S j) 32). change (32 :: replicate w 32) with (replicate (S w) 32).
    rewrite every_eq_short. cbn [obind]. rewrite drop_ge by (rewrite !replicate_length; lia). cbn. by rewrite andb_false_r.
Qed.

Lemma process_lines_ok k r q w lines contents finish : (k = escaped_kind \/ k = raw_kind) -> (k = escaped_kind -> range_codes r) ->
  Forall2 (indented q w (k_char k)) lines contents -> Forall (fun l => (length l <= finish)%nat) lines ->
  process_lines r (negb (is_raw k)) finish (replicate w 32) lines = Val contents.
Proof.
  intros Hk Hr. induction 1 as [|l c ls cs H1 H2 IH]; intros Hf; [done|]. apply Forall_cons in Hf as [Hf1 Hf2]. cbn.
  rewrite (process_indented k r q w l c finish Hk Hr H1 Hf1). cbn. by rewrite (IH Hf2).
Qed.

Lemma join_lines_spec l : join_lines l = with_newlines l.
Proof. induction l as [|x [|y l] IH]; [done..|]. cbn [join_lines with_newlines] in *. by rewrite IH. Qed.

Lemma spaces_all w : forallb (Z.eqb 32) (replicate w 32) = true.
Proof. induction w; [done|]. exact IHw. Qed.

Lemma decode_multi k r contents finish bpos epos q w w0 nl src cs : (k = escaped_kind \/ k = raw_kind) -> (k = escaped_kind -> range_codes r) ->
  line_break nl -> indented_lines q w (k_char k) nl src cs -> cs <> [] ->
  take (epos - bpos) (drop bpos contents) = replicate w0 32 ++ nl ++ src ++ replicate w 32 -> (length src <= finish)%nat ->
  decode_string r contents finish bpos epos (negb (is_raw k)) = Val (with_newlines cs).
Proof.
  intros Hk Hr Hnl Hl Hne Ht Hf. destruct (lines_of _ _ _ _ _ _ Hl) as (lines & H2 & ->). unfold decode_string. rewrite Ht.
  assert (Forall (Forall (fun c => is_printable c = true)) lines) as Hp.
  { clear -H2 Hk. induction H2; constructor; auto. by eapply indented_printable. }
  rewrite split_lines_break by (auto using spaces_printable; intros; apply head_lines; auto using spaces_printable).
  rewrite split_lines_lines by auto using spaces_printable. cbn [obind app].
  destruct lines as [|l lines]; [by inversion H2; subst|].
  assert (exists x y rest, (l :: lines) ++ [replicate w 32] = x :: y :: rest) as (x & y & rest & E) by (destruct lines; cbn; eauto).
  rewrite E. rewrite <- E. rewrite last_last, removelast_last, !spaces_all. cbn [negb].
  rewrite (process_lines_ok k r q w _ cs finish Hk Hr H2).
  - cbn [obind]. by rewrite join_lines_spec.
  - clear -Hf. induction (l :: lines) as [|x xs IH]; constructor; cbn in Hf; rewrite !app_length in Hf; [lia | apply IH; lia].
Qed.

Lemma decode_single k r contents finish bpos epos q src content : (k = escaped_kind \/ k = raw_kind) -> (k = escaped_kind -> range_codes r) ->
  quoted_line q (k_char k) 0 src content -> src <> [] ->
  take (epos - bpos) (drop bpos contents) = src -> (length src <= finish)%nat ->
  decode_string r contents finish bpos epos (negb (is_raw k)) = Val content.
Proof.
  intros Hk Hr H Hne Ht Hf. unfold decode_string. rewrite Ht, split_lines_printable by (by eapply line_printable). cbn [obind app].
  unfold process_line. destruct src as [|x src]; [done|]. cbn [obind]. by apply (unescape_line k r q 0).
Qed.
