(** Proofs about format control strings. *)
From Coq Require Import ZifyBool ZifyNat ZifyN Lia.
From Verif Require Import Base IntModel IntProofs NumStrModel NumStrSpec NumStrProofs FmtModel FmtSpec.
Local Open Scope Z_scope.
Local Open Scope outcome_scope.

(** *** Integers *)
Lemma number_characters_upper i c : integer_to_character i = Val c -> ~ (97 <= c <= 122).
Proof.
  unfold integer_to_character. destruct (bool_decide _); [|done].
  assert (H : Forall (fun c => ~ (97 <= c <= 122)) number_characters).
  { apply List.Forall_forall. intros x Hx.
    assert (Hb : forallb (fun c => negb ((97 <=? c) && (c <=? 122))) number_characters = true) by (vm_compute; reflexivity).
    rewrite forallb_forall in Hb. specialize (Hb x Hx). lia. }
  destruct (number_characters !! Z.to_nat i) eqn:E; intros Hc; simplify_eq.
  exact (Forall_lookup_1 _ _ _ _ H E).
Qed.

Lemma format_repeat_spec radix fuel : 2 <= radix <= 36 -> forall n digits,
  0 <= n < 2 ^ Z.of_nat fuel -> (0 < fuel)%nat ->
  exists ds, format_repeat fuel n radix digits = Val (ds ++ digits) /\ numeral radix ds n /\
    (n = 0 -> ds = [48]) /\ (n <> 0 -> exists c ds', ds = c :: ds' /\ c <> 48) /\ Forall (fun c => ~ (97 <= c <= 122)) ds.
Proof.
  intros Hb. induction fuel as [|fuel IH]; intros n digits Hn Hf; [lia|]. cbn [format_repeat].
  pose proof (Z.mod_pos_bound n radix ltac:(lia)) as Hm. pose proof (Z.div_mod n radix ltac:(lia)) as E.
  destruct (number_characters_digit (n mod radix)) as (c & Hch & Hc & Hc0); [lia|]. rewrite Hch. cbn [obind].
  pose proof (number_characters_upper _ _ Hch) as Hu.
  destruct (n / radix =? 0) eqn:Hz.
  - exists [c]. split; [done|]. assert (n = n mod radix) as En by nia. split; [|split; [|split]].
    + rewrite En. change (numeral radix ([] ++ [c]) (0 * radix + n mod radix)).
      constructor; [constructor|done|lia].
    + intros ->. rewrite Zmod_0_l in Hc0. by rewrite (proj2 Hc0 eq_refl).
    + intros Hne. exists c, []. split; [done|]. rewrite Hc0. lia.
    + by repeat constructor.
  - assert (Hq : 0 <= n / radix < 2 ^ Z.of_nat fuel).
    { split; [apply Z.div_pos; lia|]. apply Z.div_lt_upper_bound; [lia|].
      replace (Z.of_nat (S fuel)) with (Z.of_nat fuel + 1) in Hn by lia. rewrite Z.pow_add_r in Hn by lia. nia. }
    assert ((0 < fuel)%nat) as Hf'. { destruct fuel; [|lia]. change (2 ^ Z.of_nat 0) with 1 in Hq. lia. }
    destruct (IH (n / radix) (c :: digits) Hq Hf') as (ds & -> & Hds & H0 & H1 & H2).
    exists (ds ++ [c]). rewrite <- app_assoc. split; [done|]. split; [|split; [|split]].
    + pose proof (numeral_snoc radix ds (n / radix) c (n mod radix) Hds Hc ltac:(lia)) as Hns.
      by replace (n / radix * radix + n mod radix) with n in Hns by lia.
    + intros ->. rewrite Zdiv_0_l in Hz. lia.
    + intros _. destruct H1 as (c' & ds' & -> & Hne); [lia|]. by exists c', (ds' ++ [c]).
    + rewrite Forall_app. split; [done|]. by repeat constructor.
Qed.

Lemma lower_case ds (lower : bool) : Forall (fun c => ~ (97 <= c <= 122)) ds ->
  Forall (fun c => if lower then ~ (65 <= c <= 90) else ~ (97 <= c <= 122)) (map (body lower) ds).
Proof.
  induction 1 as [|c ds Hc _ IH]; cbn [map]; constructor; [|done].
  unfold body, char_lower. destruct lower; [|done]. case_bool_decide; lia.
Qed.

Lemma numeral_body radix lower ds v : numeral radix ds v -> numeral radix (map (body lower) ds) v.
Proof. intros H. unfold body. destruct lower; [by apply numeral_lower|by rewrite map_id]. Qed.
Lemma body_nonzero lower c : c <> 48 -> body lower c <> 48.
Proof. intros Hc. unfold body, char_lower. destruct lower; [|done]. case_bool_decide; lia. Qed.

Lemma format_integer_spec z radix lower : fits z -> 2 <= radix <= 36 ->
  exists text, format_integer z radix lower = Val text /\ numeral_text radix lower z text.
Proof.
  intros Hz Hb. unfold fits in Hz. unfold format_integer.
  change (fun d => if lower then char_lower d else d) with (body lower).
  destruct (z <? 0) eqn:Hneg.
  - assert (Hr : 0 <= - Z.rem z radix < radix).
    { rewrite <- Z.rem_opp_l by lia. apply Z.rem_bound_pos; lia. }
    assert (Hq : 0 <= - Z.quot z radix /\ - Z.quot z radix * radix + - Z.rem z radix = - z).
    { pose proof (Z.quot_rem z radix ltac:(lia)).
      assert (Eq : - Z.quot z radix = Z.quot (- z) radix) by (rewrite Z.quot_opp_l; lia).
      rewrite Eq. split; [apply Z.quot_pos; lia|]. rewrite <- Eq. lia. }
    assert (Hqf : fits (- Z.quot z radix)). { unfold fits. nia. }
    rewrite (int_result_ok _ Hqf). cbn [obind].
    destruct (number_characters_digit (- Z.rem z radix)) as (c & Hch & Hc & Hc0); [lia|]. rewrite Hch. cbn [obind].
    pose proof (number_characters_upper _ _ Hch) as Hu.
    destruct (Z.quot z radix =? 0) eqn:H0.
    + eexists. split; [reflexivity|]. exists (map (body lower) [c]). rewrite bool_decide_true by lia.
      split; [done|]. split; [|split; [lia|split]].
      * apply numeral_body. replace (Z.abs z) with (0 * radix + - Z.rem z radix) by lia.
        apply (numeral_snoc radix []); [constructor|done|lia].
      * intros _. exists (body lower c), []. split; [done|]. apply body_nonzero. rewrite Hc0. lia.
      * apply lower_case. by repeat constructor.
    + destruct (format_repeat_spec radix 64 Hb (- Z.quot z radix) [c]) as (ds & -> & Hds & _ & Hnz & Hup); [|lia|].
      { split; [lia|]. unfold fits in Hqf. change (Z.of_nat 64) with 64. lia. }
      cbn [obind]. eexists. split; [reflexivity|]. exists (map (body lower) (ds ++ [c])). rewrite bool_decide_true by lia.
      split; [done|]. split; [|split; [lia|split]].
      * apply numeral_body. replace (Z.abs z) with (- Z.quot z radix * radix + - Z.rem z radix) by lia.
        constructor; [done|done|lia].
      * intros _. destruct Hnz as (c' & ds' & -> & Hne); [lia|].
        exists (body lower c'), (map (body lower) (ds' ++ [c])). split; [done|by apply body_nonzero].
      * apply lower_case. rewrite Forall_app. split; [done|]. by repeat constructor.
  - destruct (format_repeat_spec radix 64 Hb z []) as (ds & -> & Hds & H0 & Hnz & Hup); [|lia|].
    { split; [lia|]. change (Z.of_nat 64) with 64. lia. }
    cbn [obind]. rewrite app_nil_r. eexists. split; [reflexivity|]. exists (map (body lower) ds).
    rewrite bool_decide_false by lia. split; [done|]. split; [|split; [|split]].
    + apply numeral_body. by rewrite Z.abs_eq by lia.
    + intros Hz0. rewrite (H0 Hz0). unfold body, char_lower. cbn [map]. destruct lower; [|done]. by rewrite bool_decide_false by lia.
    + intros Hne. destruct (Hnz Hne) as (c' & ds' & -> & Hne'). exists (body lower c'), (map (body lower) ds').
      split; [done|by apply body_nonzero].
    + by apply lower_case.
Qed.

(** *** Directives *)
Lemma known_cases d : known d ->
  In d message_directives \/ d = 61 \/ In d (map fst integer_directives) \/ d = 109 \/ d = 77.
Proof. done. Qed.

Lemma dispatch_spec p d a : known d -> accepts d a ->
  exists text, do_dispatch p d a = Val (text, true) /\ renders p d a text.
Proof.
  intros Hk Ha. unfold accepts in Ha. destruct Ha as [Hm|[->|[[Hi (z & -> & Hz)]|[[Hd (n & ->)]|[Hd (t & ->)]]]]].
  - exists (print_message p a). split.
    + unfold do_dispatch. cbn in Hm. by repeat (destruct Hm as [<-|Hm]; [done|]).
    + destruct a; cbn [print_message]; try (by apply R_message); by constructor.
  - exists (pr_escaped p a). split; [done|constructor].
  - assert (Hint : exists base lower, In (d, (base, lower)) integer_directives /\ 2 <= base <= 36 /\
      do_dispatch p d (AInt z) = (do s <- format_integer z base lower ; Val (s, true))).
    { cbn in Hi. destruct Hi as [<-|[<-|[<-|[<-|[<-|[<-|[<-|[<-|[]]]]]]]]];
        do 2 eexists; (split; [cbn; tauto|]); (split; [|reflexivity]); lia. }
    destruct Hint as (base & lower & Hin & Hb & ->).
    destruct (format_integer_spec z base lower Hz Hb) as (text & -> & Ht). exists text. split; [done|].
    by eapply R_integer.
  - eexists. split; [by destruct Hd as [->| ->]|]. by constructor.
  - eexists. split; [by destruct Hd as [->| ->]|]. by constructor.
Qed.

(** *** Fields *)
Lemma parse_loop_spec s : forall ds pre suf r n,
  s = pre ++ ds ++ suf -> Forall (fun c => 48 <= c <= 57) ds ->
  (forall c suf', suf = c :: suf' -> class_digit c = false) ->
  0 <= r -> fits (fold_left (fun v c => v * 10 + (c - 48)) ds r) ->
  n = (length ds + length suf)%nat ->
  parse_loop n s (length pre) r = Val (fold_left (fun v c => v * 10 + (c - 48)) ds r, (length pre + length ds)%nat).
Proof.
  assert (Hmono : forall ds r, Forall (fun c => 48 <= c <= 57) ds -> 0 <= r -> r <= fold_left (fun v c => v * 10 + (c - 48)) ds r).
  { induction ds as [|c ds IH]; intros r H Hr; cbn [fold_left]; [lia|]. apply Forall_cons in H as [Hc H].
    specialize (IH (r * 10 + (c - 48)) H ltac:(lia)). lia. }
  induction ds as [|c ds IH]; intros pre suf r n Hs HF Hsuf Hr Hfit ->; cbn [length fold_left].
  - destruct suf as [|c suf]; cbn [length Nat.add parse_loop]; [by rewrite Nat.add_0_r|].
    unfold char_at. rewrite Hs. cbn [app]. rewrite lookup_app_r, Nat.sub_diag by lia. cbn. rewrite (Hsuf c suf eq_refl).
    by rewrite Nat.add_0_r.
  - cbn [Nat.add parse_loop]. unfold char_at at 1. rewrite Hs at 1. cbn [app]. rewrite lookup_app_r, Nat.sub_diag by lia.
    cbn [lookup list_lookup obind]. apply Forall_cons in HF as [Hc HF].
    assert (class_digit c = true) as -> by (unfold class_digit; lia).
    cbn [fold_left] in Hfit. pose proof (Hmono ds (r * 10 + (c - 48)) HF ltac:(lia)) as Hm. unfold fits in Hfit.
    rewrite int_result_ok by (unfold fits; lia). cbn [obind]. rewrite int_result_ok by (unfold fits; lia). cbn [obind].
    replace (length pre + 1)%nat with (length (pre ++ [c])) by (rewrite app_length; done).
    rewrite (IH (pre ++ [c]) suf).
    + rewrite app_length. cbn [length]. do 2 f_equal. lia.
    + by rewrite Hs, <- app_assoc.
    + done.
    + done.
    + lia.
    + done.
    + done.
Qed.

Lemma width_nonempty f : 0 < width f -> exists c ds, width_digits f = c :: ds.
Proof. unfold width. destruct (width_digits f); cbn; [lia|eauto]. Qed.

Lemma parse_integer_gen f pre suf : field_ok (Some f) -> (forall c suf', suf = c :: suf' -> class_digit c = false) ->
  let s := pre ++ spell_field (Some f) ++ suf in
  parse_integer s (length pre) =
    Val (Some (if flush_left f then - width f else width f), (length pre + length (spell_field (Some f)))%nat).
Proof.
  intros (HF & Hpos & Hfit) Hsuf s. unfold parse_integer.
  destruct (width_nonempty f Hpos) as (c & ds & Ew).
  assert (Hc : 48 <= c <= 57). { rewrite Ew in HF. by apply Forall_cons in HF as [? _]. }
  destruct (flush_left f) eqn:El.
  - assert (Hs : s = (pre ++ [45]) ++ width_digits f ++ suf).
    { unfold s, spell_field. rewrite El. by rewrite <- !app_assoc. }
    unfold char_at at 1. rewrite Hs at 1. rewrite <- app_assoc, lookup_app_r, Nat.sub_diag by lia.
    cbn [lookup list_lookup app obind]. change (45 =? 45) with true. cbv iota beta.
    replace (length pre + 1)%nat with (length (pre ++ [45])) by (by rewrite app_length).
    rewrite (parse_loop_spec s (width_digits f) (pre ++ [45]) suf 0); [|done|done|done|lia|done|].
    2: { rewrite Hs, !app_length. lia. }
    change (fold_left _ (width_digits f) 0) with (width f). cbn [obind].
    destruct (width f =? 0) eqn:E0; [lia|]. do 2 f_equal. unfold spell_field. rewrite El, !app_length. lia.
  - assert (Hs : s = pre ++ width_digits f ++ suf).
    { unfold s, spell_field. by rewrite El. }
    unfold char_at at 1. rewrite Hs at 1. rewrite lookup_app_r, Nat.sub_diag by lia. rewrite Ew at 1.
    cbn [lookup list_lookup app obind]. assert (c =? 45 = false) as -> by lia. cbv iota beta.
    rewrite (parse_loop_spec s (width_digits f) pre suf 0); [|done|done|done|lia|done|].
    2: { rewrite Hs, !app_length. lia. }
    change (fold_left _ (width_digits f) 0) with (width f). cbn [obind].
    destruct (width f =? 0) eqn:E0; [lia|]. do 2 f_equal. unfold spell_field. by rewrite El.
Qed.

Lemma padded_spec f text : 0 < width f ->
  padded (if flush_left f then - width f else width f) text = justified (Some f) text.
Proof.
  intros Hpos. unfold padded, justified.
  assert (Z.abs (if flush_left f then - width f else width f) = width f) as -> by (destruct (flush_left f); lia).
  destruct (width f - Z.of_nat (length text) <? 0) eqn:Hneg.
  - replace (Z.to_nat (width f - Z.of_nat (length text))) with 0%nat by lia. cbn [replicate].
    rewrite app_nil_r. by destruct (flush_left f).
  - destruct (flush_left f).
    + assert (0 <? - width f = false) as -> by lia. done.
    + assert (0 <? width f = true) as -> by lia. done.
Qed.

(** *** The loop *)
Lemma skip_text_spec s pre : forall txt suf n,
  s = pre ++ txt ++ suf -> Forall (fun c => c <> 37 /\ c <> 10) txt ->
  (forall c suf', suf = c :: suf' -> c = 37 \/ c = 10) ->
  n = (length txt + length suf)%nat ->
  skip_text n s (length pre) = (length pre + length txt)%nat.
Proof.
  intros txt. revert pre. induction txt as [|c txt IH]; intros pre suf n Hs HF Hsuf ->; cbn [length].
  - destruct suf as [|c suf]; cbn [length Nat.add skip_text]; [lia|].
    rewrite Hs. cbn [app]. rewrite lookup_app_r, Nat.sub_diag by lia. cbn [lookup list_lookup].
    destruct (Hsuf c suf eq_refl) as [-> | ->]; cbn; lia.
  - cbn [Nat.add skip_text]. rewrite Hs at 1. cbn [app]. rewrite lookup_app_r, Nat.sub_diag by lia. cbn [lookup list_lookup].
    apply Forall_cons in HF as [Hc HF]. assert ((c =? 37) || (c =? 10) = false) as -> by lia.
    replace (length pre + 1)%nat with (length (pre ++ [c])) by (rewrite app_length; done).
    rewrite (IH (pre ++ [c]) suf).
    + rewrite app_length. cbn [length]. lia.
    + by rewrite Hs, <- app_assoc.
    + done.
    + done.
    + done.
Qed.

(** Longest prefix of plain text. *)
Lemma text_prefix (s : list Z) : exists txt suf, s = txt ++ suf /\ Forall (fun c => c <> 37 /\ c <> 10) txt /\
  (forall c suf', suf = c :: suf' -> c = 37 \/ c = 10).
Proof.
  induction s as [|c s (txt & suf & -> & HF & Hs)]; [by exists [], []|].
  destruct (decide (c = 37 \/ c = 10)) as [Hc|Hc].
  - exists [], (c :: txt ++ suf). split; [done|]. split; [constructor|]. intros ?? [= <- _]. done.
  - exists (c :: txt), suf. split; [done|]. split; [|done]. constructor; [lia|done].
Qed.

(** One turn of the loop: a stretch of text and then the end, a newline or a directive. *)
Definition turn p fuel s args arg_i out (i : nat) : outcome (list Z) :=
  if (i =? length s)%nat then Val out
  else
    let start := (i + 1)%nat in
    do d <- char_at s (start - 1) ;
    if d =? 10 then format_loop p fuel s args start arg_i (out ++ [10])
    else
      do c <- char_at s start ;
      do ' (field, field_spec_end) <- (if class_digit c then parse_integer s start else Val (None, start)) ;
      match field with
      | Some field =>
          do c <- char_at s field_spec_end ;
          do ' (output, consumed) <- do_dispatch p c (arg_at args arg_i) ;
          format_loop p fuel s args (field_spec_end + 1) (if consumed : bool then arg_i + 1 else arg_i) (out ++ padded field output)
      | None =>
          do ' (output, consumed) <- do_dispatch p c (arg_at args arg_i) ;
          format_loop p fuel s args (start + 1) (if consumed : bool then arg_i + 1 else arg_i) (out ++ output)
      end.

Lemma loop_turn p fuel pre txt suf args arg_i out :
  Forall (fun c => c <> 37 /\ c <> 10) txt ->
  (forall c suf', suf = c :: suf' -> c = 37 \/ c = 10) ->
  let s := pre ++ txt ++ suf in
  format_loop p (S fuel) s args (length pre) arg_i out = turn p fuel s args arg_i (out ++ txt) (length pre + length txt).
Proof.
  intros HF Hsuf s. cbn [format_loop].
  assert (Elen : length s = (length pre + (length txt + length suf))%nat) by (unfold s; rewrite !app_length; done).
  destruct (length pre <? length s)%nat eqn:Hlt.
  - rewrite (skip_text_spec s pre txt suf); [|done|done|done|lia].
    replace (length pre + length txt - length pre)%nat with (length txt) by lia.
    assert (take (length txt) (drop (length pre) s) = txt) as -> by (unfold s; by rewrite drop_app, take_app). done.
  - assert (txt = [] /\ suf = []) as [-> ->] by (destruct txt, suf; cbn in Elen; [done|lia..]).
    unfold turn. cbn [length]. rewrite Nat.add_0_r, app_nil_r. cbn in Elen.
    destruct (length pre =? length s)%nat eqn:E; [done|lia].
Qed.

(** The loop with the text before the next special character already written. *)
Lemma loop_text p fuel pre c suf args arg_i out : c <> 37 -> c <> 10 ->
  let s := pre ++ c :: suf in
  format_loop p (S fuel) s args (length pre) arg_i out = format_loop p (S fuel) s args (length (pre ++ [c])) arg_i (out ++ [c]).
Proof.
  intros H1 H2 s. destruct (text_prefix suf) as (txt & suf' & -> & HF & Hs).
  unfold s. change (c :: txt ++ suf') with ((c :: txt) ++ suf').
  rewrite loop_turn; [|by constructor|done].
  replace (pre ++ (c :: txt) ++ suf') with ((pre ++ [c]) ++ txt ++ suf') by (rewrite <- !app_assoc; done).
  rewrite loop_turn by done. f_equal; [by rewrite <- app_assoc|]. rewrite app_length. cbn [length]. lia.
Qed.

Lemma at_pre {A} (pre suf : list A) c : (pre ++ c :: suf) !! length pre = Some c.
Proof. by rewrite lookup_app_r, Nat.sub_diag by lia. Qed.

Lemma loop_newline p fuel pre suf args arg_i out :
  let s := pre ++ 10 :: suf in
  format_loop p (S fuel) s args (length pre) arg_i out = format_loop p fuel s args (length (pre ++ [10])) arg_i (out ++ [10]).
Proof.
  intros s. pose proof (loop_turn p fuel pre [] (10 :: suf) args arg_i out) as H. cbn [app length] in H.
  unfold s. rewrite H; [|constructor|intros ?? [= <- <-]; lia]. rewrite Nat.add_0_r, app_nil_r. unfold turn.
  destruct (length pre =? _)%nat eqn:E; [rewrite app_length in E; cbn in E; lia|].
  unfold char_at. replace (length pre + 1 - 1)%nat with (length pre) by lia. rewrite at_pre. cbn [obind].
  change (10 =? 10) with true. cbv iota. by rewrite app_length.
Qed.

Lemma known_class d : known d \/ d = 37 -> class_digit d = false.
Proof.
  intros [[H|[->|[H|[->| ->]]]]| ->]; try done; cbn in H;
    repeat (destruct H as [<-|H]; [done|]); done.
Qed.

Lemma loop_directive p fuel pre f d suf args arg_i out text (consumed : bool) :
  field_ok f -> class_digit d = false -> do_dispatch p d (arg_at args arg_i) = Val (text, consumed) ->
  let s := pre ++ (37 :: spell_field f ++ [d]) ++ suf in
  format_loop p (S fuel) s args (length pre) arg_i out =
  format_loop p fuel s args (length (pre ++ 37 :: spell_field f ++ [d])) (if consumed then arg_i + 1 else arg_i) (out ++ justified f text).
Proof.
  intros Hf Hd Hdisp s. pose proof (loop_turn p fuel pre [] (37 :: (spell_field f ++ [d]) ++ suf) args arg_i out) as H. cbn [app length] in H.
  unfold s. cbn [app]. rewrite H; [|constructor|intros ?? [= <- <-]; lia]. rewrite Nat.add_0_r, app_nil_r. unfold turn.
  destruct (length pre =? _)%nat eqn:E; [rewrite app_length in E; cbn in E; lia|]. clear H E.
  unfold char_at at 1. replace (length pre + 1 - 1)%nat with (length pre) by lia. rewrite at_pre. cbn [obind].
  change (37 =? 10) with false. cbv iota.
  replace (pre ++ 37 :: (spell_field f ++ [d]) ++ suf) with ((pre ++ [37]) ++ spell_field f ++ d :: suf)
    by (rewrite <- !app_assoc; done).
  replace (length pre + 1)%nat with (length (pre ++ [37])) by (rewrite app_length; done).
  destruct f as [f|].
  - destruct (width_nonempty f (proj1 (proj2 Hf))) as (c & ds & Ew).
    assert (exists c0 rest, spell_field (Some f) = c0 :: rest /\ class_digit c0 = true) as (c0 & rest & Ec & Hc0).
    { unfold spell_field. rewrite Ew. destruct (flush_left f); cbn [app]; do 2 eexists; (split; [reflexivity|]); [done|].
      destruct Hf as [HF _]. rewrite Ew in HF. apply Forall_cons in HF as [Hc _]. unfold class_digit. lia. }
    unfold char_at at 1. rewrite Ec at 1. cbn [app]. rewrite at_pre. cbn [obind]. rewrite Hc0.
    rewrite parse_integer_gen; [|done|by intros ?? [= <- <-]]. cbn [obind].
    rewrite <- (app_length (pre ++ [37]) (spell_field (Some f))).
    unfold char_at at 1. rewrite (app_assoc (pre ++ [37])), at_pre. cbn [obind]. rewrite Hdisp. cbn [obind].
    rewrite padded_spec by (apply Hf). f_equal. rewrite !app_length. cbn [length]. rewrite app_length. cbn. lia.
  - cbn [spell_field app]. unfold char_at at 1. rewrite at_pre. cbn [obind]. rewrite Hd. cbn [obind]. rewrite Hdisp. cbn [obind].
    cbn [justified]. f_equal. rewrite !app_length. cbn. lia.
Qed.

Lemma spell_cons q ps : spell (q :: ps) = spell_piece q ++ spell ps.
Proof. done. Qed.

Lemma format_prefix p all : forall ps pre args arg_i out fuel rest,
  Forall piece_ok ps -> suits ps (drop arg_i args) -> all = pre ++ spell ps ++ rest -> (length (spell ps ++ rest) < fuel)%nat ->
  exists text fuel', format_loop p fuel all args (length pre) arg_i out =
      format_loop p fuel' all args (length (pre ++ spell ps)) (arg_i + taken ps) (out ++ text) /\
    outputs p ps (drop arg_i args) text /\ (length rest < fuel')%nat.
Proof.
  induction ps as [|q ps IH]; intros pre args arg_i out fuel rest HF Hs Hall Hfuel.
  - exists [], fuel. rewrite !app_nil_r, Nat.add_0_r. split; [done|]. split; [constructor|done].
  - rewrite spell_cons in Hall, Hfuel. apply Forall_cons in HF as [Hq HF]. rewrite <- app_assoc, app_length in Hfuel.
    assert (Hall' : all = (pre ++ spell_piece q) ++ spell ps ++ rest) by (by rewrite Hall, <- !app_assoc).
    assert (Epos : (pre ++ spell_piece q) ++ spell ps = pre ++ spell (q :: ps)) by (by rewrite spell_cons, <- app_assoc).
    destruct fuel as [|fuel]; [lia|].
    destruct q as [c|f|f d]; cbn [taken].
    + cbn [spell_piece] in *. cbn [piece_ok] in Hq. destruct (decide (c = 10)) as [->|Hc].
      * destruct (IH (pre ++ [10]) args arg_i (out ++ [10]) fuel rest HF Hs Hall' ltac:(cbn in Hfuel; lia)) as (text & fuel' & E & Ho & Hf').
        exists (10 :: text), fuel'. split; [|split; [by constructor|done]].
        pose proof (loop_newline p fuel pre (spell ps ++ rest) args arg_i out) as H. cbv zeta in H.
        change (pre ++ 10 :: spell ps ++ rest) with (pre ++ [10] ++ spell ps ++ rest) in H.
        rewrite (app_assoc pre [10]), <- Hall' in H. rewrite H, E, Epos. by rewrite <- app_assoc.
      * destruct (IH (pre ++ [c]) args arg_i (out ++ [c]) (S fuel) rest HF Hs Hall' ltac:(cbn in Hfuel; lia)) as (text & fuel' & E & Ho & Hf').
        exists (c :: text), fuel'. split; [|split; [by constructor|done]].
        pose proof (loop_text p fuel pre c (spell ps ++ rest) args arg_i out Hq Hc) as H. cbv zeta in H.
        change (pre ++ c :: spell ps ++ rest) with (pre ++ [c] ++ spell ps ++ rest) in H.
        rewrite (app_assoc pre [c]), <- Hall' in H. rewrite H, E, Epos. by rewrite <- app_assoc.
    + cbn [spell_piece] in *. cbn [piece_ok] in Hq.
      pose proof (loop_directive p fuel pre f 37 (spell ps ++ rest) args arg_i out [37] false Hq eq_refl eq_refl) as H. cbv zeta in H.
      rewrite (app_assoc pre), <- Hall' in H. rewrite H. clear H.
      destruct (IH (pre ++ 37 :: spell_field f ++ [37]) args arg_i (out ++ justified f [37]) fuel rest HF Hs Hall' ltac:(cbn in Hfuel; lia)) as (text & fuel' & E & Ho & Hf').
      exists (justified f [37] ++ text), fuel'. split; [|split; [by constructor|done]]. rewrite E, Epos. by rewrite <- app_assoc.
    + cbn [spell_piece] in *. destruct Hq as [Hf Hk]. cbn [suits] in Hs.
      destruct (drop arg_i args) as [|a others] eqn:Ed; [done|]. destruct Hs as [Ha Hs].
      destruct (dispatch_spec p d a Hk Ha) as (text1 & Hdisp & Hr).
      assert (Ea : args !! arg_i = Some a).
      { rewrite <- (Nat.add_0_r arg_i), <- lookup_drop, Ed. done. }
      assert (Er : others = drop (arg_i + 1) args).
      { rewrite <- drop_drop, Ed. done. }
      assert (Hdisp' : do_dispatch p d (arg_at args arg_i) = Val (text1, true)) by (unfold arg_at; by rewrite Ea).
      pose proof (loop_directive p fuel pre f d (spell ps ++ rest) args arg_i out text1 true Hf (known_class d (or_introl Hk)) Hdisp') as H. cbv zeta in H.
      rewrite (app_assoc pre), <- Hall' in H. rewrite H. clear H.
      rewrite Er in Hs.
      destruct (IH (pre ++ 37 :: spell_field f ++ [d]) args (arg_i + 1)%nat (out ++ justified f text1) fuel rest HF Hs Hall' ltac:(cbn in Hfuel; lia)) as (text & fuel' & E & Ho & Hf').
      exists (justified f text1 ++ text), fuel'. split; [|split; [|done]].
      * rewrite E, Epos, <- app_assoc. f_equal. lia.
      * rewrite <- Er in Ho. by constructor.
Qed.

Lemma format_spec p ps args : Forall piece_ok ps -> suits ps args ->
  exists text, format_to_string p (spell ps) args = Val text /\ outputs p ps args text.
Proof.
  intros HF Hs. unfold format_to_string.
  destruct (format_prefix p (spell ps) ps [] args 0 [] (S (length (spell ps))) [] HF Hs) as (text & fuel' & E & Ho & Hf').
  { by rewrite app_nil_r. }
  { rewrite app_nil_r. lia. }
  exists text. split; [|done]. cbn [length app] in E. rewrite E. destruct fuel' as [|fuel']; [cbn in Hf'; lia|]. cbn [format_loop].
  by rewrite Nat.ltb_irrefl.
Qed.

(** A directive that cannot be carried out. *)
Lemma format_reject p ps args f rest :
  Forall piece_ok ps -> suits ps args -> field_ok f ->
  (rest = [] \/ exists d rest' msg, rest = d :: rest' /\ class_digit d = false /\ do_dispatch p d (arg_at args (taken ps)) = Signal msg) ->
  exists msg, format_to_string p (spell ps ++ 37 :: spell_field f ++ rest) args = Signal msg.
Proof.
  intros HF Hs Hf Hrest. unfold format_to_string.
  set (all := spell ps ++ 37 :: spell_field f ++ rest).
  destruct (format_prefix p all ps [] args 0 [] (S (length all)) (37 :: spell_field f ++ rest) HF Hs eq_refl) as (text & fuel' & E & _ & Hf').
  { unfold all. lia. }
  cbn [length app Nat.add] in E. rewrite E. clear E. destruct fuel' as [|fuel']; [cbn in Hf'; lia|].
  pose proof (loop_turn p fuel' (spell ps) [] (37 :: spell_field f ++ rest) args (taken ps) text) as H. cbn [app length] in H.
  unfold all. rewrite H; [|constructor|intros ?? [= <- <-]; lia]. rewrite Nat.add_0_r, app_nil_r. unfold turn.
  destruct (length (spell ps) =? _)%nat eqn:E; [rewrite app_length in E; cbn in E; lia|]. clear H E.
  unfold char_at at 1. replace (length (spell ps) + 1 - 1)%nat with (length (spell ps)) by lia. rewrite at_pre. cbn [obind].
  change (37 =? 10) with false. cbv iota.
  replace (spell ps ++ 37 :: spell_field f ++ rest) with ((spell ps ++ [37]) ++ spell_field f ++ rest)
    by (rewrite <- !app_assoc; done).
  replace (length (spell ps) + 1)%nat with (length (spell ps ++ [37])) by (rewrite app_length; done).
  generalize (spell ps ++ [37]) as pre. intros pre. clear Hf' all.
  destruct f as [f|].
  - destruct (width_nonempty f (proj1 (proj2 Hf))) as (c & ds & Ew).
    assert (exists c0 rest0, spell_field (Some f) = c0 :: rest0 /\ class_digit c0 = true) as (c0 & rest0 & Ec & Hc0).
    { unfold spell_field. rewrite Ew. destruct (flush_left f); cbn [app]; do 2 eexists; (split; [reflexivity|]); [done|].
      destruct Hf as [HFd _]. rewrite Ew in HFd. apply Forall_cons in HFd as [Hc _]. unfold class_digit. lia. }
    assert (char_at (pre ++ spell_field (Some f) ++ rest) (length pre) = Val c0) as ->.
    { unfold char_at. rewrite Ec. cbn [app]. by rewrite at_pre. }
    cbn [obind]. rewrite Hc0.
    assert (Hcl : forall c' suf', rest = c' :: suf' -> class_digit c' = false).
    { intros c' suf' ->. destruct Hrest as [?|(d & rest' & msg & [= <- <-] & Hd & _)]; done. }
    rewrite parse_integer_gen by done. cbn [obind].
    rewrite <- (app_length pre (spell_field (Some f))). unfold char_at at 1. rewrite (app_assoc pre).
    destruct Hrest as [->|(d & rest' & msg & -> & Hd & Hmsg)].
    + rewrite app_nil_r, lookup_ge_None_2 by lia. eauto.
    + rewrite at_pre. cbn [obind]. rewrite Hmsg. eauto.
  - cbn [spell_field app]. unfold char_at at 1. destruct Hrest as [->|(d & rest' & msg & -> & Hd & Hmsg)].
    + rewrite app_nil_r, lookup_ge_None_2 by lia. eauto.
    + rewrite at_pre. cbn [obind]. rewrite Hd. cbn [obind]. rewrite Hmsg. eauto.
Qed.

Lemma dispatch_unknown p d a : ~ known d -> d <> 37 -> do_dispatch p d a = Signal "Unknown format dispatch character".
Proof.
  intros Hk Hd. unfold known, message_directives, integer_directives in Hk. cbn [In map fst] in Hk. unfold do_dispatch.
  repeat match goal with |- context [?x =? ?y] => destruct (Z.eqb_spec x y); [exfalso; lia|] end. done.
Qed.

Lemma accepts_dec_signal p d a : known d -> ~ accepts d a -> (forall z, a = AInt z -> fits z) ->
  exists msg, do_dispatch p d a = Signal msg.
Proof.
  intros Hk Ha Hfit. unfold accepts in Ha.
  destruct Hk as [H|[H|[H|H]]]; [tauto|tauto| |].
  - destruct a as [z| | | | | |]; [exfalso; apply Ha; right; right; left; eauto| | | | | |];
      cbn in H; repeat (destruct H as [<-|H]; [first [by eexists|exfalso; apply Ha; right; right; right; left; split; [tauto|eauto]]|]); done.
  - destruct a as [| | |t| | |]; [| | |exfalso; apply Ha; do 4 right; eauto| | |]; destruct H as [->| ->]; eexists; done.
Qed.

(** *** Missing arguments *)
Lemma arg_at_false args n i : arg_at (args ++ replicate n AFalse) i = arg_at args i.
Proof.
  unfold arg_at. destruct (decide (i < length args)%nat) as [H|H]; [by rewrite lookup_app_l|].
  rewrite lookup_app_r by lia. rewrite (lookup_ge_None_2 args) by lia.
  destruct (replicate n AFalse !! (i - length args)%nat) eqn:E; [|done]. by apply lookup_replicate in E as [-> _].
Qed.

Lemma missing_arguments p s args n : forall fuel start arg_i out,
  format_loop p fuel s (args ++ replicate n AFalse) start arg_i out = format_loop p fuel s args start arg_i out.
Proof.
  induction fuel as [|fuel IH]; intros start arg_i out; [done|]. cbn [format_loop]. rewrite arg_at_false.
  destruct (start <? length s)%nat; [|done]. cbv zeta. destruct (_ =? length s)%nat; [done|].
  destruct (char_at s _) as [d| | |]; cbn [obind]; try done. destruct (d =? 10); [apply IH|].
  destruct (char_at s _) as [c| | |]; cbn [obind]; try done.
  destruct (if class_digit c then _ else _) as [[fd e]| | |]; cbn [obind]; try done.
  destruct fd as [fd|].
  - destruct (char_at s _) as [c'| | |]; cbn [obind]; try done.
    destruct (do_dispatch _ _ _) as [[o k]| | |]; cbn [obind]; try done; apply IH.
  - destruct (do_dispatch _ _ _) as [[o k]| | |]; cbn [obind]; try done; apply IH.
Qed.

(** *** Every control string *)
Definition settled {A} (r : outcome A) : Prop := r <> NoFuel /\ r <> UB.

Lemma char_at_settled s i : settled (char_at s i).
Proof. unfold settled, char_at. destruct (s !! i); done. Qed.
Lemma int_result_settled z : settled (int_result z).
Proof. unfold settled, int_result. destruct (bool_decide _); done. Qed.
Lemma settled_bind {A B} (m : outcome A) (f : A -> outcome B) :
  settled m -> (forall a, m = Val a -> settled (f a)) -> settled (obind m f).
Proof. intros [H1 H2] Hf. destruct m; cbn; try done. by apply Hf. Qed.

Lemma parse_loop_settled s : forall n i r, settled (parse_loop n s i r) /\ forall r' j, parse_loop n s i r = Val (r', j) -> (i <= j)%nat.
Proof.
  induction n as [|n IH]; intros i r; cbn [parse_loop]; [split; [done|intros ?? [= _ <-]; lia]|].
  destruct (char_at s i) as [c| | |] eqn:E; cbn [obind]; [|done| |];
    [|exfalso; by apply (proj2 (char_at_settled s i))|exfalso; by apply (proj1 (char_at_settled s i))].
  destruct (class_digit c); [|split; [done|intros ?? [= _ <-]; lia]].
  destruct (int_result (r * 10)) as [r1| | |] eqn:E1; cbn [obind]; [|done| |];
    [|exfalso; by apply (proj2 (int_result_settled (r * 10)))|exfalso; by apply (proj1 (int_result_settled (r * 10)))].
  destruct (int_result (r1 + (c - 48))) as [r2| | |] eqn:E2; cbn [obind]; [|done| |];
    [|exfalso; by apply (proj2 (int_result_settled (r1 + (c - 48))))|exfalso; by apply (proj1 (int_result_settled (r1 + (c - 48))))].
  destruct (IH (i + 1)%nat r2) as [H1 H2]. split; [done|]. intros r' j H. specialize (H2 r' j H). lia.
Qed.

Lemma parse_integer_settled s i : settled (parse_integer s i) /\ forall f j, parse_integer s i = Val (f, j) -> (i <= j)%nat.
Proof.
  unfold parse_integer.
  destruct (char_at s i) as [c| | |] eqn:E; cbn [obind]; [|done| |];
    [|exfalso; by apply (proj2 (char_at_settled s i))|exfalso; by apply (proj1 (char_at_settled s i))].
  set (i' := if c =? 45 then (i + 1)%nat else i). assert (i <= i')%nat by (unfold i'; destruct (c =? 45); lia).
  destruct (parse_loop_settled s (length s - i') i' 0) as [H1 H2].
  destruct (parse_loop _ _ _ _) as [[r j]| | |]; cbn [obind]; [|done|by destruct H1|by destruct H1].
  destruct (r =? 0); (split; [done|]); intros ?? [= _ <-]; [done|]. specialize (H2 r j eq_refl). lia.
Qed.

Lemma format_number_settled p a radix lower : 2 <= radix <= 36 -> (forall z, a = AInt z -> fits z) -> settled (format_number p a radix lower).
Proof.
  intros Hb Hfit. destruct a; cbn [format_number]; try done; [|by destruct (radix =? 10)].
  destruct (format_integer_spec z radix lower (Hfit z eq_refl) Hb) as (t & -> & _). done.
Qed.

Lemma dispatch_settled p c a : (forall z, a = AInt z -> fits z) -> settled (do_dispatch p c a).
Proof.
  intros Hfit. unfold do_dispatch.
  repeat match goal with |- settled (if ?b then _ else _) => destruct b end; try done;
    try (apply settled_bind; [apply format_number_settled; [lia|done]|done]).
  by destruct a.
Qed.

Lemma skip_text_le s : forall n i, (i <= skip_text n s i)%nat.
Proof.
  induction n as [|n IH]; intros i; cbn [skip_text]; [lia|]. destruct (s !! i); [|lia].
  destruct (_ || _); [lia|]. specialize (IH (i + 1)%nat). lia.
Qed.

Lemma format_settled p s args : (forall z, In (AInt z) args -> fits z) -> forall fuel start arg_i out,
  (length s <= fuel + start)%nat -> settled (format_loop p (S fuel) s args start arg_i out).
Proof.
  intros Hargs. assert (Ha : forall i z, arg_at args i = AInt z -> fits z).
  { intros i z. unfold arg_at. destruct (args !! i) eqn:E; [|done]. intros ->. apply Hargs.
    apply elem_of_list_In. by eapply elem_of_list_lookup_2. }
  induction fuel as [|fuel IH]; intros start arg_i out Hf.
  { cbn [format_loop]. destruct (start <? length s)%nat eqn:El; [lia|done]. }
  remember (S fuel) as g eqn:Eg. cbn [format_loop]. destruct (start <? length s)%nat eqn:El; [|done].
  cbv zeta. pose proof (skip_text_le s (length s - start) start) as Hle.
  set (i := skip_text (length s - start) s start) in *. destruct (i =? length s)%nat; [done|].
  apply settled_bind; [apply char_at_settled|]. intros d _. destruct (d =? 10); [apply IH; lia|].
  apply settled_bind; [apply char_at_settled|]. intros c _.
  apply settled_bind; [destruct (class_digit c); [apply parse_integer_settled|done]|].
  intros [fd e] He. assert (i + 1 <= e)%nat.
  { destruct (class_digit c); [by apply parse_integer_settled in He|injection He as _ <-; lia]. }
  destruct fd as [fd|].
  - apply settled_bind; [apply char_at_settled|]. intros c' _.
    apply settled_bind; [apply dispatch_settled; by eapply Ha|]. intros [o k] _. apply IH. lia.
  - apply settled_bind; [apply dispatch_settled; by eapply Ha|]. intros [o k] _. apply IH. lia.
Qed.

(** *** common-dylan *)
Lemma digits_loop_upper base : forall fuel n buf ds, Forall (fun c => ~ (97 <= c <= 122)) buf ->
  digits_loop fuel n base buf = Val ds -> Forall (fun c => ~ (97 <= c <= 122)) ds.
Proof.
  induction fuel as [|fuel IH]; intros n buf ds Hb; cbn [digits_loop].
  - case_bool_decide; [by intros [= <-]|done].
  - case_bool_decide; [by intros [= <-]|]. destruct (integer_to_character _) as [c| | |] eqn:E; cbn [obind]; try done.
    apply IH. rewrite Forall_app. split; [done|]. constructor; [|constructor]. by eapply number_characters_upper.
Qed.

Lemma to_string_upper n base ds : integer_to_string n base 0 48 false = Val ds -> Forall (fun c => ~ (97 <= c <= 122)) ds.
Proof.
  unfold integer_to_string. destruct (negb _); [done|].
  assert (H0 : Forall (fun c => ~ (97 <= c <= 122)) (if bool_decide (n = 0) then [48] else [])).
  { destruct (bool_decide (n = 0)); repeat constructor; lia. }
  assert (Hend : forall b m buf, Forall (fun c => ~ (97 <= c <= 122)) buf -> forall ds,
    (do buffer <- digits_loop 64 m base buf;
     let remaining := 0 - Z.of_nat (length buffer) in
     let remaining := if b : bool then remaining - 1 else remaining in
     let buffer := buffer ++ replicate (Z.to_nat remaining) 48 in
     let buffer := if b then buffer ++ [45] else buffer in
     Val (rev (map (fun c => if false then char_lower c else c) buffer))) = Val ds -> Forall (fun c => ~ (97 <= c <= 122)) ds).
  { intros b m buf Hbuf ds'. destruct (digits_loop 64 m base buf) as [l| | |] eqn:E; cbn [obind]; try done.
    intros [= <-]. apply digits_loop_upper in E; [|done]. rewrite map_id. apply Forall_rev.
    assert (Forall (fun c => ~ (97 <= c <= 122)) (l ++ replicate (Z.to_nat (if b then 0 - Z.of_nat (length l) - 1 else 0 - Z.of_nat (length l))) 48)).
    { rewrite Forall_app. split; [done|]. apply Forall_replicate. lia. }
    destruct b; [|done]. rewrite Forall_app. split; [done|]. repeat constructor; lia. }
  destruct (bool_decide (n < 0)).
  - destruct (int_result (- Z.rem n base)) as [r| | |]; cbn [obind]; try done.
    destruct (integer_to_character r) as [c| | |] eqn:E; cbn [obind]; try done.
    destruct (int_result (- Z.quot n base)) as [q| | |]; cbn [obind]; try done.
    apply (Hend true). rewrite Forall_app. split; [done|]. constructor; [|constructor]. by eapply number_characters_upper.
  - cbn [obind]. by apply (Hend false).
Qed.

Lemma to_string_text z base : fits z -> 2 <= base <= 36 ->
  exists text, integer_to_string z base 0 48 false = Val text /\ numeral_text base false z text.
Proof.
  intros Hz Hb. destruct (print_spec z base 0 48 false Hz Hb) as (ds & k & E & Hn & H0 & H1 & Hk). cbv zeta in Hk.
  assert (k = 0)%nat as -> by (destruct (bool_decide (z < 0)); lia). cbn [replicate app] in E.
  eexists. split; [exact E|]. exists ds. split; [done|]. split; [done|]. split; [done|]. split; [done|].
  apply to_string_upper in E. by apply Forall_app in E as [_ E].
Qed.

Lemma simple_directive_spec p d args i a : simple_accepts d a -> args !! i = Some a ->
  exists text, directive p d args i = Val (text, (i + 1)%nat) /\ simple_renders p d a text.
Proof.
  intros Ha Ei. unfold simple_accepts in Ha.
  assert (Hna : forall class, class a = true -> next_argument args i class = Val a).
  { intros class Hc. unfold next_argument. by rewrite Ei, Hc. }
  destruct Ha as [[Hd Hfit]|[[Hd (c & ->)]|[[Hd (z & -> & Hz)]|[Hd (n & ->)]]]].
  - destruct Hd as [->|Hd]; [|destruct Hd as [->| ->]].
    1,2: unfold directive; cbn; rewrite (Hna (fun _ => true)) by done; cbn [obind];
      destruct a as [z|c|s|t|n| |n]; cbn [pretty_name unique_name obind];
      try (eexists; split; [reflexivity|]; first [apply SR_string; solve [tauto]|apply SR_character; cbn; solve [tauto]|apply SR_message; [tauto|done|done|done]]);
      destruct (to_string_text z 10 (Hfit z eq_refl) ltac:(lia)) as (text & -> & Ht); eexists; (split; [reflexivity|]); apply SR_integer; tauto.
    unfold directive; cbn. rewrite (Hna (fun _ => true)) by done; cbn [obind].
    destruct a as [z|c|s|t|n| |n]; cbn [pretty_name unique_name obind];
      try (eexists; split; [reflexivity|]; first [by apply SR_quoted|by apply SR_quoted_character|by apply SR_object]).
    destruct (to_string_text z 10 (Hfit z eq_refl) ltac:(lia)) as (text & -> & Ht); eexists; (split; [reflexivity|]); apply SR_integer; tauto.
  - exists [c]. split; [|apply SR_character; cbn; lia].
    destruct Hd as [->| ->]; unfold directive; cbn; by rewrite (Hna is_character).
  - assert (Hint : exists base lower, In (d, (base, lower)) integer_directives /\ 2 <= base <= 36 /\
      directive p d args i = (do s <- integer_to_string z base 0 48 false ; Val (s, (i + 1)%nat))).
    { cbn in Hd. destruct Hd as [<-|[<-|[<-|[<-|[<-|[<-|[<-|[<-|[]]]]]]]]];
        do 2 eexists; (split; [cbn; tauto|]); (split; [lia|]); unfold directive; cbn;
        rewrite ?(Hna is_number), ?(Hna is_integer) by done; reflexivity. }
    destruct Hint as (base & lower & Hin & Hb & ->).
    destruct (to_string_text z base Hz Hb) as (text & -> & Ht). exists text. split; [done|]. by eapply SR_number.
  - exists (pr_escaped p (AFloat n)). split; [|by apply SR_float].
    destruct Hd as [->| ->]; unfold directive; cbn; by rewrite (Hna is_number).
Qed.

Lemma simple_prefix p : forall ps args i out rest,
  Forall no_field ps -> simple_suits ps (drop i args) ->
  exists text, print_format p (spell ps ++ rest) args false i out = print_format p rest args false (i + taken ps) (out ++ text) /\
    simple_outputs p ps (drop i args) text.
Proof.
  induction ps as [|q ps IH]; intros args i out rest HF Hs.
  - exists []. rewrite app_nil_r, Nat.add_0_r. split; [done|constructor].
  - apply Forall_cons in HF as [Hq HF]. rewrite spell_cons, <- app_assoc. destruct q as [c|f|f d]; cbn [taken].
    + cbn [spell_piece app print_format]. cbn [no_field] in Hq. assert (c =? 37 = false) as -> by lia.
      destruct (IH args i (out ++ [c]) rest HF Hs) as (text & E & Ho). exists (c :: text). rewrite E, <- app_assoc.
      split; [done|by constructor].
    + cbn [no_field] in Hq. subst f. cbn [spell_piece spell_field app print_format]. change (37 =? 37) with true. cbv iota.
      change (directive p 37 args i) with (Val ([37], i)). cbn [obind].
      destruct (IH args i (out ++ [37]) rest HF Hs) as (text & E & Ho). exists (37 :: text). rewrite E, <- app_assoc.
      split; [done|by constructor].
    + destruct Hq as (-> & Hk & _). cbn [spell_piece spell_field app print_format]. change (37 =? 37) with true. cbv iota.
      cbn [simple_suits] in Hs. destruct (drop i args) as [|a others] eqn:Ed; [done|]. destruct Hs as [Ha Hs].
      assert (Ea : args !! i = Some a).
      { rewrite <- (Nat.add_0_r i), <- lookup_drop, Ed. done. }
      assert (Er : others = drop (i + 1) args).
      { rewrite <- drop_drop, Ed. done. }
      destruct (simple_directive_spec p d args i a Ha Ea) as (text1 & -> & Hr). cbn [obind]. rewrite Er in Hs.
      destruct (IH args (i + 1)%nat (out ++ text1) rest HF Hs) as (text & E & Ho). exists (text1 ++ text). rewrite E, <- app_assoc.
      split; [f_equal; lia|]. rewrite <- Er in Ho. by constructor.
Qed.

Lemma simple_bad p d args i : (forall z, In (AInt z) args -> fits z) ->
  d <> 37 -> (known d -> d <> 109 -> d <> 77 -> forall a, args !! i = Some a -> ~ simple_accepts d a) ->
  exists msg, directive p d args i = Signal msg.
Proof.
  intros Hfit Hd Hk.
  assert (Hcase : known d /\ d <> 109 /\ d <> 77 \/ ~ known d \/ d = 109 \/ d = 77).
  { unfold known. destruct (in_dec Z.eq_dec d message_directives), (in_dec Z.eq_dec d (map fst integer_directives)),
      (Z.eq_dec d 61), (Z.eq_dec d 109), (Z.eq_dec d 77); tauto. }
  destruct Hcase as [(Hkn & H1 & H2)|Hun].
  - specialize (Hk Hkn H1 H2). unfold simple_accepts in Hk.
    assert (Hall : forall class, (forall a, args !! i = Some a -> class a = false) -> exists msg, next_argument args i class = Signal msg).
    { intros class Hc. unfold next_argument. destruct (args !! i) as [a|]; [rewrite (Hc a eq_refl)|]; eauto. }
    assert (Hfi : forall a z, args !! i = Some a -> a = AInt z -> fits z).
    { intros a z E ->. apply Hfit. apply elem_of_list_In. by eapply elem_of_list_lookup_2. }
    assert (Hsi : d = 115 \/ d = 83 \/ d = 61 -> exists msg, next_argument args i (fun _ => true) = Signal msg).
    { intros H. apply Hall. intros a E. exfalso. apply (Hk a E). left. split; [done|]. intros z Ez. by eapply Hfi. }
    assert (Hci : d = 99 \/ d = 67 -> exists msg, next_argument args i is_character = Signal msg).
    { intros H. apply Hall. intros a E. destruct a; try done. exfalso. apply (Hk _ E). right; left; split; [done|eauto]. }
    assert (Hii : In d (map fst integer_directives) -> exists msg, next_argument args i is_integer = Signal msg).
    { intros H. apply Hall. intros a E. destruct a; try done. exfalso. apply (Hk _ E). right; right; left; split; [done|eauto]. }
    assert (Hni : d = 100 \/ d = 68 -> exists msg, next_argument args i is_number = Signal msg).
    { intros H. apply Hall. intros a E. destruct a; try done; exfalso; apply (Hk _ E); [|by do 3 right; eauto].
      right; right; left; split; [cbn; lia|eauto]. }
    unfold known, message_directives, integer_directives in Hkn. cbn [map fst In] in Hkn.
    destruct Hkn as [Hm|[->|[Hi|[->| ->]]]]; [| | |done|done].
    + destruct Hm as [<-|[<-|[<-|[<-|[]]]]];
        [destruct (Hsi ltac:(tauto)) as (msg & E)|destruct (Hsi ltac:(tauto)) as (msg & E)|destruct (Hci ltac:(tauto)) as (msg & E)|destruct (Hci ltac:(tauto)) as (msg & E)];
        unfold directive; cbn; rewrite E; eexists; reflexivity.
    + destruct (Hsi ltac:(tauto)) as (msg & E). unfold directive; cbn. rewrite E. eexists; reflexivity.
    + destruct Hi as [<-|[<-|[<-|[<-|[<-|[<-|[<-|[<-|[]]]]]]]]];
        [destruct (Hni ltac:(tauto)) as (msg & E)|destruct (Hni ltac:(tauto)) as (msg & E)|destruct (Hii ltac:(cbn; tauto)) as (msg & E)..];
        unfold directive; cbn; rewrite E; eexists; reflexivity.
  - eexists. unfold directive.
    unfold known, message_directives, integer_directives in Hun. cbn [map fst In] in Hun. unfold char_upper.
    destruct (bool_decide (97 <= d <= 122)) eqn:Eb; [apply bool_decide_eq_true in Eb|apply bool_decide_eq_false in Eb];
    repeat match goal with |- context [?x =? ?y] => destruct (Z.eqb_spec x y); [exfalso; lia|] end; done.
Qed.

Lemma simple_accepts_dec d a : (forall z, a = AInt z -> fits z) -> simple_accepts d a \/ ~ simple_accepts d a.
Proof.
  intros Hfit. unfold simple_accepts.
  destruct (Z.eq_dec d 115) as [|H1]; [by left; left; split; [tauto|]|].
  destruct (Z.eq_dec d 83) as [|H2]; [by left; left; split; [tauto|]|].
  destruct (Z.eq_dec d 61) as [|H3]; [by left; left; split; [tauto|]|].
  destruct a as [z|c|s|t|n| |n].
  - destruct (in_dec Z.eq_dec d (map fst integer_directives)) as [Hi|Hi].
    + left. right; right; left. split; [done|]. exists z. split; [done|]. by apply Hfit.
    + right. intros [[? _]|[[_ [? ?]]|[[? _]|[_ [? ?]]]]]; [tauto|done|done|done].
  - destruct (Z.eq_dec d 99) as [|H4]; [left; right; left; split; [tauto|eauto]|].
    destruct (Z.eq_dec d 67) as [|H5]; [left; right; left; split; [tauto|eauto]|].
    right. intros [[? _]|[[? _]|[[_ [? [? _]]]|[_ [? ?]]]]]; [tauto|tauto|done|done].
  - right. intros [[? _]|[[_ [? ?]]|[[_ [? [? _]]]|[_ [? ?]]]]]; [tauto|done|done|done].
  - right. intros [[? _]|[[_ [? ?]]|[[_ [? [? _]]]|[_ [? ?]]]]]; [tauto|done|done|done].
  - destruct (Z.eq_dec d 100) as [|H4]; [left; right; right; right; split; [tauto|eauto]|].
    destruct (Z.eq_dec d 68) as [|H5]; [left; right; right; right; split; [tauto|eauto]|].
    right. intros [[? _]|[[_ [? ?]]|[[_ [? [? _]]]|[? _]]]]; [tauto|done|done|tauto].
  - right. intros [[? _]|[[_ [? ?]]|[[_ [? [? _]]]|[_ [? ?]]]]]; [tauto|done|done|done].
  - right. intros [[? _]|[[_ [? ?]]|[[_ [? [? _]]]|[_ [? ?]]]]]; [tauto|done|done|done].
Qed.

Lemma simple_accepts_known d a : simple_accepts d a -> known d /\ d <> 109 /\ d <> 77 /\ d <> 37.
Proof.
  unfold simple_accepts, known. cbn. intros [[? _]|[[? _]|[[? _]|[? _]]]]; lia.
Qed.

(** Every control string of common-dylan: the pieces it is made of, or an error. *)
Lemma simple_exact p args : (forall z, In (AInt z) args -> fits z) -> forall n s i out, (length s <= n)%nat ->
  (exists ps text, s = spell ps /\ Forall no_field ps /\ simple_suits ps (drop i args) /\
     simple_outputs p ps (drop i args) text /\ print_format p s args false i out = Val (out ++ text)) \/
  ((exists msg, print_format p s args false i out = Signal msg) /\
   ~ exists ps, s = spell ps /\ Forall no_field ps /\ simple_suits ps (drop i args)).
Proof.
  intros Hfit. induction n as [|n IH]; intros s i out Hn.
  { destruct s; [|cbn in Hn; lia]. left. exists [], []. rewrite app_nil_r. repeat split; constructor. }
  destruct s as [|c s].
  { left. exists [], []. rewrite app_nil_r. repeat split; constructor. }
  cbn in Hn. cbn [print_format]. destruct (Z.eqb_spec c 37) as [->|Hc].
  - destruct s as [|d s].
    { right. split; [by eexists|]. intros (ps & E & HF & _). destruct ps as [|q ps]; [done|]. apply Forall_cons in HF as [Hq _].
      rewrite spell_cons in E. destruct q; cbn in E, Hq; injection E; [congruence|destruct f|destruct f]; cbn; try done.
      by destruct (flush_left f), (width_digits f). }
    cbn [print_format]. cbn in Hn. destruct (Z.eq_dec d 37) as [->|Hd].
    + change (directive p 37 args i) with (Val ([37], i)). cbn [obind].
      destruct (IH s i (out ++ [37]) ltac:(lia)) as [(ps & text & -> & HF & Hs & Ho & E)|[Hm Hno]].
      * left. exists (Percent None :: ps), (37 :: text). rewrite E, <- app_assoc. repeat split; [by constructor|done|by constructor].
      * right. split; [done|]. intros (ps & E & HF & Hs). apply Hno. destruct ps as [|q ps]; [done|]. apply Forall_cons in HF as [Hq HF].
        rewrite spell_cons in E. destruct q as [c|f|f d]; cbn [no_field] in Hq.
        -- cbn in E. congruence.
        -- subst f. cbn in E. injection E as ->. by exists ps.
        -- destruct Hq as (-> & Hk & _). cbn in E. injection E as <- _. unfold known in Hk. cbn in Hk. lia.
    + destruct (args !! i) as [a|] eqn:Ea; [destruct (simple_accepts_dec d a) as [Ha|Ha];
        [intros z ->; apply Hfit; apply elem_of_list_In; by eapply elem_of_list_lookup_2|..]|].
      * destruct (simple_directive_spec p d args i a Ha Ea) as (text1 & -> & Hr). cbn [obind].
        assert (Ed : drop i args = a :: drop (i + 1) args).
        { rewrite Nat.add_1_r. by apply drop_S. }
        destruct (IH s (i + 1)%nat (out ++ text1) ltac:(lia)) as [(ps & text & -> & HF & Hs & Ho & E)|[Hm Hno]].
        -- left. exists (Directive None d :: ps), (text1 ++ text). rewrite E, <- app_assoc, Ed. cbn [simple_suits].
           pose proof (simple_accepts_known d a Ha). repeat split; [|done|done|by constructor]. constructor; [|done]. cbn. tauto.
        -- right. split; [done|]. intros (ps & E & HF & Hs). apply Hno. destruct ps as [|q ps]; [done|]. apply Forall_cons in HF as [Hq HF].
           rewrite spell_cons in E. destruct q as [c|f|f d']; cbn [no_field] in Hq.
           ++ cbn in E. congruence.
           ++ subst f. cbn in E. congruence.
           ++ destruct Hq as (-> & _). cbn in E. injection E as <- ->. exists ps. split; [done|]. split; [done|].
              rewrite Ed in Hs. by destruct Hs.
      * right. split.
        -- destruct (simple_bad p d args i Hfit Hd) as (msg & ->); [|by eexists].
           intros _ _ _ a' E'. congruence.
        -- intros (ps & E & HF & Hs). destruct ps as [|q ps]; [done|]. apply Forall_cons in HF as [Hq HF].
           rewrite spell_cons in E. destruct q as [c|f|f d']; cbn [no_field] in Hq.
           ++ cbn in E. congruence.
           ++ subst f. cbn in E. congruence.
           ++ destruct Hq as (-> & _). cbn in E. injection E as <- ->.
              rewrite (drop_S _ _ _ Ea) in Hs. by destruct Hs.
      * right. split.
        -- destruct (simple_bad p d args i Hfit Hd) as (msg & ->); [|by eexists].
           intros _ _ _ a' E'. congruence.
        -- intros (ps & E & HF & Hs). destruct ps as [|q ps]; [done|]. apply Forall_cons in HF as [Hq HF].
           rewrite spell_cons in E. destruct q as [c|f|f d']; cbn [no_field] in Hq.
           ++ cbn in E. congruence.
           ++ subst f. cbn in E. congruence.
           ++ rewrite drop_ge in Hs by (by apply lookup_ge_None_1). done.
  - destruct (IH s i (out ++ [c]) ltac:(lia)) as [(ps & text & -> & HF & Hs & Ho & E)|[Hm Hno]].
    + left. exists (Text c :: ps), (c :: text). rewrite E, <- app_assoc. repeat split; [by constructor|done|by constructor].
    + right. split; [done|]. intros (ps & E & HF & Hs). apply Hno. destruct ps as [|q ps]; [done|]. apply Forall_cons in HF as [Hq HF].
      rewrite spell_cons in E. destruct q as [c'|f|f d']; cbn [no_field] in Hq; cbn in E; [|congruence|congruence].
      injection E as <- ->. by exists ps.
Qed.

(** A minus sign after a digit. *)
Lemma dash_not_spelled f : ~ exists ps, Forall piece_ok ps /\ spell ps = 37 :: 53 :: 45 :: f.
Proof.
  intros (ps & HF & E). destruct ps as [|q ps]; [done|]. apply Forall_cons in HF as [Hq HF]. rewrite spell_cons in E.
  assert (H : forall g d, field_ok g -> (d = 37 \/ known d) -> 37 :: (spell_field g ++ [d]) ++ spell ps = 37 :: 53 :: 45 :: f -> False).
  { intros g d Hg Hd E'. injection E' as E'. destruct g as [g|].
    - destruct Hg as (HD & Hpos & _). destruct (width_nonempty g Hpos) as (c & ds & Ew). unfold spell_field in E'. rewrite Ew in *.
      destruct (flush_left g); [done|]. cbn [app] in E'. injection E' as -> E'.
      destruct ds as [|c2 ds]; cbn [app] in E'; injection E' as -> _.
      + destruct Hd as [?|Hd]; [done|]. unfold known in Hd. cbn in Hd. lia.
      + apply Forall_cons in HD as [_ HD]. apply Forall_cons in HD as [HD _]. lia.
    - cbn in E'. injection E' as -> _. destruct Hd as [?|Hd]; [done|]. unfold known in Hd. cbn in Hd. lia. }
  destruct q as [c|g|g d]; cbn [piece_ok] in Hq.
  - cbn in E. congruence.
  - apply (H g 37); [done|tauto|]. by rewrite <- E.
  - apply (H g d); [apply Hq|right; apply Hq|]. by rewrite <- E.
Qed.
