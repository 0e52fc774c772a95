(** C30, C31, C32, C45: locators. *)
From Verif Require Import Base SplitModel SplitSpec SplitProofs LocModel LocSpec LocProofs.
From Coq Require Import ZifyBool ZifyNat ZifyN.
Local Open Scope Z_scope.

(** * C30: strings *)

(** A directory locator with legal names survives printing and parsing. *)
Theorem C30_directory_round_trip fill d : legal_dir d ->
  exists s, dir_as_string fill d = Val s /\ string_as_dir s = Val d.
Proof.
  intros H. eexists. split; [apply dir_as_string_ok|]. by apply dir_round_trip.
Qed.

(** A file locator with legal parts survives printing and parsing.  What is missing
    for the full property: locators whose base or extension contains a dot. *)
Theorem C30_file_round_trip_partial fill f : legal_file f ->
  exists s, file_as_string fill f = Val s /\ string_as_file s = Val f.
Proof.
  intros H. assert (exists s, file_as_string fill f = Val s) as [s Hs].
  { unfold file_as_string. destruct (f_directory f); [|eauto]. rewrite dir_as_string_ok. eauto. }
  exists s. split; [done|]. by eapply file_round_trip.
Qed.

(** The full property fails: make(<file-locator>, base: "a.b") prints as "a.b" and
    is read back with an extension; so does an extension with a dot. *)
Theorem C30_file_round_trip_refuted :
  exists f g s, make_file None (Some [97; 46; 98]) None None = Val f /\
    file_as_string 32 f = Val s /\ string_as_file s = Val g /\ f <> g.
Proof.
  exists (File None [97; 46; 98] None), (File None [97] (Some [98])), [97; 46; 98].
  repeat split; done.
Qed.

(** A string names the same locator after being read and printed. *)
Theorem C30_directory_string fill s :
  exists d s', string_as_dir s = Val d /\ dir_as_string fill d = Val s' /\ string_as_dir s' = Val d.
Proof.
  eexists _, _. split; [apply string_as_dir_ok|]. split; [apply dir_as_string_ok|].
  apply dir_round_trip. eapply string_as_dir_legal, string_as_dir_ok.
Qed.

Theorem C30_file_string fill s :
  exists f s', string_as_file s = Val f /\ file_as_string fill f = Val s' /\ string_as_file s' = Val f.
Proof.
  destruct (string_as_file_legal s) as (f & Hf & HL & _).
  destruct (C30_file_round_trip_partial fill f HL) as (s' & H1 & H2). by exists f, s'.
Qed.

(** The path of a string: its components, "." and ".." read as symbols; relative
    exactly when the string does not start with the separator. *)
Theorem C30_directory_components s :
  exists d cs, string_as_dir s = Val d /\ components s cs /\
    map item_name (d_path d) = cs /\
    (forall x, x ∈ d_path d -> legal_item x) /\
    (d_relative d = false <-> exists r, s = 47 :: r).
Proof.
  destruct (toks_components s [] (not_elem_of_nil _)) as (ps & HS & HT).
  eexists _, (toks [] s). split; [apply string_as_dir_ok|]. split; [by exists ps|].
  cbn [d_path d_relative]. split; [|split].
  - unfold canonicalize_path. rewrite !map_map. rewrite <- map_id. apply map_ext.
    apply canonical_name.
  - intros x Hx. pose proof (string_as_dir_legal s _ (string_as_dir_ok s)) as HL.
    unfold legal_dir in HL. rewrite Forall_forall in HL. by apply HL.
  - destruct s as [|c s]; cbn.
    + split; [done|]. by intros [r ?].
    + destruct (decide (c = 47)) as [->|Hne].
      * rewrite bool_decide_true by done. split; [eauto|done].
      * rewrite bool_decide_false by done. split; [done|]. intros [r [= ? _]]. congruence.
Qed.

(** The file part of a string: what follows the last separator; the directory is
    read from what precedes it and left out when it is "./". *)
Theorem C30_file_components ds nm : 47 ∉ nm ->
  exists f d, string_as_file (ds ++ [47] ++ nm) = Val f /\ string_as_dir (ds ++ [47]) = Val d /\
    file_name f = nm /\
    f_directory f = (if bool_decide (d = Dir true [Self]) then None else Some d).
Proof.
  intros H. pose proof (string_as_dir_ok (ds ++ [47])) as Hd. set (d := Dir _ _) in Hd.
  destruct (make_file_total (Some d) nm) as [f Hf].
  exists f, d. split; [by rewrite (string_as_file_dir ds nm d)|]. split; [done|].
  apply file_name_make in Hf as (H1 & H2 & _). split; [done|]. rewrite H2. unfold drop_current.
  destruct (decide (d = Dir true [Self])) as [E|E].
  - rewrite bool_decide_true by done. rewrite (proj2 (current_directory_spec d)) by done. done.
  - rewrite bool_decide_false by done. destruct (current_directory d) eqn:E2; [|done].
    by apply current_directory_spec in E2.
Qed.

(** Strings in normal form (no doubled separator, trailing separator) are printed
    back exactly. *)
Theorem C30_directory_string_identity fill s :
  ~ contains_sep (eq [47; 47]) s -> (s = [] \/ last s = Some 47) ->
  exists d, string_as_dir s = Val d /\ dir_as_string fill d = Val s.
Proof.
  intros H1 H2. eexists. split; [apply string_as_dir_ok|]. rewrite dir_as_string_ok.
  cbn [d_path d_relative]. f_equal. by apply dir_string_identity.
Qed.

(** Reading a string as either kind of locator. *)
Theorem C30_any_string fill s :
  exists l s', string_as_locator s = Val l /\ locator_as_string fill l = Val s' /\
    string_as_locator s' = Val l.
Proof.
  destruct (slash_cases s) as [Hn|(ds & nm & -> & Hn)].
  - destruct (string_as_file_legal s) as (f & Hf & HL & _ & Hnm).
    assert (f_directory f = None) as Hd.
    { rewrite string_as_file_plain in Hf by done. by apply file_name_make in Hf as (_ & ? & _). }
    exists (LFile f), s. unfold string_as_locator. rewrite find_from_end_none by done. cbn [obind].
    rewrite bool_decide_false by done. rewrite Hf. split; [done|]. split; [|done].
    cbn. unfold file_as_string. rewrite Hd. by rewrite Hnm.
  - assert (HF : forall ds nm, 47 ∉ nm -> find_delimiter_from_end (ds ++ [47] ++ nm) separator
      (length (ds ++ [47] ++ nm)) = Val (Some (Z.of_nat (length ds)))).
    { intros ds' nm' H. by apply find_from_end_at. }
    assert (HD : forall ds d, string_as_dir (ds ++ [47]) = Val d -> string_as_locator (ds ++ [47]) = Val (LDir d)).
    { intros ds' d H. unfold string_as_locator. pose proof (HF ds' [] (not_elem_of_nil _)) as HF'.
      rewrite app_nil_r in HF'. rewrite HF'. cbn [obind].
      rewrite bool_decide_true; [by rewrite H|]. f_equal. unfold size. rewrite app_length. cbn. lia. }
    destruct nm as [|c nm].
    + rewrite app_nil_r. pose proof (string_as_dir_ok (ds ++ [47])) as Hd. set (d := Dir _ _) in Hd.
      exists (LDir d), (print_path (d_path d) (d_relative d)). split; [by apply HD|].
      split; [apply dir_as_string_ok|].
      destruct (print_ends (d_path d) (d_relative d)) as [ds' Hds'].
      { intros [E1 E2]%print_empty. apply (string_dir_not_empty ds d Hd). destruct d. cbn in *. by subst. }
      rewrite Hds'. apply HD. rewrite <- Hds'. apply dir_round_trip. by eapply string_as_dir_legal.
    + set (s := ds ++ [47] ++ c :: nm).
      destruct (string_as_file_legal s) as (f & Hf & HL & Hnm & _).
      specialize (Hnm ds (c :: nm) eq_refl Hn).
      destruct (C30_file_round_trip_partial fill f HL) as (s' & H1 & H2).
      exists (LFile f), s'. split; [|split; [done|]].
      * unfold string_as_locator, s. rewrite HF by done. cbn [obind].
        rewrite bool_decide_false; [fold s; by rewrite Hf|]. intros [= E]. unfold size in E.
        rewrite !app_length in E. cbn in E. lia.
      * unfold string_as_locator. unfold file_as_string in H1. rewrite Hnm in H1.
        destruct (f_directory f) as [d|] eqn:Ed.
        -- rewrite dir_as_string_ok in H1. cbn [obind] in H1. injection H1 as <-.
           destruct HL as (HLd & _). destruct (HLd d Ed) as (_ & _ & Hne).
           destruct (print_ends (d_path d) (d_relative d)) as [ds' Hds'].
           { intros [E1 E2]%print_empty. apply Hne. destruct d. cbn in *. by subst. }
           rewrite Hds' in H2 |- *. rewrite <- app_assoc in H2 |- *. rewrite HF by done. cbn [obind].
           rewrite bool_decide_false; [by rewrite H2|]. intros [= E]. unfold size in E.
           rewrite !app_length in E. cbn in E. lia.
        -- injection H1 as <-. rewrite find_from_end_none by done. cbn [obind].
           rewrite bool_decide_false by done. by rewrite H2.
Qed.

(** Every locator made by [make] keeps "." and ".." as symbols, never as names. *)
Theorem C30_make_canonical path directory nm rel d :
  make_dir path directory nm rel = Val d -> made_dir d.
Proof.
  unfold make_dir.
  match goal with |- match ?q with _ => _ end = _ -> _ => generalize q end.
  intros [p|]; [|done]. intros [= <-]. apply canonicalize_makes.
Qed.

(** * C31: simplify-locator *)

Theorem C31_directory d : made_dir d ->
  exists d', simplify_dir d = Val d' /\ made_dir d' /\
    (* the same directory *)
    (forall cwd, dir_place cwd d' = dir_place cwd d) /\ d_relative d' = d_relative d /\
    (* parents only at the front and no "." - but a relative path to the working
       directory itself is "./" *)
    (simple_path (d_path d') \/ d' = Dir true [Self]) /\
    (* once is enough *)
    simplify_dir d' = Val d'.
Proof.
  intros H. eexists. split; [by apply simplify_dir_ok|].
  assert (HM : made_dir (simplified d)) by (by apply simplify_path_made).
  split; [done|]. split; [|split; [done|split]].
  - intros cwd. unfold dir_place. cbn [d_relative d_path]. apply simplify_path_walk.
  - destruct (simplify_path_cases (d_path d) (d_relative d)) as [(-> & -> & _)|(? & _)]; [by right|by left].
  - fold (simplified d). rewrite simplify_dir_ok by done. unfold simplified. cbn [d_path d_relative].
    by rewrite simplify_path_idem.
Qed.

Theorem C31_file f : made_file f ->
  exists f', simplify_file f = Val f' /\ made_file f' /\
    (forall cwd, file_place cwd f' = file_place cwd f) /\
    (forall d, f_directory f' = Some d -> simple_path (d_path d)) /\
    simplify_file f' = Val f'.
Proof.
  intros H. eexists. split; [by apply simplify_file_ok|]. destruct f as [[d|] b e]; cbn [f_directory f_base f_extension].
  - destruct (H d eq_refl) as [H1 H2].
    destruct (C31_directory d H1) as (d' & Hs & HM & Hp & Hr & Hsimp & Hid).
    rewrite simplify_dir_ok in Hs by done. injection Hs as Hs. fold (simplified d) in Hs. rewrite Hs.
    destruct (decide (d' = Dir true [Self])) as [E|E].
    + rewrite E. cbn [drop_current]. rewrite (proj2 (current_directory_spec (Dir true [Self]))) by done.
      split; [intros ? [=]|]. split; [|split; [intros ? [=]|done]]. intros cwd. unfold file_place.
      cbn [f_directory f_extension f_base]. rewrite <- Hp, E. done.
    + rewrite drop_current_other by done. split; [by intros ? [= <-]|]. split; [|split].
      * intros cwd. unfold file_place. cbn [f_directory f_extension f_base]. by rewrite Hp.
      * intros d0 [= <-]. destruct Hsimp as [?|?]; [done|]. by destruct E.
      * rewrite simplify_file_ok by (by intros ? [= <-]). cbn [f_directory f_base f_extension].
        rewrite simplify_dir_ok in Hid by done. injection Hid as Hid. fold (simplified d') in Hid.
        by rewrite Hid, drop_current_other.
  - split; [intros ? [=]|]. split; [done|]. split; [intros ? [=]|]. done.
Qed.

(** "contains no self parts" fails for a relative locator of the working directory:
    "a/../" is simplified to "./". *)
Theorem C31_no_self_refuted :
  exists d d', string_as_dir [97; 47; 46; 46; 47] = Val d /\ simplify_dir d = Val d' /\
    Self ∈ d_path d'.
Proof.
  exists (Dir true [Name [97]; Parent]), (Dir true [Self]). split; [done|]. split; [done|].
  apply elem_of_list_singleton. done.
Qed.

(** Simplified relative directories are equal exactly when they denote the same
    directory from everywhere. *)
Theorem C31_relative_canonical d1 d2 :
  made_dir d1 -> made_dir d2 -> d_relative d1 = true -> d_relative d2 = true ->
  (forall cwd, dir_place cwd d1 = dir_place cwd d2) -> simplify_dir d1 = simplify_dir d2.
Proof.
  intros M1 M2 R1 R2 H. rewrite !simplify_dir_ok by done. rewrite R1, R2. do 2 f_equal.
  unfold dir_place in H. rewrite R1, R2 in H.
  destruct (simplify_path_cases (d_path d1) true) as [(E1 & _ & W1)|(S1 & W1 & N1)],
    (simplify_path_cases (d_path d2) true) as [(E2 & _ & W2)|(S2 & W2 & N2)].
  - congruence.
  - exfalso. apply (N2 eq_refl). apply (simple_unique _ []); [done|exists 0%nat, []; split; [done|constructor]|].
    intros h. rewrite W2, <- H, W1. done.
  - exfalso. apply (N1 eq_refl). apply (simple_unique _ []); [done|exists 0%nat, []; split; [done|constructor]|].
    intros h. rewrite W1, H, W2. done.
  - apply simple_unique; [done|done|]. intros h. by rewrite W1, W2.
Qed.

(** For absolute directories that fails: "/../" and "/" are the same directory and
    simplify to different locators. *)
Theorem C31_absolute_canonical_refuted :
  exists d1 d2, string_as_dir [47; 46; 46; 47] = Val d1 /\ string_as_dir [47] = Val d2 /\
    (forall cwd, dir_place cwd d1 = dir_place cwd d2) /\ simplify_dir d1 <> simplify_dir d2.
Proof. exists (Dir false [Parent]), (Dir false []). repeat split; done. Qed.

(** * C32: relative-locator and merge-locators *)

(** Merging reads the locator as if the working directory were the other one. *)
Theorem C32_merge_meaning d from : made_dir d -> made_dir from ->
  exists m, merge_dir d from = Val m /\
    forall cwd, dir_place cwd m = dir_place (dir_place cwd from) d.
Proof. intros H1 H2. destruct (merge_dir_ok d from H1 H2) as (m & ? & _ & _ & ?). by exists m. Qed.

Theorem C32_merge_file_meaning f from : made_file f -> made_dir from ->
  exists m, merge_file f from = Val m /\
    forall cwd, file_place cwd m = file_place (dir_place cwd from) f.
Proof.
  intros H1 H2. unfold merge_file.
  assert (exists md, match f_directory f with Some d => merge_dir d from | None => Val from end = Val md /\
    forall cwd, dir_place cwd md = match f_directory f with Some d => dir_place (dir_place cwd from) d | None => dir_place cwd from end) as (md & -> & Hm).
  { destruct (f_directory f) as [d|] eqn:E; [|by exists from].
    destruct (H1 d E) as [Hd _]. destruct (C32_merge_meaning d from Hd H2) as (m & ? & ?). by exists m. }
  cbn [obind]. destruct (decide (Some md = f_directory f)) as [E|E].
  - rewrite bool_decide_true by done. exists f. split; [done|]. intros cwd. unfold file_place.
    rewrite <- E in *. by rewrite Hm.
  - rewrite bool_decide_false by done. rewrite make_file_parts. eexists. split; [done|].
    intros cwd. unfold file_place. cbn [f_directory f_base f_extension]. unfold drop_current.
    specialize (Hm cwd). destruct (current_directory md) eqn:Ec.
    + apply current_directory_spec in Ec as ->. f_equal. exact Hm.
    + rewrite Hm. by destruct (f_directory f).
Qed.

(** The inverse property, where it holds: both locators absolute or both relative,
    and what [from] has beyond a common prefix are plain names (so in particular for
    every [from] without "." and ".."). *)
Theorem C32_directory_partial d from c p f :
  made_dir d -> made_dir from -> d_relative d = d_relative from ->
  d_path d = c ++ p -> d_path from = c ++ f -> Forall is_name f ->
  exists r m, relative_dir d from = Val r /\ d_relative r = true /\
    merge_dir r from = Val m /\ forall cwd, dir_place cwd m = dir_place cwd d.
Proof.
  intros H1 H2 Hr Hp Hf Hn.
  destruct (relative_dir_ok d from c p f H1 H2 Hr Hp Hf Hn) as (r & Hrel & Mr & Rr & Hw & _).
  destruct (C32_merge_meaning r from Mr H2) as (m & Hm & HM).
  exists r, m. split; [done|]. split; [done|]. split; [done|]. intros cwd. rewrite HM.
  unfold dir_place at 1. rewrite Rr. apply Hw.
Qed.

Theorem C32_file_partial fl from d c p f :
  made_file fl -> made_dir from -> f_directory fl = Some d -> d_relative d = d_relative from ->
  d_path d = c ++ p -> d_path from = c ++ f -> Forall is_name f ->
  exists r m, relative_file fl from = Val r /\
    merge_file r from = Val m /\ forall cwd, file_place cwd m = file_place cwd fl.
Proof.
  intros H1 H2 Hd Hr Hp Hf Hn. destruct (H1 d Hd) as [Md Hnc].
  destruct (relative_dir_ok d from c p f Md H2 Hr Hp Hf Hn) as (r & Hrel & Mr & Rr & Hw & Hne).
  unfold relative_file. rewrite Hd, Hrel. cbn [obind].
  assert (HX : forall f', made_file f' -> file_name f' = file_name fl ->
     (f_directory f' = Some r \/ (f_directory f' = None /\ r = Dir true [Self])) ->
     exists m, merge_file f' from = Val m /\ forall cwd, file_place cwd m = file_place cwd fl).
  { intros f' Mf' Hname Hdir. destruct (C32_merge_file_meaning f' from Mf' H2) as (m & Hm & HM).
    exists m. split; [done|]. intros cwd. rewrite HM. unfold file_place. rewrite Hd.
    change (match f_extension f' with Some e => f_base f' ++ [46] ++ e | None => f_base f' end) with (file_name f').
    change (match f_extension fl with Some e => f_base fl ++ [46] ++ e | None => f_base fl end) with (file_name fl).
    rewrite Hname. f_equal. rewrite <- Hw. destruct Hdir as [->|[-> ->]].
    - unfold dir_place at 1. by rewrite Rr.
    - done. }
  destruct (decide (Some r = Some d)) as [E|E].
  - rewrite bool_decide_true by done. injection E as <-.
    destruct (HX fl H1 eq_refl) as (m & ? & ?); [by left|]. by exists fl, m.
  - rewrite bool_decide_false by done. rewrite make_file_parts.
    set (f' := File _ _ _).
    destruct (HX f') as (m & ? & ?).
    + intros d0. subst f'. cbn. destruct (current_directory r) eqn:Ec; [done|]. intros [= <-].
      split; [done|]. intros Eq. apply current_directory_spec in Eq. congruence.
    + done.
    + subst f'. cbn. destruct (current_directory r) eqn:Ec; [right|by left].
      by apply current_directory_spec in Ec.
    + by exists f', m.
Qed.

(** A file as second argument stands for its directory; merging a directory with it
    keeps its name. *)
Lemma drop_current_place cwd d : match drop_current (Some d) with Some d => dir_place cwd d | None => cwd end = dir_place cwd d.
Proof.
  unfold drop_current. destruct (current_directory d) eqn:Ec; [|done].
  by apply current_directory_spec in Ec as ->.
Qed.
Theorem C32_merge_with_file d f from : made_dir d -> made_file f -> made_file from ->
  (exists m, merge_dir_with_file d from = Val m /\
     forall cwd, file_place cwd m = (dir_place (fst (file_place cwd from)) d, snd (file_place cwd from))) /\
  (exists m, merge_file_with_file f from = Val m /\
     forall cwd, file_place cwd m = file_place (fst (file_place cwd from)) f).
Proof.
  intros Hd Hf Hfrom. unfold merge_dir_with_file, merge_file_with_file.
  destruct (f_directory from) as [fd|] eqn:E.
  - destruct (Hfrom fd E) as [Hfd _]. split.
    + destruct (C32_merge_meaning d fd Hd Hfd) as (m & -> & HM). cbn [obind].
      rewrite make_file_parts. eexists. split; [done|]. intros cwd. unfold file_place. rewrite E.
      cbn [f_directory f_base f_extension fst snd]. rewrite <- HM. f_equal. apply drop_current_place.
    + destruct (C32_merge_file_meaning f fd Hf Hfd) as (m & -> & HM). exists m. split; [done|].
      intros cwd. rewrite HM. unfold file_place. by rewrite E.
  - split.
    + cbn [obind]. rewrite make_file_parts. eexists. split; [done|]. intros cwd. unfold file_place. rewrite E.
      cbn [f_directory f_base f_extension fst snd]. f_equal. apply drop_current_place.
    + exists f. split; [done|]. intros cwd. unfold file_place. by rewrite E.
Qed.

Theorem C32_relative_to_file_partial d fl from :
  (forall fd, f_directory from = Some fd ->
     relative_dir_from_file d from = relative_dir d fd /\ relative_file_from_file fl from = relative_file fl fd) /\
  (f_directory from = None ->
     (d_relative d = true -> relative_dir_from_file d from = Val d) /\
     (d_relative d = false -> relative_dir_from_file d from = Signal "locator-error") /\
     ((forall x, f_directory fl = Some x -> d_relative x = true) ->
        relative_file_from_file fl from = Val fl /\
        merge_file_with_file fl from = Val fl) /\
     ((exists x, f_directory fl = Some x /\ d_relative x = false) ->
        relative_file_from_file fl from = Signal "locator-error")).
Proof.
  unfold relative_dir_from_file, relative_file_from_file, merge_file_with_file. split.
  - by intros fd ->.
  - intros ->. split; [by intros ->|]. split; [by intros ->|]. unfold file_relative. split.
    + intros H. destruct (f_directory fl) as [x|]; [|done]. by rewrite (H x).
    + intros (x & -> & ->). done.
Qed.

(** No relative path leads from a relative directory to an absolute one. *)
Theorem C32_absolute_from_relative d from :
  d_relative d = false -> d_relative from = true ->
  relative_dir d from = Signal "locator-error".
Proof. intros H1 H2. unfold relative_dir. by rewrite H1, H2. Qed.

(** The full property fails in four ways.  1: [from] contains ".".  From "./",
    "a/" is said to be "../a/". *)
Theorem C32_self_refuted :
  exists d from r m, string_as_dir [97; 47] = Val d /\ string_as_dir [46; 47] = Val from /\
    relative_dir d from = Val r /\ merge_dir r from = Val m /\
    exists cwd, dir_place cwd m <> dir_place cwd d.
Proof.
  exists (Dir true [Name [97]]), (Dir true [Self]), (Dir true [Parent; Name [97]]),
    (Dir true [Self; Parent; Name [97]]). repeat split. by exists [[98]].
Qed.

(** 2: [from] contains "..".  From "../a/", "b/" is said to be "../../b/". *)
Theorem C32_parent_refuted :
  exists d from r m, string_as_dir [98; 47] = Val d /\ string_as_dir [46; 46; 47; 97; 47] = Val from /\
    relative_dir d from = Val r /\ merge_dir r from = Val m /\
    exists cwd, dir_place cwd m <> dir_place cwd d.
Proof.
  exists (Dir true [Name [98]]), (Dir true [Parent; Name [97]]), (Dir true [Parent; Parent; Name [98]]),
    (Dir true [Parent; Name [97]; Parent; Parent; Name [98]]). repeat split. by exists [[98]; [99]].
Qed.

(** 3: a relative locator from an absolute one: from "/b/", "a/" is "../a/". *)
Theorem C32_mixed_refuted :
  exists d from r m, string_as_dir [97; 47] = Val d /\ string_as_dir [47; 98; 47] = Val from /\
    relative_dir d from = Val r /\ merge_dir r from = Val m /\
    exists cwd, dir_place cwd m <> dir_place cwd d.
Proof.
  exists (Dir true [Name [97]]), (Dir false [Name [98]]), (Dir true [Parent; Name [97]]),
    (Dir false [Name [98]; Parent; Name [97]]). repeat split. by exists [[99]].
Qed.

(** 4: a file without a directory: from "b/", "a" stays "a". *)
Theorem C32_plain_file_refuted :
  exists f from r m, string_as_file [97] = Val f /\ string_as_dir [98; 47] = Val from /\
    relative_file f from = Val r /\ merge_file r from = Val m /\
    exists cwd, file_place cwd m <> file_place cwd f.
Proof.
  exists (File None [97] None), (Dir true [Name [98]]), (File None [97] None),
    (File (Some (Dir true [Name [98]])) [97] None). repeat split. by exists [].
Qed.

(** * C45: parents and children *)

Theorem C45_subdirectory d names : made_dir d -> Forall legal_name names ->
  exists d', subdirectory_locator d (map Name names) = Val d' /\ made_dir d' /\
    d_relative d' = d_relative d /\
    forall cwd, dir_place cwd d' = rev names ++ dir_place cwd d.
Proof.
  intros H1 H2. unfold subdirectory_locator.
  assert (HM : Forall made_item (d_path d ++ map Name names)).
  { apply Forall_app. split; [done|]. apply Forall_map. eapply Forall_impl; [exact H2|].
    intros s (_ & _ & ? & ?). done. }
  rewrite make_dir_path_made by done. eexists. split; [done|]. split; [done|]. split; [done|].
  intros cwd. unfold dir_place. cbn [d_relative d_path]. rewrite walk_app.
  pose proof (simple_walk 0 names (walk (if d_relative d then cwd else []) (d_path d))) as HW.
  cbn [replicate app] in HW. by rewrite HW, drop_0.
Qed.

Theorem C45_file d nm : made_dir d ->
  exists f, file_locator d nm [] = Val f /\
    forall cwd, file_place cwd f = (dir_place cwd d, nm).
Proof.
  intros H1. unfold file_locator. cbn [rev].
  destruct (make_file_total (Some d) nm) as [f Hf]. exists f. split; [done|].
  apply file_name_make in Hf as (Hn & Hd & _). intros cwd. unfold file_place.
  change (match f_extension f with Some e => f_base f ++ [46] ++ e | None => f_base f end) with (file_name f).
  rewrite Hn. f_equal. rewrite Hd. unfold drop_current. destruct (current_directory d) eqn:E; [|done].
  apply current_directory_spec in E as ->. done.
Qed.

Theorem C45_file_deep d nm more lst : made_dir d -> Forall legal_name (nm :: more) ->
  exists f, file_locator d nm (more ++ [lst]) = Val f /\
    forall cwd, file_place cwd f = (rev (nm :: more) ++ dir_place cwd d, lst).
Proof.
  intros H1 H2. unfold file_locator. rewrite rev_app_distr. cbn [rev app].
  rewrite rev_involutive. destruct (C45_subdirectory d (nm :: more) H1 H2) as (d' & Hs & Md & _ & Hp).
  cbn [map] in Hs. rewrite Hs. cbn [obind].
  destruct (C45_file d' lst Md) as (f & Hf & Hpl). unfold file_locator in Hf. cbn [rev] in Hf.
  exists f. split; [done|]. intros cwd. by rewrite Hpl, Hp.
Qed.

(** The parent of a directory that ends in a name, and the name in it. *)
Theorem C45_parent d ns s : made_dir d -> d_path d = ns ++ [Name s] ->
  dir_name d = Val (Some s) /\
  exists o, dir_directory d = Val o /\
    (forall p, o = Some p -> d_relative p = d_relative d /\
       subdirectory_locator p [Name s] = Val d /\
       forall cwd, dir_place cwd p = tail (dir_place cwd d)) /\
    (o = None <-> d_relative d = true /\ ns = []).
Proof.
  intros H1 Hp. split.
  { unfold dir_name. rewrite Hp, last_snoc. done. }
  unfold dir_directory. rewrite Hp.
  assert (HM : Forall made_item ns) by (unfold made_dir in H1; rewrite Hp in H1; by apply Forall_app in H1 as [? _]).
  assert (Hs : size (ns ++ [Name s]) = size ns + 1) by (unfold size; rewrite app_length; cbn; lia).
  assert (Hc : copy_sequence (ns ++ [Name s]) 0 (size (ns ++ [Name s]) - 1) = Val ns).
  { rewrite Hs. rewrite copy_sequence_ok by (rewrite ?Hs; unfold size; lia). f_equal.
    unfold subseq, size. replace (Z.to_nat _) with (length ns) by lia. cbn [Z.to_nat drop].
    apply take_app. }
  rewrite Hc. cbn [obind]. rewrite make_dir_path_made by done. cbn [obind].
  assert (0 <= size ns) by (unfold size; lia).
  destruct (decide ((if d_relative d then 1 else 0) < size (ns ++ [Name s]))) as [Hlt|Hge].
  - rewrite bool_decide_true by done. eexists. split; [done|]. split.
    + intros p [= <-]. cbn [d_relative]. split; [done|]. split.
      * unfold subdirectory_locator. cbn [d_path d_relative].
        rewrite make_dir_path_made by (rewrite <- Hp; done). rewrite <- Hp. by destruct d.
      * intros cwd. unfold dir_place. cbn [d_relative d_path]. by rewrite Hp, walk_app.
    + split; [done|]. intros [Hr ->]. rewrite Hr in Hlt. cbn in Hlt. unfold size in Hlt. cbn in Hlt. lia.
  - rewrite bool_decide_false by done. eexists. split; [done|]. split; [done|]. split; [|done].
    intros _. rewrite Hs in Hge. destruct (d_relative d); [|lia]. split; [done|].
    destruct ns; [done|]. unfold size in Hge. cbn [length] in Hge. lia.
Qed.

(** A directory that ends in ".." has no name: asking for it is a type error. *)
Theorem C45_parent_name_refuted :
  exists d m, string_as_dir [97; 47; 46; 46; 47] = Val d /\ dir_name d = Signal m.
Proof. by exists (Dir true [Name [97]; Parent]), "type-error". Qed.

(** make(<posix-directory-locator>, directory: d, name: n) forgets that d is
    relative: the child of "a/" named "b" is "/a/b/". *)
Theorem C45_make_child_refuted :
  exists d d' s, string_as_dir [97; 47] = Val d /\
    make_dir None (Some d) (Some [98]) false = Val d' /\   (* relative?: defaults to #f *)
    dir_as_string 32 d' = Val s /\ s = [47; 97; 47; 98; 47] /\
    exists cwd, dir_place cwd d' <> [98] :: dir_place cwd d.
Proof.
  exists (Dir true [Name [97]]), (Dir false [Name [97]; Name [98]]), [47; 97; 47; 98; 47].
  repeat split. by exists [[99]].
Qed.

(** Non-vacuity. *)
Example C30_ex : (* "/a//./b../c.d.e" *)
  exists f, string_as_file [47; 97; 47; 47; 46; 47; 98; 46; 46; 47; 99; 46; 100; 46; 101] = Val f /\
    f = File (Some (Dir false [Name [97]; Self; Name [98; 46; 46]])) [99; 46; 100] (Some [101]) /\
    legal_file f.
Proof.
  exists (File (Some (Dir false [Name [97]; Self; Name [98; 46; 46]])) [99; 46; 100] (Some [101])).
  split; [reflexivity|]. split; [reflexivity|]. split; [|split].
  - intros d [= <-]. split; [|done]. apply Forall_cons; split; [|apply Forall_cons; split; [done|apply Forall_cons; split; [|constructor]]];
      cbn; repeat split; try done; rewrite !elem_of_cons, elem_of_nil; lia.
  - cbn [f_base]. rewrite !elem_of_cons, elem_of_nil. lia.
  - cbn. split; rewrite elem_of_list_singleton; lia.
Qed.
Example C31_ex : (* "a/../../b/./c/.." *)
  simplify_dir (Dir true [Name [97]; Parent; Parent; Name [98]; Self; Name [99]; Parent])
    = Val (Dir true [Parent; Name [98]]).
Proof. reflexivity. Qed.
Example C32_ex : (* /a/b/c from /a/d/e *)
  let d := Dir false [Name [97]; Name [98]; Name [99]] in
  let from := Dir false [Name [97]; Name [100]; Name [101]] in
  made_dir d /\ made_dir from /\ Forall is_name [Name [100]; Name [101]] /\
  relative_dir d from = Val (Dir true [Parent; Parent; Name [98]; Name [99]]).
Proof. repeat split; repeat constructor; done. Qed.
Example C45_ex : legal_name [97; 46] /\
  file_locator (Dir true [Self]) [97] [[98]; [99]] =
    Val (File (Some (Dir true [Self; Name [97]; Name [98]])) [99] None).
Proof. split; [|done]. repeat split; try done. rewrite !elem_of_cons, elem_of_nil. lia. Qed.

Print Assumptions C30_directory_round_trip.
Print Assumptions C30_file_round_trip_partial.
Print Assumptions C30_file_round_trip_refuted.
Print Assumptions C30_directory_string.
Print Assumptions C30_file_string.
Print Assumptions C30_directory_components.
Print Assumptions C30_file_components.
Print Assumptions C30_directory_string_identity.
Print Assumptions C30_any_string.
Print Assumptions C30_make_canonical.
Print Assumptions C31_directory.
Print Assumptions C31_file.
Print Assumptions C31_no_self_refuted.
Print Assumptions C31_relative_canonical.
Print Assumptions C31_absolute_canonical_refuted.
Print Assumptions C32_merge_meaning.
Print Assumptions C32_merge_file_meaning.
Print Assumptions C32_directory_partial.
Print Assumptions C32_file_partial.
Print Assumptions C32_absolute_from_relative.
Print Assumptions C32_self_refuted.
Print Assumptions C32_parent_refuted.
Print Assumptions C32_mixed_refuted.
Print Assumptions C32_plain_file_refuted.
Print Assumptions C45_subdirectory.
Print Assumptions C45_file.
Print Assumptions C45_file_deep.
Print Assumptions C45_parent.
Print Assumptions C45_parent_name_refuted.
Print Assumptions C45_make_child_refuted.
Print Assumptions C32_merge_with_file.
Print Assumptions C32_relative_to_file_partial.
