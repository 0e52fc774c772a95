From Verif Require Import Base SplitModel SplitSpec SplitProofs LocModel LocSpec.
From Coq Require Import ZifyBool ZifyNat ZifyN.
Local Open Scope Z_scope.
Local Open Scope outcome_scope.

(** * Searching from the end *)

Lemma elt_nat {A} (s : list A) i x : s !! i = Some x -> elt s (Z.of_nat i) = Val x.
Proof. intros H. unfold elt. rewrite bool_decide_true by lia. by rewrite Nat2Z.id, H. Qed.

Lemma find_from_end s d n : (n <= length s)%nat ->
  (find_delimiter_from_end s d n = Val None /\ d ∉ take n s) \/
  exists a b, take n s = a ++ d :: b /\ d ∉ b /\
    find_delimiter_from_end s d n = Val (Some (Z.of_nat (length a))).
Proof.
  induction n as [|n IH]; intros Hn; cbn [find_delimiter_from_end].
  - left. split; [done|]. apply not_elem_of_nil.
  - destruct (lookup_lt_is_Some_2 s n) as [c Hc]; [lia|].
    rewrite (elt_nat _ _ _ Hc). cbn [obind].
    rewrite (take_S_r _ _ _ Hc). destruct (decide (c = d)) as [->|Hne].
    + rewrite bool_decide_true by done. right. exists (take n s), []. split; [done|].
      split; [apply not_elem_of_nil|]. rewrite take_length. repeat f_equal. lia.
    + rewrite bool_decide_false by done.
      destruct IH as [[-> Hni]|(a & b & Ht & Hb & ->)]; [lia| |].
      * left. split; [done|]. rewrite elem_of_app, elem_of_list_singleton. intros [?|?]; [done|congruence].
      * right. exists a, (b ++ [c]). split; [by rewrite Ht, <- app_assoc|]. split; [|done].
        rewrite elem_of_app, elem_of_list_singleton. intros [?|?]; [done|congruence].
Qed.

Lemma find_from_end_none s d : d ∉ s -> find_delimiter_from_end s d (length s) = Val None.
Proof.
  intros H. destruct (find_from_end s d (length s)) as [[-> _]|(a & b & Ht & _)]; [done|done|].
  rewrite firstn_all in Ht. exfalso. apply H. rewrite Ht, elem_of_app, elem_of_cons. tauto.
Qed.

Lemma find_from_end_at a d b : d ∉ b ->
  find_delimiter_from_end (a ++ d :: b) d (length (a ++ d :: b)) = Val (Some (Z.of_nat (length a))).
Proof.
  intros H. destruct (find_from_end (a ++ d :: b) d (length (a ++ d :: b)))
    as [[_ Hn]|(a' & b' & Ht & Hb & ->)]; [done| |].
  - rewrite firstn_all in Hn. exfalso. apply Hn. rewrite elem_of_app, elem_of_cons. tauto.
  - rewrite firstn_all in Ht. do 3 f_equal.
    assert (Hl : forall (u v x y : list Z), u ++ d :: v = x ++ d :: y -> d ∉ v -> (length u < length x)%nat -> False).
    { intros u v x y E Hv Hlt. apply (f_equal (fun l => l !! length x)) in E.
      rewrite lookup_app_r, (lookup_app_r x) in E by lia. rewrite Nat.sub_diag in E. cbn in E.
      replace (length x - length u)%nat with (S (length x - length u - 1)) in E by lia. cbn in E.
      apply elem_of_list_lookup_2 in E. done. }
    destruct (lt_eq_lt_dec (length a) (length a')) as [[Hlt|HE]|Hgt]; [|by rewrite HE|].
    + exfalso. eapply Hl; [exact Ht|done|lia].
    + exfalso. eapply Hl; [symmetry; exact Ht|done|lia].
Qed.

(** * parse-path *)

(** The pieces of [cur ++ s], where [cur] is the piece being collected. *)
Fixpoint toks (cur s : name) : list name :=
  match s with
  | [] => match cur with [] => [] | _ => [cur] end
  | c :: s' =>
      if bool_decide (c = 47) then
        match cur with [] => toks [] s' | _ => cur :: toks [] s' end
      else toks (cur ++ [c]) s'
  end.

Definition slash_first (s : name) : bool :=
  match s with c :: _ => bool_decide (c = 47) | [] => false end.

Lemma subseq_nil {A} (s : list A) b : subseq s b b = [].
Proof. unfold subseq. by rewrite Z.sub_diag. Qed.

Lemma subseq_snoc (s : name) b e c : 0 <= b <= e -> s !! Z.to_nat e = Some c ->
  subseq s b (e + 1) = subseq s b e ++ [c].
Proof.
  intros H Hc. assert (Hlt := lookup_lt_Some _ _ _ Hc).
  rewrite (subseq_split s b e (e + 1)) by (unfold size; lia). f_equal.
  unfold subseq. replace (Z.to_nat (e + 1 - e)) with 1%nat by lia.
  rewrite (drop_S _ _ _ Hc). done.
Qed.

Lemma parse_loop_ok s : forall n pos old path rel,
  0 <= old <= pos -> pos + Z.of_nat n = size s ->
  (do ' (o, p, r) <- parse_loop s 0 pos n old path rel ;
   do p' <- (if bool_decide (o < size s) then
               do piece <- copy_sequence s o (size s) ; Val (p ++ [piece])
             else Val p) ;
   Val (p', r)) =
  Val (path ++ toks (subseq s old pos) (drop (Z.to_nat pos) s),
       if bool_decide (pos = 0) && slash_first s then false else rel).
Proof.
  induction n as [|n IH]; intros pos old path rel Ho Hp; cbn [parse_loop].
  - cbn [obind]. rewrite drop_ge by (unfold size in *; lia). cbn [toks].
    assert (pos = size s) as -> by lia.
    assert (Hrel : (if bool_decide (size s = 0) && slash_first s then false else rel) = rel).
    { destruct s; [by rewrite andb_false_r|]. rewrite bool_decide_false by (unfold size; cbn [length]; lia). done. }
    rewrite Hrel. destruct (decide (old < size s)) as [Hlt|Hge].
    + rewrite bool_decide_true by done. rewrite copy_sequence_ok by lia. cbn [obind].
      destruct (subseq s old (size s)) eqn:E; [|done].
      exfalso. pose proof (subseq_length s old (size s) ltac:(lia) ltac:(lia)) as HL.
      rewrite E in HL. cbn in HL. lia.
    + rewrite bool_decide_false by done. cbn [obind]. assert (old = size s) as -> by lia.
      rewrite subseq_nil. by rewrite app_nil_r.
  - destruct (elt_lookup s pos) as (c & Hc & ->); [lia|]. cbn [obind].
    rewrite (drop_S _ _ _ Hc). replace (S (Z.to_nat pos)) with (Z.to_nat (pos + 1)) by lia.
    cbn [toks].
    assert (H0 : pos = 0 -> slash_first s = bool_decide (c = 47)).
    { intros ->. destruct s; [done|]. injection Hc as ->. done. }
    destruct (decide (c = separator)) as [->|Hne].
    + rewrite !bool_decide_true by done.
      assert (Hrel : forall r, (if bool_decide (pos + 1 = 0) && slash_first s then false else r) = r).
      { intros r. by rewrite bool_decide_false by lia. }
      assert (Hr2 : (if bool_decide (pos = 0) then false else rel) =
                    (if bool_decide (pos = 0) && slash_first s then false else rel)).
      { destruct (decide (pos = 0)) as [E|E].
        - rewrite !bool_decide_true by done. cbn [andb]. rewrite (H0 E). done.
        - rewrite !bool_decide_false by done. done. }
      destruct (decide (old < pos)) as [Hlt|Hge].
      * rewrite (bool_decide_true (old < pos)) by done.
        rewrite copy_sequence_ok by lia. cbn [obind].
        rewrite IH by lia. rewrite subseq_nil, Hrel, Hr2. f_equal. f_equal.
        destruct (subseq s old pos) eqn:E; [|by rewrite <- app_assoc].
        exfalso. pose proof (subseq_length s old pos ltac:(lia) ltac:(lia)) as HL.
        rewrite E in HL. cbn in HL. lia.
      * rewrite (bool_decide_false (old < pos)) by done. cbn [obind].
        rewrite IH by lia. rewrite subseq_nil, Hrel, Hr2. assert (old = pos) as -> by lia.
        by rewrite subseq_nil.
    + rewrite (bool_decide_false (c = separator)) by done. rewrite IH by lia.
      rewrite (bool_decide_false (c = 47)) by done.
      rewrite (subseq_snoc s old pos c) by (done || lia). f_equal. f_equal.
      rewrite bool_decide_false by lia. cbn [andb].
      destruct (decide (pos = 0)) as [E|E].
      * rewrite (H0 E), (bool_decide_false (c = 47)) by done. by rewrite andb_false_r.
      * rewrite bool_decide_false by done. done.
Qed.

Lemma parse_path_ok s : parse_path s = Val (toks [] s, negb (slash_first s)).
Proof.
  unfold parse_path. pose proof (parse_loop_ok s (length s) 0 0 [] true ltac:(lia)
    ltac:(unfold size; lia)) as H. rewrite subseq_nil in H. cbn [Z.to_nat drop app] in H.
  rewrite H. rewrite bool_decide_true by done. cbn [andb]. by destruct (slash_first s).
Qed.

Lemma toks_components s : forall cur, 47 ∉ cur ->
  exists ps, Splits (eq [47]) (cur ++ s) ps /\ toks cur s = filter (fun p => p <> []) ps.
Proof.
  induction s as [|c s IH]; intros cur Hcur; cbn [toks].
  - exists [cur]. rewrite app_nil_r. split.
    + apply spl_last. intros (p & m & r & -> & <-). apply Hcur.
      rewrite !elem_of_app, !elem_of_cons; tauto.
    + destruct cur; [by rewrite filter_cons_False by tauto|by rewrite filter_cons_True by done].
  - destruct (decide (c = 47)) as [->|Hne].
    + rewrite bool_decide_true by done. destruct (IH []) as (ps & HS & HT); [apply not_elem_of_nil|].
      exists (cur :: ps). split.
      * eapply (spl_cons _ _ cur [47] s); [|exact HS]. split; [done|]. split; [done|].
        intros p' m' r' E <-. destruct (decide (length cur <= length p')%nat); [done|]. exfalso.
        apply (f_equal (fun l => l !! length p')) in E.
        rewrite lookup_app_l in E by lia. rewrite lookup_app_r, Nat.sub_diag in E by lia. cbn in E.
        apply elem_of_list_lookup_2 in E. done.
      * rewrite HT. destruct cur; [by rewrite filter_cons_False by tauto|by rewrite filter_cons_True by done].
    + rewrite bool_decide_false by done. destruct (IH (cur ++ [c])) as (ps & HS & HT).
      { rewrite elem_of_app, elem_of_list_singleton. intros [?|?]; congruence. }
      exists ps. split; [|done]. by rewrite <- app_assoc in HS.
Qed.

Lemma toks_legal s : forall cur, 47 ∉ cur ->
  Forall (fun p => p <> [] /\ 47 ∉ p) (toks cur s).
Proof.
  induction s as [|c s IH]; intros cur Hcur; cbn [toks].
  - destruct cur; [constructor|]. constructor; [done|constructor].
  - destruct (decide (c = 47)) as [->|Hne].
    + rewrite bool_decide_true by done. specialize (IH [] (not_elem_of_nil _)).
      destruct cur; [done|]. by constructor.
    + rewrite bool_decide_false by done. apply IH.
      rewrite elem_of_app, elem_of_list_singleton. intros [?|?]; congruence.
Qed.

(** * path-to-string *)

Lemma set_elt_mid pre x rest c : set_elt (pre ++ x :: rest) (size pre) c = Val (pre ++ c :: rest).
Proof.
  unfold set_elt. rewrite bool_decide_true by (unfold size; rewrite app_length; cbn; lia).
  f_equal. unfold size. rewrite Nat2Z.id. rewrite insert_app_r_alt by lia. by rewrite Nat.sub_diag.
Qed.

Lemma put_chars_ok cs : forall pre rest, (length cs <= length rest)%nat ->
  put_chars (pre ++ rest, size pre) cs = Val ((pre ++ cs) ++ drop (length cs) rest, size (pre ++ cs)).
Proof.
  induction cs as [|c cs IH]; intros pre rest Hl; cbn [put_chars].
  - by rewrite app_nil_r.
  - destruct rest as [|x rest]; [cbn in Hl; lia|]. cbn [fst snd]. rewrite set_elt_mid. cbn [obind].
    replace (pre ++ c :: rest) with ((pre ++ [c]) ++ rest) by (by rewrite <- app_assoc).
    replace (size pre + 1) with (size (pre ++ [c])) by (unfold size; rewrite app_length; cbn; lia).
    rewrite IH by (cbn in Hl; lia). rewrite <- !app_assoc. done.
Qed.

Definition print_items (p : list item) : name := concat (map (fun x => item_name x ++ [47]) p).

Lemma put_items_ok p : forall pre rest, (length (print_items p) <= length rest)%nat ->
  put_items (pre ++ rest, size pre) p =
    Val ((pre ++ print_items p) ++ drop (length (print_items p)) rest, size (pre ++ print_items p)).
Proof.
  induction p as [|x p IH]; intros pre rest Hl; cbn [put_items].
  - unfold print_items. cbn. by rewrite app_nil_r.
  - unfold print_items in *. cbn [map concat] in *. rewrite !app_length in Hl. cbn [length] in Hl.
    rewrite put_chars_ok by lia. cbn [obind].
    rewrite put_chars_ok by (rewrite drop_length; cbn; lia). cbn [obind].
    rewrite IH by (rewrite !drop_length; cbn; lia). rewrite !drop_drop, !app_length.
    rewrite <- !app_assoc, Nat.add_assoc. done.
Qed.

Definition print_path (p : list item) (rel : bool) : name :=
  (if rel then [] else [47]) ++ print_items p.

Lemma string_size_ok p : forall n,
  fold_left (fun n x => n + size (item_name x)) p n = n - size p + size (print_items p).
Proof.
  induction p as [|x p IH]; intros n; cbn [fold_left].
  - unfold size. cbn. lia.
  - rewrite IH. unfold print_items, size. cbn [map concat length]. rewrite !app_length. cbn. lia.
Qed.

Lemma path_to_string_ok fill p rel : path_to_string fill p rel = Val (print_path p rel).
Proof.
  unfold path_to_string. rewrite string_size_ok. unfold size at 1.
  destruct rel.
  - cbn [obind].
    pose proof (put_items_ok p [] (replicate (Z.to_nat (Z.of_nat (length p) + 0 - Z.of_nat (length p) + size (print_items p))) fill)) as H.
    cbn [app] in H. change (size (@nil Z)) with 0 in H. rewrite H; clear H.
    + cbn [obind fst]. f_equal. rewrite drop_ge, app_nil_r; [done|].
      rewrite replicate_length. unfold size. lia.
    + rewrite replicate_length. unfold size. lia.
  - set (w := replicate _ _).
    assert (Hw : length w = S (length (print_items p))).
    { subst w. rewrite replicate_length. unfold size. lia. }
    pose proof (put_chars_ok [separator] [] w) as H. cbn [app] in H.
    change (size (@nil Z)) with 0 in H. rewrite H by (cbn; lia). clear H. cbn [obind].
    pose proof (put_items_ok p [separator] (drop 1 w)) as H. cbn [length app] in *.
    rewrite H by (rewrite drop_length; lia). cbn [obind fst]. f_equal.
    rewrite drop_ge, app_nil_r; [done|]. rewrite drop_length. lia.
Qed.

(** * Round trips *)

Lemma toks_word w : forall cur s, 47 ∉ w -> cur ++ w <> [] ->
  toks cur (w ++ 47 :: s) = (cur ++ w) :: toks [] s.
Proof.
  induction w as [|c w IH]; intros cur s Hw Hne; cbn [toks app].
  - rewrite bool_decide_true by done. rewrite app_nil_r in *. by destruct cur.
  - rewrite not_elem_of_cons in Hw. destruct Hw as [Hc Hw].
    rewrite bool_decide_false by congruence. rewrite IH; [by rewrite <- app_assoc|done|].
    by destruct cur.
Qed.

Definition printable (x : item) : Prop := item_name x <> [] /\ 47 ∉ item_name x.

Lemma legal_printable x : legal_item x -> printable x.
Proof.
  unfold printable, legal_item, legal_name. destruct x as [| |s]; cbn.
  - intros _. split; [done|]. rewrite elem_of_list_singleton. done.
  - intros _. split; [done|]. rewrite !elem_of_cons, elem_of_nil. unfold dot. lia.
  - tauto.
Qed.

Lemma toks_print p : Forall printable p -> toks [] (print_items p) = map item_name p.
Proof.
  induction 1 as [|x p [H1 H2] Hp IH]; [done|]. unfold print_items in *. cbn [map concat].
  rewrite <- app_assoc. cbn [app]. rewrite toks_word by done. by rewrite IH.
Qed.

Lemma canonical_legal x : legal_item x -> canonicalize_item (Name (item_name x)) = x.
Proof.
  destruct x as [| |s]; cbn; [done..|]. intros (_ & _ & H1 & H2).
  rewrite bool_decide_false by done. rewrite bool_decide_false by done. done.
Qed.

Lemma canonical_name s : item_name (canonicalize_item (Name s)) = s.
Proof.
  cbn. destruct (decide (s = [dot])) as [->|H1]; [done|].
  rewrite (bool_decide_false (s = [dot])) by done.
  destruct (decide (s = [dot; dot])) as [->|H2]; [done|].
  by rewrite bool_decide_false by done.
Qed.

Lemma slash_first_print p rel : Forall printable p -> slash_first (print_path p rel) = negb rel.
Proof.
  intros H. unfold print_path. destruct rel; [|done]. cbn [app].
  destruct H as [|x p [H1 H2] Hp]; [done|]. unfold print_items. cbn [map concat].
  destruct (item_name x) as [|c w]; [done|]. cbn. rewrite not_elem_of_cons in H2.
  rewrite bool_decide_false by (intros ->; tauto). done.
Qed.

Lemma toks_print_path p rel : Forall printable p -> toks [] (print_path p rel) = map item_name p.
Proof.
  intros H. unfold print_path. destruct rel; cbn [app].
  - by apply toks_print.
  - cbn [toks]. rewrite bool_decide_true by done. by apply toks_print.
Qed.

Lemma string_as_dir_ok s :
  string_as_dir s = Val (Dir (negb (slash_first s)) (canonicalize_path (map Name (toks [] s)))).
Proof. unfold string_as_dir. rewrite parse_path_ok. done. Qed.

Lemma dir_as_string_ok fill d : dir_as_string fill d = Val (print_path (d_path d) (d_relative d)).
Proof. apply path_to_string_ok. Qed.

Lemma dir_round_trip d : legal_dir d ->
  string_as_dir (print_path (d_path d) (d_relative d)) = Val d.
Proof.
  intros H. rewrite string_as_dir_ok.
  assert (HP : Forall printable (d_path d)) by (eapply Forall_impl; [exact H|apply legal_printable]).
  rewrite slash_first_print, toks_print_path by done. rewrite negb_involutive.
  destruct d as [rel p]. cbn [d_path d_relative] in *. do 2 f_equal.
  unfold canonicalize_path. rewrite !map_map. rewrite <- (map_id p) at 2. apply map_ext_Forall.
  eapply Forall_impl; [exact H|]. cbn. intros x Hx. by apply canonical_legal.
Qed.

Lemma canonical_legal_item s : s <> [] -> 47 ∉ s -> legal_item (canonicalize_item (Name s)).
Proof.
  intros H1 H2. cbn. destruct (decide (s = [dot])) as [->|H3]; [done|].
  rewrite (bool_decide_false (s = [dot])) by done.
  destruct (decide (s = [dot; dot])) as [->|H4]; [done|].
  rewrite bool_decide_false by done. done.
Qed.

Lemma string_as_dir_legal s d : string_as_dir s = Val d -> legal_dir d.
Proof.
  rewrite string_as_dir_ok. intros [= <-]. unfold legal_dir, canonicalize_path. cbn [d_path].
  rewrite map_map. apply Forall_map. eapply Forall_impl; [apply (toks_legal s []), not_elem_of_nil|].
  intros x [H1 H2]. by apply canonical_legal_item.
Qed.

(** ** Files *)

Lemma copy_sequence_app_l (a b : name) : copy_sequence (a ++ b) 0 (size a) = Val a.
Proof.
  rewrite copy_sequence_ok by (unfold size; rewrite ?app_length; lia). f_equal.
  unfold subseq, size. rewrite Z.sub_0_r, Nat2Z.id. cbn [Z.to_nat drop]. apply take_app.
Qed.

Lemma copy_sequence_app_r (a b : name) : copy_sequence (a ++ b) (size a) (size (a ++ b)) = Val b.
Proof.
  rewrite copy_sequence_ok by (unfold size; rewrite ?app_length; lia). f_equal.
  unfold subseq, size. rewrite app_length, Nat2Z.id, drop_app. apply take_ge. lia.
Qed.

Definition drop_current (d : option dir) : option dir :=
  match d with Some d => if current_directory d then None else Some d | None => None end.

Lemma make_file_name_plain d s : 46 ∉ s -> make_file d None None (Some s) = Val (File (drop_current d) s None).
Proof. intros H. unfold make_file. rewrite find_from_end_none by done. done. Qed.

Lemma make_file_name_ext d b e : 46 ∉ e ->
  make_file d None None (Some (b ++ [46] ++ e)) = Val (File (drop_current d) b (Some e)).
Proof.
  intros H. unfold make_file. cbn [app]. rewrite find_from_end_at by done. cbn [obind].
  fold (size b). rewrite copy_sequence_app_l. cbn [obind].
  change (b ++ 46 :: e) with (b ++ [46] ++ e). rewrite app_assoc.
  replace (size b + 1) with (size (b ++ [46])) by (unfold size; rewrite app_length; cbn; lia).
  rewrite copy_sequence_app_r. done.
Qed.

(** What a name means as base and extension. *)
Definition named (d : option dir) (s : name) : file :=
  match find_delimiter_from_end s 46 (length s) with
  | Val (Some p) => File d (take (Z.to_nat p) s) (Some (drop (S (Z.to_nat p)) s))
  | _ => File d s None
  end.

Lemma name_cases (s : name) : 46 ∉ s \/ exists b e, s = b ++ [46] ++ e /\ 46 ∉ e.
Proof.
  destruct (find_from_end s 46 (length s)) as [[_ H]|(a & b & Ht & Hb & _)]; [done| |].
  - left. by rewrite firstn_all in H.
  - right. rewrite firstn_all in Ht. by exists a, b.
Qed.

Lemma file_name_make d s f : make_file d None None (Some s) = Val f ->
  file_name f = s /\ f_directory f = drop_current d /\
  match f_extension f with Some e => 46 ∉ e | None => 46 ∉ f_base f end.
Proof.
  destruct (name_cases s) as [H|(b & e & -> & H)].
  - rewrite make_file_name_plain by done. intros [= <-]. done.
  - rewrite make_file_name_ext by done. intros [= <-]. done.
Qed.

Lemma make_file_total d s : exists f, make_file d None None (Some s) = Val f.
Proof.
  destruct (name_cases s) as [H|(b & e & -> & H)].
  - rewrite make_file_name_plain by done. eauto.
  - rewrite make_file_name_ext by done. eauto.
Qed.

(** The two ways of reading a string as a file. *)
Lemma string_as_file_plain s : 47 ∉ s -> string_as_file s = make_file None None None (Some s).
Proof. intros H. unfold string_as_file. rewrite find_from_end_none by done. done. Qed.

Lemma string_as_file_dir ds nm d : 47 ∉ nm -> string_as_dir (ds ++ [47]) = Val d ->
  string_as_file (ds ++ [47] ++ nm) = make_file (Some d) None None (Some nm).
Proof.
  intros H Hd. unfold string_as_file. cbn [app]. rewrite find_from_end_at by done. cbn [obind].
  fold (size ds). change (ds ++ 47 :: nm) with (ds ++ [47] ++ nm). rewrite app_assoc.
  replace (size ds + 1) with (size (ds ++ [47])) by (unfold size; rewrite app_length; cbn; lia).
  rewrite copy_sequence_app_l. cbn [obind]. rewrite Hd. cbn [obind].
  rewrite copy_sequence_app_r. done.
Qed.

Lemma print_ends p rel : print_path p rel <> [] -> exists ds, print_path p rel = ds ++ [47].
Proof.
  destruct p as [|x p] using rev_ind; unfold print_path.
  - destruct rel; [done|]. by exists [].
  - intros _. unfold print_items. rewrite map_app, concat_app. cbn [map concat]. rewrite app_nil_r.
    exists ((if rel then [] else [47]) ++ concat (map (fun x => item_name x ++ [47]) p) ++ item_name x).
    by rewrite <- !app_assoc.
Qed.

Lemma print_empty p rel : print_path p rel = [] -> p = [] /\ rel = true.
Proof.
  unfold print_path. destruct rel; [|done]. destruct p as [|x p]; [done|].
  unfold print_items. cbn. destruct (item_name x); done.
Qed.

Lemma current_directory_spec d : current_directory d = true <-> d = Dir true [Self].
Proof.
  unfold current_directory. destruct d as [rel p]. cbn. split.
  - intros [-> H%bool_decide_eq_true]%andb_true_iff. by subst.
  - by intros [= -> ->].
Qed.

Lemma drop_current_other d : d <> Dir true [Self] -> drop_current (Some d) = Some d.
Proof.
  intros H. unfold drop_current. destruct (current_directory d) eqn:E; [|done].
  by apply current_directory_spec in E.
Qed.

Lemma file_round_trip fill f s : legal_file f -> file_as_string fill f = Val s ->
  string_as_file s = Val f.
Proof.
  intros (Hd & Hb & He) Hs. destruct f as [dd b ext]. cbn [f_directory f_base f_extension] in *.
  assert (Hn : 47 ∉ file_name (File dd b ext)).
  { unfold file_name. cbn. destruct ext as [e|]; [|done]. rewrite elem_of_app, elem_of_cons. unfold dot.
    intros [?|[?|?]]; tauto || done. }
  assert (Hm : forall d, make_file d None None (Some (file_name (File dd b ext))) = Val (File (drop_current d) b ext)).
  { intros d. unfold file_name. cbn [f_extension f_base]. destruct ext as [e|].
    - apply make_file_name_ext; tauto.
    - by apply make_file_name_plain. }
  unfold file_as_string in Hs. cbn [f_directory] in Hs. destruct dd as [d|].
  - rewrite dir_as_string_ok in Hs. cbn [obind] in Hs. injection Hs as <-.
    destruct (Hd d eq_refl) as (H1 & H2 & H3). pose proof (dir_round_trip d H1) as Hrt.
    destruct (print_ends (d_path d) (d_relative d)) as [ds Hds].
    { intros [? ?]%print_empty. apply H3. destruct d. cbn in *. by subst. }
    rewrite Hds in Hrt |- *. rewrite <- app_assoc.
    rewrite (string_as_file_dir ds _ d) by done. rewrite Hm, drop_current_other by done. done.
  - injection Hs as <-. rewrite string_as_file_plain by done. apply Hm.
Qed.

Lemma slash_cases (s : name) : 47 ∉ s \/ exists ds nm, s = ds ++ [47] ++ nm /\ 47 ∉ nm.
Proof.
  destruct (find_from_end s 47 (length s)) as [[_ H]|(a & b & Ht & Hb & _)]; [done| |].
  - left. by rewrite firstn_all in H.
  - right. rewrite firstn_all in Ht. by exists a, b.
Qed.

Lemma toks_ne s : forall cur, 47 ∉ cur -> toks cur s = [] -> cur = [] /\ Forall (fun c => c = 47) s.
Proof.
  induction s as [|c s IH]; intros cur Hc; cbn [toks].
  - destruct cur; [|done]. split; [done|constructor].
  - destruct (decide (c = 47)) as [->|Hne].
    + rewrite bool_decide_true by done. destruct cur; [|done]. intros H.
      apply IH in H as [_ H]; [|apply not_elem_of_nil]. split; [done|]. by constructor.
    + rewrite bool_decide_false by done. intros H. apply IH in H as [H _]; [by destruct cur|].
      rewrite elem_of_app, elem_of_list_singleton. intros [?|?]; congruence.
Qed.

Lemma string_dir_not_empty ds d : string_as_dir (ds ++ [47]) = Val d -> d <> Dir true [].
Proof.
  rewrite string_as_dir_ok. intros [= <-] [= E1 E2].
  apply map_eq_nil, map_eq_nil, toks_ne in E2 as [_ E2]; [|apply not_elem_of_nil].
  destruct ds as [|c ds]; [done|]. cbn in E1. inversion E2; subst. done.
Qed.

Lemma string_as_file_legal s : exists f, string_as_file s = Val f /\ legal_file f /\
  (forall ds nm, s = ds ++ [47] ++ nm -> 47 ∉ nm -> file_name f = nm) /\ (47 ∉ s -> file_name f = s).
Proof.
  assert (Hbase : forall f nm, file_name f = nm -> 47 ∉ nm ->
    47 ∉ f_base f /\ forall e, f_extension f = Some e -> 47 ∉ e).
  { intros f nm <- Hn. unfold file_name in Hn. destruct (f_extension f) as [e|].
    - rewrite !elem_of_app in Hn. split; [tauto|]. intros e' [= <-]. tauto.
    - split; [done|]. done. }
  destruct (slash_cases s) as [H|(ds & nm & -> & H)].
  - rewrite string_as_file_plain by done. destruct (make_file_total None s) as [f Hf].
    exists f. split; [done|]. pose proof (file_name_make _ _ _ Hf) as (H1 & H2 & H3).
    pose proof (Hbase f s H1 H) as [H4 H5].
    split; [|split; [|done]].
    + split; [|split; [done|]].
      * intros d Hd. rewrite H2 in Hd. done.
      * destruct (f_extension f) as [e|] eqn:E; [|done]. split; [done|]. by apply H5.
    + intros ds nm -> _. exfalso. apply H. rewrite !elem_of_app, !elem_of_cons; tauto.
  - pose proof (string_as_dir_ok (ds ++ [47])) as Hd. set (d := Dir _ _) in Hd.
    rewrite (string_as_file_dir ds nm d) by done.
    destruct (make_file_total (Some d) nm) as [f Hf]. exists f. split; [done|].
    pose proof (file_name_make _ _ _ Hf) as (H1 & H2 & H3). pose proof (Hbase f nm H1 H) as [H4 H5].
    split; [|split].
    + split; [|split; [done|]].
      * intros d' Hd'. rewrite H2 in Hd'. unfold drop_current in Hd'.
        destruct (current_directory d) eqn:E; [done|]. injection Hd' as <-.
        split; [by eapply string_as_dir_legal|]. split.
        -- intros Heq. apply current_directory_spec in Heq. congruence.
        -- by eapply string_dir_not_empty.
      * destruct (f_extension f) as [e|] eqn:E; [|done]. split; [done|]. by apply H5.
    + intros ds' nm' E Hn. rewrite H1.
      assert (Hr : forall a b c d : name, a ++ [47] ++ b = c ++ [47] ++ d -> 47 ∉ b -> 47 ∉ d -> b = d).
      { clear. intros a b c d E Hb Hd.
        pose proof (find_from_end_at a 47 b Hb) as P1. pose proof (find_from_end_at c 47 d Hd) as P2.
        change (a ++ 47 :: b) with (a ++ [47] ++ b) in P1.
        change (c ++ 47 :: d) with (c ++ [47] ++ d) in P2. rewrite E, P2 in P1. injection P1 as P1.
        apply Nat2Z.inj in P1. symmetry in P1. apply app_inj_1 in E as [_ E]; [|done]. by injection E. }
      eapply Hr; [exact E|done|done].
    + intros Hno. exfalso. apply Hno. rewrite !elem_of_app, !elem_of_cons; tauto.
Qed.

(** Strings without doubled separators print back as they were. *)
Lemma print_toks s : forall cur, 47 ∉ cur ->
  ~ contains_sep (eq [47; 47]) (cur ++ s) -> (cur = [] -> slash_first s = false) ->
  (cur ++ s = [] \/ last (cur ++ s) = Some 47) ->
  concat (map (fun w => w ++ [47]) (toks cur s)) = cur ++ s.
Proof.
  induction s as [|c s IH]; intros cur Hcur Hdd Hsl Hlast; cbn [toks].
  - rewrite app_nil_r in *. destruct cur as [|x cur]; [done|]. exfalso. destruct Hlast as [?|Hl]; [done|].
    apply last_Some_elem_of in Hl. done.
  - destruct (decide (c = 47)) as [->|Hne].
    + rewrite bool_decide_true by done. destruct cur as [|x cur].
      { specialize (Hsl eq_refl). done. }
      cbn [map concat]. rewrite <- app_assoc. cbn [app]. f_equal. f_equal. f_equal.
      apply (IH []).
      * apply not_elem_of_nil.
      * intros (p & m & r & E & <-). apply Hdd. exists ((x :: cur) ++ [47] ++ p), [47; 47], r.
        cbn [app] in E. rewrite E. rewrite <- !app_assoc. done.
      * intros _. destruct s as [|y s]; [done|]. cbn. apply bool_decide_eq_false. intros ->.
        apply Hdd. exists (x :: cur), [47; 47], s. done.
      * destruct s as [|y s]; [by left|]. right. destruct Hlast as [?|Hl]; [done|].
        rewrite last_app in Hl. cbn [app].
        change (last (47 :: y :: s)) with (last (y :: s)) in Hl.
        destruct (last (y :: s)) eqn:E; [done|]. apply last_None in E. done.
    + rewrite bool_decide_false by done. rewrite IH; rewrite <- ?app_assoc; try done.
      * rewrite elem_of_app, elem_of_list_singleton. intros [?|?]; congruence.
      * by destruct cur.
Qed.

Lemma dir_string_identity s : ~ contains_sep (eq [47; 47]) s -> (s = [] \/ last s = Some 47) ->
  print_path (canonicalize_path (map Name (toks [] s))) (negb (slash_first s)) = s.
Proof.
  intros Hdd Hl. unfold print_path, print_items, canonicalize_path. rewrite !map_map.
  assert (HM : map (fun x => item_name (canonicalize_item (Name x)) ++ [47]) (toks [] s)
    = map (fun w => w ++ [47]) (toks [] s)).
  { apply map_ext. intros w. by rewrite canonical_name. }
  rewrite HM. clear HM. destruct (slash_first s) eqn:E.
  - destruct s as [|c s]; [done|]. cbn in E. apply bool_decide_eq_true in E as ->.
    cbn [toks negb app]. rewrite bool_decide_true by done. f_equal. apply (print_toks s []).
    + apply not_elem_of_nil.
    + intros (p & m & r & E & <-). apply Hdd. exists (47 :: p), [47; 47], r. cbn in E. by rewrite E.
    + intros _. destruct s as [|y s]; [done|]. cbn. apply bool_decide_eq_false. intros ->.
      apply Hdd. exists [], [47; 47], s. done.
    + destruct s as [|y s]; [by left|]. right. destruct Hl as [?|Hl]; [done|]. done.
  - cbn [negb app]. apply (print_toks s []); [apply not_elem_of_nil|done|done|done].
Qed.

(** * simplify *)

Lemma walk_app p q : forall h, walk h (p ++ q) = walk (walk h p) q.
Proof. induction p as [|[| |s] p IH]; intros h; cbn [walk app]; [done|by rewrite IH..]. Qed.

Lemma simplify_loop_ok p : forall new, simple_path (rev new) ->
  simple_path (rev (simplify_loop new p)) /\
  forall h, walk h (rev (simplify_loop new p)) = walk h (rev new ++ p).
Proof.
  induction p as [|x p IH]; intros new Hnew; cbn [simplify_loop].
  - split; [done|]. intros h. by rewrite app_nil_r.
  - destruct x as [| |s].
    + destruct (IH new Hnew) as [H1 H2]. split; [done|]. intros h. rewrite H2, !walk_app. done.
    + destruct Hnew as (k & ns & E & Hns). destruct new as [|y new'].
      { destruct (IH [Parent]) as [H1 H2]; [exists 1%nat, []; split; [done|constructor]|].
        split; [done|]. intros h. rewrite H2, !walk_app. done. }
      cbn [rev] in E. destruct ns as [|z ns] using rev_ind.
      * (* only parents so far *)
        rewrite app_nil_r in E. assert (y = Parent) as ->.
        { assert (In y (replicate k Parent)) as Hin by (rewrite <- E; apply in_or_app; right; by left).
          apply elem_of_list_In, elem_of_replicate in Hin. tauto. }
        destruct (IH (Parent :: Parent :: new')) as [H1 H2].
        { exists (S k), []. split; [|constructor]. cbn [rev]. rewrite E, app_nil_r.
          rewrite replicate_S_end. done. }
        split; [done|]. intros h. rewrite H2. cbn [rev]. rewrite <- !app_assoc. done.
      * clear IHns. rewrite app_assoc in E. apply app_inj_2 in E as [E Ez]; [|done].
        injection Ez as ->. apply Forall_app in Hns as [Hns Hz]. inversion Hz as [|? ? Hz' _]. subst.
        destruct z as [| |s]; [done|done|].
        destruct (IH new') as [H1 H2]; [by exists k, ns|]. split; [done|]. intros h.
        rewrite H2. cbn [rev]. rewrite !walk_app. done.
    + destruct (IH (Name s :: new)) as [H1 H2].
      { destruct Hnew as (k & ns & E & Hns). exists k, (ns ++ [Name s]). split.
        - cbn [rev]. by rewrite E, app_assoc.
        - apply Forall_app. split; [done|]. by repeat constructor. }
      split; [done|]. intros h. rewrite H2. cbn [rev]. by rewrite <- app_assoc.
Qed.

Lemma simplify_simple_names ns : Forall is_name ns -> forall new,
  simplify_loop new ns = rev ns ++ new.
Proof.
  induction 1 as [|x ns Hx Hns IH]; intros new; cbn [simplify_loop]; [done|].
  destruct x; [done|done|]. rewrite IH. cbn [rev]. by rewrite <- app_assoc.
Qed.

Lemma simplify_simple_parents k ns : Forall is_name ns -> forall j,
  simplify_loop (replicate j Parent) (replicate k Parent ++ ns) =
    rev ns ++ replicate (k + j) Parent.
Proof.
  intros Hns. induction k as [|k IH]; intros j; cbn [replicate app simplify_loop].
  - by apply simplify_simple_names.
  - replace (match replicate j Parent with
      | [] => simplify_loop (Parent :: replicate j Parent) (replicate k Parent ++ ns)
      | Parent :: _ => simplify_loop (Parent :: replicate j Parent) (replicate k Parent ++ ns)
      | _ :: new' => simplify_loop new' (replicate k Parent ++ ns)
      end) with (simplify_loop (replicate (S j) Parent) (replicate k Parent ++ ns)).
    + rewrite IH. do 2 f_equal. lia.
    + by destruct j.
Qed.

Lemma rev_replicate {A} n (x : A) : rev (replicate n x) = replicate n x.
Proof.
  induction n as [|n IH]; [done|]. cbn [replicate rev]. rewrite IH.
  by rewrite <- replicate_S_end.
Qed.

Lemma simplify_loop_simple p : simple_path p -> rev (simplify_loop [] p) = p.
Proof.
  intros (k & ns & -> & Hns). pose proof (simplify_simple_parents k ns Hns 0) as H.
  cbn [replicate] in H. rewrite H. rewrite Nat.add_0_r, rev_app_distr, rev_involutive.
  by rewrite rev_replicate.
Qed.

(** The result of [simplify-path]. *)
Lemma simplify_path_cases p rel :
  (simplify_path p rel = [Self] /\ rel = true /\ forall h, walk h p = h) \/
  (simple_path (simplify_path p rel) /\ (forall h, walk h (simplify_path p rel) = walk h p) /\
   (rel = true -> simplify_path p rel <> [])).
Proof.
  destruct (simplify_loop_ok p []) as [H1 H2]; [exists 0%nat, []; split; [done|constructor]|].
  cbn [rev app] in H2. unfold simplify_path. destruct (simplify_loop [] p) as [|x new] eqn:E.
  - destruct rel.
    + left. split; [done|]. split; [done|]. intros h. rewrite <- H2. done.
    + right. split; [exists 0%nat, []; split; [done|constructor]|]. split; [done|]. done.
  - right. split; [done|]. split; [done|]. intros _ Hr. apply (f_equal length) in Hr.
    rewrite rev_length in Hr. done.
Qed.

Lemma simplify_path_walk p rel h : walk h (simplify_path p rel) = walk h p.
Proof.
  destruct (simplify_path_cases p rel) as [(-> & _ & H)|(_ & H & _)]; [by rewrite H|done].
Qed.

Lemma simplify_path_idem p rel : simplify_path (simplify_path p rel) rel = simplify_path p rel.
Proof.
  destruct (simplify_path_cases p rel) as [(-> & -> & _)|(H & _ & Hne)]; [done|].
  pose proof (simplify_loop_simple _ H) as Hs. unfold simplify_path at 1.
  destruct (simplify_loop [] (simplify_path p rel)) as [|x new] eqn:E; [|done].
  destruct rel; [|done]. exfalso. cbn in Hs. by apply Hne.
Qed.

Lemma simple_walk k ns : forall h,
  walk h (replicate k Parent ++ map Name ns) = rev ns ++ drop k h.
Proof.
  induction k as [|k IH]; intros h; cbn [replicate app walk].
  - revert h. induction ns as [|s ns IHn]; intros h; cbn [map walk rev]; [done|].
    rewrite IHn, drop_0, <- app_assoc. done.
  - rewrite IH. f_equal. destruct h; cbn; [by rewrite drop_nil|done].
Qed.

Lemma names_map ns : Forall is_name ns -> exists ss, ns = map Name ss.
Proof.
  induction 1 as [|x ns Hx _ [ss ->]]; [by exists []|]. destruct x as [| |s]; [done|done|].
  by exists (s :: ss).
Qed.

(** A name longer than all of a list is not in it. *)
Lemma fresh_name (l : list name) : exists x, x ∉ l.
Proof.
  assert (H : exists n, forall y, y ∈ l -> (length y < n)%nat).
  { induction l as [|y l [n Hn]]; [exists 0%nat; intros y Hy; by apply elem_of_nil in Hy|].
    exists (S (length y) + n)%nat. intros z [->|Hz]%elem_of_cons; [lia|]. specialize (Hn z Hz). lia. }
  destruct H as [n Hn]. exists (replicate n 0). intros Hin. specialize (Hn _ Hin).
  rewrite replicate_length in Hn. lia.
Qed.

(** Two simple paths with the same meaning are the same. *)
Lemma simple_unique p q : simple_path p -> simple_path q ->
  (forall h, walk h p = walk h q) -> p = q.
Proof.
  intros (k & ns & -> & Hn) (j & ms & -> & Hm) H.
  apply names_map in Hn as [xs ->]. apply names_map in Hm as [ys ->].
  destruct (fresh_name (xs ++ ys)) as [z Hz]. rewrite elem_of_app in Hz.
  specialize (H (replicate (k + j) z)). rewrite !simple_walk, !drop_replicate in H.
  assert (Hgen : forall a b (xs ys : list name), z ∉ ys ->
    rev xs ++ replicate a z = rev ys ++ replicate b z -> (a <= b)%nat).
  { clear. intros a b xs ys Hy E. destruct (decide (a <= b)%nat); [done|]. exfalso.
    assert (Hl := f_equal length E). rewrite !app_length, !rev_length, !replicate_length in Hl.
    apply (f_equal (fun l => l !! length xs)) in E.
    rewrite lookup_app_r in E by (rewrite rev_length; lia). rewrite rev_length, Nat.sub_diag in E.
    rewrite lookup_replicate_2 in E by lia. rewrite lookup_app_l in E by (rewrite rev_length; lia).
    symmetry in E. apply elem_of_list_lookup_2 in E. apply Hy. by apply elem_of_list_In, in_rev, elem_of_list_In. }
  assert (H1 := Hgen _ _ xs ys ltac:(tauto) H). assert (H2 := Hgen _ _ ys xs ltac:(tauto) (eq_sym H)).
  assert (k = j) as -> by lia. apply app_inv_tail in H. apply (f_equal (@rev _)) in H.
  rewrite !rev_involutive in H. by subst.
Qed.

(** * Locators *)

Lemma canonicalize_made p : Forall made_item p -> canonicalize_path p = p.
Proof.
  intros H. unfold canonicalize_path. rewrite <- (map_id p) at 2. apply map_ext_Forall.
  eapply Forall_impl; [exact H|]. cbn. intros [| |s] Hx; [done..|]. destruct Hx as [H1 H2]. cbn.
  rewrite bool_decide_false by done. by rewrite bool_decide_false.
Qed.

Lemma canonicalize_makes p : Forall made_item (canonicalize_path p).
Proof.
  unfold canonicalize_path. apply Forall_map, Forall_forall. intros [| |s] _; [done..|]. cbn.
  destruct (decide (s = [dot])) as [->|H1]; [done|]. rewrite (bool_decide_false (s = [dot])) by done.
  destruct (decide (s = [dot; dot])) as [->|H2]; [done|]. by rewrite bool_decide_false.
Qed.

Lemma make_dir_path_made p rel : Forall made_item p -> make_dir_path p rel = Val (Dir rel p).
Proof. intros H. unfold make_dir_path, make_dir. by rewrite canonicalize_made. Qed.

Lemma simplify_loop_made p : forall new, Forall made_item new -> Forall made_item p ->
  Forall made_item (simplify_loop new p).
Proof.
  induction p as [|x p IH]; intros new Hn Hp; cbn [simplify_loop]; [done|].
  inversion Hp as [|? ? Hx Hp']; subst. destruct x as [| |s].
  - by apply IH.
  - destruct new as [|y new']; [apply IH; [by repeat constructor|done]|].
    inversion Hn; subst. destruct y; apply IH; try done. by constructor.
  - apply IH; [by constructor|done].
Qed.

Lemma simplify_path_made p rel : Forall made_item p -> Forall made_item (simplify_path p rel).
Proof.
  intros H. unfold simplify_path. apply Forall_rev.
  pose proof (simplify_loop_made p [] (List.Forall_nil _) H) as H1.
  destruct (simplify_loop [] p); [|done]. destruct rel; by repeat constructor.
Qed.

Lemma simplify_dir_ok d : made_dir d ->
  simplify_dir d = Val (Dir (d_relative d) (simplify_path (d_path d) (d_relative d))).
Proof.
  intros H. unfold simplify_dir.
  destruct (decide (d_path d = simplify_path (d_path d) (d_relative d))) as [E|E].
  - rewrite bool_decide_true by done. rewrite <- E. by destruct d.
  - rewrite bool_decide_false by done. apply make_dir_path_made. by apply simplify_path_made.
Qed.

Lemma make_file_parts d b e : make_file d (Some b) e None = Val (File (drop_current d) b e).
Proof. unfold make_file. cbn [obind]. by destruct e. Qed.

Definition simplified (d : dir) : dir :=
  Dir (d_relative d) (simplify_path (d_path d) (d_relative d)).

Lemma simplify_file_ok f : made_file f ->
  simplify_file f =
    Val (File (match f_directory f with Some d => drop_current (Some (simplified d)) | None => None end)
              (f_base f) (f_extension f)).
Proof.
  intros H. unfold simplify_file. destruct f as [[d|] b e]; cbn [f_directory f_base f_extension] in *.
  - destruct (H d eq_refl) as [H1 H2]. rewrite simplify_dir_ok by done. cbn [obind].
    fold (simplified d). destruct (decide (Some d = Some (simplified d))) as [E|E].
    + rewrite bool_decide_true by done. injection E as E. rewrite <- E.
      by rewrite drop_current_other.
    + rewrite bool_decide_false by done. apply make_file_parts.
  - cbn [obind]. rewrite bool_decide_true by done. done.
Qed.

(** * relative and merge *)

Lemma relative_path_loop_ok fuel : forall i path from,
  0 <= i -> (length path - Z.to_nat i < fuel)%nat ->
  take (Z.to_nat i) path = take (Z.to_nat i) from ->
  i <= size path -> i <= size from ->
  exists c p f, path = c ++ p /\ from = c ++ f /\ (Z.to_nat i <= length c)%nat /\
    relative_path_loop fuel path from i = Val (replicate (length f) Parent ++ p) /\
    (forall x y p' f', p = x :: p' -> f = y :: f' -> x <> y).
Proof.
  induction fuel as [|fuel IH]; [lia|]. intros i path from Hi Hfu Ht H1 H2.
  cbn [relative_path_loop].
  assert (Hp : path = take (Z.to_nat i) path ++ drop (Z.to_nat i) path) by by rewrite take_drop.
  assert (Hf : from = take (Z.to_nat i) path ++ drop (Z.to_nat i) from) by by rewrite Ht, take_drop.
  assert (Hlen : length (take (Z.to_nat i) path) = Z.to_nat i) by (rewrite take_length; unfold size in *; lia).
  assert (Hcp : copy_sequence path i (size path) = Val (drop (Z.to_nat i) path)).
  { rewrite copy_sequence_ok by lia. f_equal. unfold subseq. apply take_ge.
    rewrite drop_length. unfold size. lia. }
  destruct (decide (i = size path)) as [E1|E1].
  - rewrite bool_decide_true by done. rewrite bool_decide_false by lia.
    exists (take (Z.to_nat i) path), [], (drop (Z.to_nat i) from).
    rewrite app_nil_r. split; [rewrite take_ge; [done|unfold size in *; lia]|]. split; [done|].
    split; [lia|]. split; [|done]. rewrite app_nil_r, drop_length. do 2 f_equal. unfold size. lia.
  - rewrite bool_decide_false by done. destruct (decide (i = size from)) as [E2|E2].
    + rewrite bool_decide_true by done. rewrite Hcp.
      exists (take (Z.to_nat i) path), (drop (Z.to_nat i) path), []. split; [done|].
      split; [rewrite app_nil_r, Ht, take_ge; [done|unfold size in *; lia]|]. split; [lia|].
      split; [done|]. done.
    + rewrite bool_decide_false by done.
      destruct (elt_lookup path i) as (a & Ha & ->); [lia|].
      destruct (elt_lookup from i) as (b & Hb & ->); [lia|]. cbn [obind].
      destruct (decide (a = b)) as [->|Hab].
      * rewrite bool_decide_true by done.
        destruct (IH (i + 1) path from) as (c & p & f & Ep & Ef & Hc & Hr & Hne); [lia|unfold size in *; lia| |lia|lia|].
        { replace (Z.to_nat (i + 1)) with (S (Z.to_nat i)) by lia.
          rewrite (take_S_r _ _ _ Ha), (take_S_r _ _ _ Hb), Ht. done. }
        exists c, p, f. split; [done|]. split; [done|]. split; [lia|]. done.
      * rewrite bool_decide_false by done. rewrite Hcp. cbn [obind].
        exists (take (Z.to_nat i) path), (drop (Z.to_nat i) path), (drop (Z.to_nat i) from).
        split; [done|]. split; [done|]. split; [lia|]. split.
        -- f_equal. f_equal. rewrite drop_length. f_equal. unfold size. lia.
        -- intros x y p' f' Ex Ey. rewrite (drop_S _ _ _ Ha) in Ex. rewrite (drop_S _ _ _ Hb) in Ey.
           congruence.
Qed.

Lemma relative_path_ok path from :
  exists c p f, path = c ++ p /\ from = c ++ f /\
    relative_path path from = Val (replicate (length f) Parent ++ p) /\
    (forall x y p' f', p = x :: p' -> f = y :: f' -> x <> y).
Proof.
  destruct (relative_path_loop_ok (S (length path)) 0 path from)
    as (c & p & f & H1 & H2 & _ & H3 & H4); [lia|lia|done|unfold size; lia|unfold size; lia|].
  exists c, p, f. done.
Qed.

Lemma walk_names_parents f : Forall is_name f -> forall h,
  walk h (f ++ replicate (length f) Parent) = h.
Proof.
  induction f as [|x f IH] using rev_ind; intros HF h; [done|].
  apply Forall_app in HF as [Hf Hx]. apply Forall_inv in Hx. specialize (IH Hf).
  rewrite app_length. cbn [length]. rewrite replicate_add. change (replicate 1 Parent) with [Parent].
  assert (Hc : replicate (length f) Parent ++ [Parent] = Parent :: replicate (length f) Parent).
  { rewrite <- replicate_S_end. done. }
  rewrite Hc. rewrite <- app_assoc. cbn [app].
  destruct x as [| |s]; [done..|]. rewrite walk_app. cbn [walk tail]. rewrite <- walk_app. apply IH.
Qed.

(** A shorter common prefix leaves a longer rest. *)
Lemma longest_prefix (c p f c' p' f' : list item) :
  c ++ p = c' ++ p' -> c ++ f = c' ++ f' ->
  (forall x y u v, p' = x :: u -> f' = y :: v -> x <> y) -> exists g, f = g ++ f'.
Proof.
  intros Hp Hf Hne. destruct (decide (length c <= length c')%nat) as [Hle|Hgt].
  - assert (Hc : c' = c ++ drop (length c) c').
    { apply (f_equal (take (length c))) in Hp. rewrite take_app, take_app_le in Hp by lia.
      rewrite Hp at 1. by rewrite take_drop. }
    exists (drop (length c) c'). rewrite Hc in Hf at 1. rewrite <- app_assoc in Hf.
    by apply app_inv_head in Hf.
  - exfalso. assert (Hlt : (length c' < length c)%nat) by lia.
    destruct (lookup_lt_is_Some_2 c (length c') Hlt) as [x Hx].
    assert (Hpx : p' = x :: tail p').
    { apply (f_equal (fun l => l !! length c')) in Hp.
      rewrite lookup_app_l in Hp by lia. rewrite lookup_app_r, Nat.sub_diag in Hp by lia.
      rewrite Hx in Hp. destruct p'; [done|]. injection Hp as ->. done. }
    assert (Hfx : f' = x :: tail f').
    { apply (f_equal (fun l => l !! length c')) in Hf.
      rewrite lookup_app_l in Hf by lia. rewrite lookup_app_r, Nat.sub_diag in Hf by lia.
      rewrite Hx in Hf. destruct f'; [done|]. injection Hf as ->. done. }
    by eapply Hne.
Qed.

Lemma merge_dir_ok d from : made_dir d -> made_dir from ->
  exists m, merge_dir d from = Val m /\ made_dir m /\
    d_relative m = d_relative d && d_relative from /\
    forall cwd, dir_place cwd m = dir_place (dir_place cwd from) d.
Proof.
  intros H1 H2. unfold merge_dir. destruct (d_relative d) eqn:E.
  - rewrite make_dir_path_made by (by apply Forall_app).
    eexists. split; [done|]. split; [by apply Forall_app|]. split; [done|]. intros cwd.
    unfold dir_place. cbn [d_relative d_path]. by rewrite walk_app, E.
  - exists d. split; [done|]. split; [done|]. split; [done|]. intros cwd.
    unfold dir_place. by rewrite E.
Qed.

Lemma relative_dir_ok d from c p f :
  made_dir d -> made_dir from -> d_relative d = d_relative from ->
  d_path d = c ++ p -> d_path from = c ++ f -> Forall is_name f ->
  exists r, relative_dir d from = Val r /\ made_dir r /\ d_relative r = true /\
    (forall cwd, walk (dir_place cwd from) (d_path r) = dir_place cwd d) /\ d_path r <> [].
Proof.
  intros Hd Hfr Hrel Hp Hf Hn. unfold relative_dir.
  assert (negb (d_relative d) && d_relative from = false) as -> by (rewrite Hrel; by destruct (d_relative from)).
  destruct (decide (d_path d = d_path from)) as [E|E].
  - rewrite bool_decide_true by done. rewrite make_dir_path_made by (by repeat constructor).
    eexists. split; [done|]. split; [by repeat constructor|]. split; [done|]. split; [|done].
    intros cwd. unfold dir_place. cbn [d_path walk]. by rewrite Hrel, E.
  - rewrite bool_decide_false by done.
    destruct (relative_path_ok (d_path d) (d_path from)) as (c' & p' & f' & Ep & Ef & -> & Hne).
    cbn [obind].
    assert (HM : Forall made_item (replicate (length f') Parent ++ p')).
    { apply Forall_app. split; [by apply Forall_replicate|].
      unfold made_dir in Hd. rewrite Ep in Hd. by apply Forall_app in Hd as [_ ?]. }
    rewrite make_dir_path_made by done. eexists. split; [done|]. split; [done|]. split; [done|].
    destruct (longest_prefix c p f c' p' f') as [g Hg]; [congruence|congruence|done|].
    assert (Hn' : Forall is_name f') by (rewrite Hg in Hn; by apply Forall_app in Hn as [_ ?]).
    split.
    + intros cwd. unfold dir_place. cbn [d_path]. rewrite Ef, Ep, Hrel, !walk_app.
      rewrite <- (walk_app f'). by rewrite walk_names_parents.
    + cbn [d_path]. intros [H1 H2]%app_eq_nil. subst p'.
      destruct f' as [|z f']; [|done]. apply E. by rewrite Ep, Ef.
Qed.
