(** Theorems about name mangling and demangling. *)
From Coq Require Import ZifyBool ZifyNat ZifyN.
From Verif Require Import Base MangleModel MangleSpec MangleProofs.
Local Open Scope nat_scope.
Local Open Scope outcome_scope.

Lemma no_uppercase_lowercase s : no_uppercase s -> lowercase s.
Proof.
  unfold lowercase, as_lowercase. induction 1 as [|c s Hc Hs IH]; [done|]. cbn [map]. rewrite IH.
  f_equal. unfold lower_char. destruct (_ && _) eqn:E; [|done].
  rewrite andb_true_iff, !Nat.leb_le in E. lia.
Qed.

Lemma no_hash_free s : no_hash s -> hash_free s.
Proof. unfold no_hash, hash_free. rewrite Forall_forall. intros H Hin. by apply (H 35). Qed.

Ltac check_name :=
  unfold namespace_name, byte_string, no_uppercase, no_hash, no_comma;
  apply (bool_decide_unpack _); vm_compute; exact I.

(** ** C33: reversibility *)

(** Demangling a mangled name gives the name back. *)
Theorem C33_demangle_mangle s : byte_string s -> demangle_name (mangle_name s) = Val s.
Proof. exact (demangle_mangle s). Qed.

Theorem C33_mangle_name_injective s t :
  byte_string s -> byte_string t -> mangle_name s = mangle_name t -> s = t.
Proof. exact (mangle_name_inj s t). Qed.

(** Mangled text is usable in a C identifier. *)
Theorem C33_mangled_text_is_c_identifier s : byte_string s -> c_identifier_text (mangle_name s).
Proof.
  intros Hs. eapply Forall_impl; [exact (mangle_name_identifier s Hs)|].
  intros c. unfold c_identifier_char, is_digit, is_lower. cbn beta. lia.
Qed.

(** Local names and names with a hygiene marker also come back. *)
Theorem C33_local_names s : byte_string s ->
  demangle_name_locally (mangle_name_locally s) = Val (s, None).
Proof. exact (demangle_locally s). Qed.

Theorem C33_hygienic_names s n : byte_string s ->
  demangle_name_locally (mangle_name_hygienically s n) = Val (s, Some n).
Proof. exact (demangle_hygienically s n). Qed.

(** Distinct bindings get distinct mangled names. *)
Theorem C33_binding_injective v m l v' m' l' :
  byte_string v -> namespace_name m -> namespace_name l ->
  byte_string v' -> namespace_name m' -> namespace_name l' ->
  mangle_binding_spread v m l = mangle_binding_spread v' m' l' ->
  v = v' /\ m = m' /\ l = l'.
Proof.
  intros Hv [Hm ?%no_uppercase_lowercase] [Hl ?%no_uppercase_lowercase]
         Hv' [Hm' ?%no_uppercase_lowercase] [Hl' ?%no_uppercase_lowercase].
  by apply (mangle_binding_inj mangle_name_no_separator).
Qed.

(** The binding comes back from its mangled name when no '#' is used. *)
Theorem C33_binding_round_trip_partial v m l :
  byte_string v -> namespace_name m -> namespace_name l ->
  no_hash v -> no_hash m -> no_hash l -> l <> [] ->
  demangle_binding_spread (mangle_binding_spread v m l) = Val (v, Some m, Some l).
Proof.
  intros Hv [Hm ?%no_uppercase_lowercase] [Hl ?%no_uppercase_lowercase]
    ?%no_hash_free ?%no_hash_free ?%no_hash_free Hne. by apply demangle_binding.
Qed.

(** Missing from the theorem above: with '#' in the variable the module and library are lost. *)
Theorem C33_binding_round_trip_hash_refuted :
  exists v m l, byte_string v /\ namespace_name m /\ namespace_name l /\ l <> [] /\
    demangle_binding_spread (mangle_binding_spread v m l) <> Val (v, Some m, Some l).
Proof.
  exists (txt "a#b"), (txt "foo"), (txt "foo").
  split_and!; try check_name; vm_compute; discriminate.
Qed.

(** Without the lower case restriction two libraries' bindings collide. *)
Theorem C33_binding_uppercase_refuted :
  exists v m l m' l', byte_string v /\ byte_string m /\ byte_string l /\
    byte_string m' /\ byte_string l' /\ (m, l) <> (m', l') /\
    mangle_binding_spread v m l = mangle_binding_spread v m' l'.
Proof.
  exists (txt "x"), (txt "dylan"), (txt "dylan"), (txt "Dylan"), (txt "dylan").
  split_and!; check_name.
Qed.

(** Distinct methods get distinct mangled names. *)
Theorem C33_method_injective v m l n mlib v' m' l' n' mlib' :
  byte_string v -> namespace_name m -> namespace_name l -> byte_string mlib ->
  byte_string v' -> namespace_name m' -> namespace_name l' -> byte_string mlib' ->
  no_hash v -> no_hash m -> no_hash l -> no_hash mlib ->
  no_hash v' -> no_hash m' -> no_hash l' -> no_hash mlib' -> mlib <> [] -> mlib' <> [] ->
  mangle_generic_method (mangle_binding_spread v m l) n mlib l
  = mangle_generic_method (mangle_binding_spread v' m' l') n' mlib' l' ->
  v = v' /\ m = m' /\ l = l' /\ mlib = mlib' /\ n = n'.
Proof.
  intros Hv [Hm ?%no_uppercase_lowercase] [Hl ?%no_uppercase_lowercase] Hml
         Hv' [Hm' ?%no_uppercase_lowercase] [Hl' ?%no_uppercase_lowercase] Hml'
    ?%no_hash_free ?%no_hash_free ?%no_hash_free ?%no_hash_free
    ?%no_hash_free ?%no_hash_free ?%no_hash_free ?%no_hash_free ??.
  by apply generic_method_inj.
Qed.

(** A method's mangled name leads back to its generic function's mangled name ... *)
Theorem C33_method_to_generic v m l n mlib :
  byte_string v -> byte_string m -> byte_string l -> no_hash v -> no_hash m -> no_hash l ->
  extract_generic_function_name (mangle_generic_method (mangle_binding_spread v m l) n mlib l)
  = Val (mangle_constant (mangle_binding_spread v m l)).
Proof.
  intros Hv Hm Hl ?%no_hash_free ?%no_hash_free ?%no_hash_free. by apply extract_generic.
Qed.

(** ... and to its library and number, also from its internal entry point.  When the method
    is in the generic function's library, the library name is demangled twice, so it must be
    one that demangling leaves alone. *)
Theorem C33_method_details_partial v m l n mlib iep :
  byte_string v -> namespace_name m -> namespace_name l -> byte_string mlib ->
  no_hash v -> no_hash m -> no_hash l -> no_hash mlib -> l <> [] -> mlib <> [] ->
  (mlib = l -> demangle_name l = Val l) ->
  iep = [] \/ iep = [iep_suffix] ->
  extract_method_details (mangle_generic_method (mangle_binding_spread v m l) n mlib l ++ iep)
  = Val (Some mlib, mangle_integer n).
Proof.
  intros Hv [Hm ?%no_uppercase_lowercase] [Hl ?%no_uppercase_lowercase] Hml
    ?%no_hash_free ?%no_hash_free ?%no_hash_free ?%no_hash_free ????. by apply extract_details.
Qed.

(** Missing: a library called "my_lib" is reported as "my-lib". *)
Theorem C33_method_details_refuted :
  exists v m l n, byte_string v /\ namespace_name m /\ namespace_name l /\
    no_hash v /\ no_hash m /\ no_hash l /\ l <> [] /\
    extract_method_details (mangle_generic_method (mangle_binding_spread v m l) n l l)
    <> Val (Some l, mangle_integer n).
Proof.
  exists (txt "f"), (txt "m"), (txt "my_lib"), 3.
  split_and!; try check_name; vm_compute; discriminate.
Qed.

Theorem C33_mangle_integer_injective n m : mangle_integer n = mangle_integer m -> n = m.
Proof. exact (mangle_integer_inj n m). Qed.

(** ** C34: the C demangler *)

(** No access outside the two buffers, and the result is NUL-terminated inside the
    destination, provided: bytes are ASCII where char is signed; the text does not end in a
    bare 'K'; and it has no method mark or the buffer is large. *)
Theorem C34_dylan_demangle_safe_partial char_signed src buf :
  (char_signed = true -> Forall (fun c => c < 128) src) ->
  (last src <> Some 75 \/ src = [75]) ->
  (77 ∉ src \/ 64 * (length src + 1) <= length buf) ->
  dylan_demangle char_signed src buf = Val None \/
  exists buf' n, dylan_demangle char_signed src buf = Val (Some (buf', n)) /\
    length buf' = length buf /\ buf' !! n = Some 0.
Proof.
  intros H1 H2 H3. apply dylan_demangle_safe. split_and!; try done.
  destruct H3 as [H3|H3]; [by left|right]. lia.
Qed.

(** Missing, (1): the library copied at a method mark can fill the buffer; the terminating NUL
    is then written one byte past its end, for plain mangled names. *)
Theorem C34_overflow_refuted :
  exists v l n buf,
    dylan_demangle true
      (mangle_generic_method (mangle_binding_spread v l l) n l l ++ [iep_suffix]) buf = UB.
Proof. exists (txt "v"), (txt "lib"), 0, (replicate 10 0). vm_compute. reflexivity. Qed.

(** It happens for every buffer size of three bytes or more. *)
Theorem C34_overflow_every_size_refuted size :
  3 <= size -> exists src, Forall (fun c => 0 < c < 128) src /\
    dylan_demangle true src (replicate size 0) = UB.
Proof.
  intros Hsize.
  set (w := replicate (size - 3) 97).
  assert (Forall c_plain w) as Hw.
  { subst w. apply Forall_replicate. unfold c_plain. lia. }
  exists (mangle_name w ++ library_separator :: [method_mangled_marker]). split.
  { apply Forall_app. split.
    - subst w. clear. induction (size - 3) as [|k IH]; [constructor|].
      change (Forall (fun c => 0 < c < 128) ([97] ++ mangle_name (replicate k 97))).
      apply Forall_app. split; [repeat constructor; lia|exact IH].
    - repeat constructor; vm_compute; lia. }
  set (src := mangle_name w ++ library_separator :: [method_mangled_marker]).
  assert (length w = size - 3) as Lw by (subst w; apply replicate_length).
  assert (src = [] ++ mangle_name w ++ library_separator :: [method_mangled_marker]) as S1 by done.
  assert (w = [] \/ exists w', w = 97 :: w') as Hw97.
  { subst w. destruct (size - 3); cbn; eauto. }
  clearbody src w.
  destruct size as [|size]; [lia|]. cbn [replicate]. unfold dylan_demangle.
  change (0 :: replicate size 0) with (replicate (S size) 0). rewrite replicate_length.
  replace (S size - 1) with size by lia.
  assert (rd src 0 <> Val constant_prefix /\ exists c, rd src 0 = Val c) as [Hc0 [c0 Ec0]].
  { rewrite S1. destruct Hw97 as [->|[w' ->]]; vm_compute; split; eauto; discriminate. }
  rewrite Ec0 in *. cbn [obind].
  destruct (Nat.eqb_spec c0 constant_prefix) as [->|_]; [done|]. clear Hc0 Ec0 c0.
  pose proof (c_run_name true src size w Hw [] _ [] (replicate (S size) 0) false None S1
    ltac:(cbn [length]; lia) ltac:(rewrite replicate_length; lia)) as R1.
  cbn [app] in R1. rewrite drop_replicate, Lw in R1.
  replace (S size - (S size - 3)) with 3 in R1 by lia. cbn [replicate] in R1.
  assert (src = mangle_name w ++ library_separator :: [method_mangled_marker]) as S2 by (by rewrite S1).
  pose proof (c_run_V true src size _ _ w 0 [0; 0] false None S2 ltac:(lia)) as R2.
  pose proof (c_reaches_trans _ _ _ _ _ _ _ _ R1 R2) as R.
  assert (length src = length (mangle_name w) + 2) as Ls by (rewrite S2, app_length; done).
  assert (length w <= length (mangle_name w)) as Hlen.
  { clear. induction w as [|c t IH]; cbn [mangle_name flat_map length]; [lia|].
    rewrite app_length. pose proof (mangle_char_length c). fold (mangle_name t). lia. }
  change (CState 0 0 (replicate (S size) 0) false None) with (cst [] [] (replicate (S size) 0) false None).
  replace (S (length src)) with ((S size - 3 + 1) + S (length src - (S size - 3 + 1))) by lia.
  rewrite R. clear R R1 R2.
  remember (length src - (S size - 3 + 1)) as f eqn:Ef. cbn [c_loop].
  assert (src = (mangle_name w ++ [library_separator]) ++ [method_mangled_marker]) as S3
    by (by rewrite S2, <- (assoc_L (++))).
  assert (rd src (length (mangle_name w ++ [library_separator])) = Val method_mangled_marker) as Hrd
    by (rewrite S3; by apply rd_mid).
  unfold cst at 1 2. cbn [cs_src cs_dest]. rewrite Hrd. cbn [obind].
  change (Nat.eqb method_mangled_marker 0) with false. cbn [negb andb].
  destruct (Nat.ltb_spec (length (w ++ [58])) size) as [_|Hge];
    [|rewrite app_length in Hge; cbn [length] in Hge; lia].
  unfold c_body, cst. rewrite Hrd. cbn [obind].
  change (demangle_map true method_mangled_marker) with (Val 0). cbn [obind Nat.eqb negb].
  change (Nat.eqb method_mangled_marker escape_separator) with false.
  change (Nat.eqb method_mangled_marker dylan_module_separator) with false.
  change (Nat.eqb method_mangled_marker module_separator) with false.
  change (Nat.eqb method_mangled_marker library_separator) with false. cbn iota.
  change (Nat.eqb method_mangled_marker method_mangled_marker) with true. cbn [orb negb].
  pose proof (copy_library_run size [58] w [] [0; 0] (length (w ++ [58]))) as Hcl.
  cbn [length app] in Hcl. rewrite Nat.add_0_r in Hcl.
  rewrite <- (assoc_L (++) w [58] [0; 0]). cbn [app].
  rewrite app_length in Hcl |- *. cbn [length app] in Hcl |- *.
  rewrite Hcl by lia. cbn [obind drop].
  replace (w ++ [58; 58; 0]) with ((w ++ [58; 58]) ++ [0]) by (by rewrite <- (assoc_L (++))).
  rewrite vwrite_mid by (rewrite app_length; cbn [length]; lia). cbn [obind].
  assert (forall st, rd src (cs_src st) = Val 0 -> c_loop true src f size st = Val (Some st)) as Hdone.
  { intros st Hst. destruct f; cbn [c_loop]; rewrite Hst; done. }
  rewrite Hdone.
  2:{ cbn [cs_src]. replace (S (length (mangle_name w ++ [library_separator]))) with (length src).
      - unfold rd. rewrite lookup_ge_None_2 by lia. by rewrite Nat.eqb_refl.
      - rewrite S3, !app_length. cbn [length]. lia. }
  cbn [obind cs_buf cs_dest]. unfold vwrite. rewrite bool_decide_false; [done|].
  repeat (rewrite app_length; cbn [length]). lia.
Qed.

(** Missing, (2): a text ending in a bare K makes it read past the terminating NUL. *)
Theorem C34_overread_refuted size cs :
  1 < size -> dylan_demangle cs (txt "KK") (replicate size 0) = UB.
Proof.
  intros H. destruct size as [|[|size]]; [lia|lia|].
  cbn [replicate]. unfold dylan_demangle. cbn [length].
  change (S (S (length (replicate size 0))) - 1) with (S (length (replicate size 0))).
  destruct cs; reflexivity.
Qed.

(** Missing, (3): where char is signed, a byte of 128 or more indexes before the table. *)
Theorem C34_signed_char_refuted c size :
  128 <= c -> 1 < size -> dylan_demangle true [c] (replicate size 0) = UB.
Proof.
  intros Hc Hs. destruct size as [|[|size]]; [lia|lia|].
  cbn [replicate]. unfold dylan_demangle. cbn [length].
  change (S (S (length (replicate size 0))) - 1) with (S (length (replicate size 0))).
  change (rd [c] 0) with (Val c). cbn [obind].
  destruct (Nat.eqb_spec c constant_prefix) as [->|_]; [vm_compute in Hc; lia|].
  cbn [c_loop cs_src cs_dest]. change (rd [c] 0) with (Val c). cbn [obind].
  destruct (Nat.eqb_spec c 0); [lia|]. cbn [negb andb Nat.ltb Nat.leb c_body].
  change (rd [c] 0) with (Val c). cbn [obind]. unfold demangle_map. cbn [andb].
  destruct (Nat.leb_spec 128 c); [done|lia].
Qed.

(** With a large enough buffer, the text printed for a method's internal entry point is
    variable:module:library#method-library#number (the method library is left out when it is
    the generic function's), NUL-terminated. *)
Theorem C34_demangles_entry_points cs v m l mlib n buf :
  byte_string v -> namespace_name m -> namespace_name l -> byte_string mlib ->
  no_hash v -> no_hash m -> no_hash l -> no_hash mlib ->
  no_comma v -> no_comma m -> no_comma l -> no_comma mlib ->
  let text := v ++ [colon] ++ m ++ [colon] ++ l ++ [hash]
              ++ (if bool_decide (l = mlib) then [] else mlib) ++ [hash] ++ mangle_integer n in
  length text + 1 < length buf ->
  exists rest,
    dylan_demangle cs
      (mangle_generic_method (mangle_binding_spread v m l) n mlib l ++ [iep_suffix]) buf
    = Val (Some (text ++ 0 :: rest, length text)) /\ length (text ++ 0 :: rest) = length buf.
Proof.
  intros Hv [Hm ?%no_uppercase_lowercase] [Hl ?%no_uppercase_lowercase] Hml ????????.
  assert (forall s, byte_string s -> no_hash s -> no_comma s -> Forall c_plain s) as Hp.
  { intros s. unfold byte_string, no_hash, no_comma, c_plain. rewrite !Forall_forall. naive_solver. }
  apply c_demangles_iep; auto.
Qed.

(** *** Non-vacuity *)
Example mangle_example :
  mangle_binding_spread (txt "make-<Foo>!") (txt "my-module") (txt "my-lib")
  = txt "make_LZ70ZooGXYmy_moduleVmy_lib".
Proof. reflexivity. Qed.

Example mangle_dylan_example :
  mangle_binding_spread (txt "size") (txt "dylan") (txt "dylan") = txt "sizeVKd" /\
  demangle_binding_spread (txt "sizeVKd") = Val (txt "size", Some (txt "dylan"), Some (txt "dylan")).
Proof. split; reflexivity. Qed.

Example namespace_example : namespace_name (txt "common-dylan") /\ no_hash (txt "common-dylan").
Proof. split_and!; check_name. Qed.

Example c_demangle_example :
  dylan_demangle true (txt "KsizeVKdMM0I") (replicate 24 1)
  = Val (Some (txt "size:dylan:dylan##0" ++ 0 :: replicate 4 1, 19)).
Proof. reflexivity. Qed.

Print Assumptions C33_demangle_mangle.
Print Assumptions C33_mangle_name_injective.
Print Assumptions C33_mangled_text_is_c_identifier.
Print Assumptions C33_local_names.
Print Assumptions C33_hygienic_names.
Print Assumptions C33_binding_injective.
Print Assumptions C33_binding_round_trip_partial.
Print Assumptions C33_binding_round_trip_hash_refuted.
Print Assumptions C33_binding_uppercase_refuted.
Print Assumptions C33_method_injective.
Print Assumptions C33_method_to_generic.
Print Assumptions C33_method_details_partial.
Print Assumptions C33_method_details_refuted.
Print Assumptions C33_mangle_integer_injective.
Print Assumptions C34_dylan_demangle_safe_partial.
Print Assumptions C34_overflow_refuted.
Print Assumptions C34_overflow_every_size_refuted.
Print Assumptions C34_overread_refuted.
Print Assumptions C34_signed_char_refuted.
Print Assumptions C34_demangles_entry_points.
