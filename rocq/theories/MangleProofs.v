(** Proofs about name mangling. *)
From Coq Require Import ZifyBool ZifyNat ZifyN.
From Verif Require Import Base MangleModel.
Local Open Scope nat_scope.
Local Open Scope outcome_scope.
Ltac Zify.zify_post_hook ::= Z.div_mod_to_equations.

Lemma byte_cases (P : nat -> bool) :
  forallb P (seq 0 256) = true -> forall c, c < 256 -> P c = true.
Proof.
  intros H c Hc. rewrite forallb_forall in H. apply H, in_seq. lia.
Qed.

Notation byte := (fun c : nat => c < 256).

(** ** Digits *)
Lemma read_digits_app n d rest :
  Forall (fun c => is_digit c = true) d ->
  read_digits n (d ++ rest) = read_digits (fold_left (fun a c => a * 10 + (c - 48)) d n) rest.
Proof.
  revert n. induction d as [|c d IH]; intros n Hd; [done|].
  apply Forall_cons in Hd as [Hc Hd]. cbn [app read_digits fold_left]. rewrite Hc. by apply IH.
Qed.

Lemma mangle_integer_loop_spec fuel n : n < fuel ->
  Forall (fun c => is_digit c = true) (mangle_integer_loop fuel n) /\
  fold_left (fun a c => a * 10 + (c - 48)) (mangle_integer_loop fuel n) 0 = n /\
  mangle_integer_loop fuel n <> [].
Proof.
  revert n. induction fuel as [|f IH]; intros n Hn; [lia|]. cbn [mangle_integer_loop].
  assert (is_digit (48 + n mod 10) = true) as Hd.
  { unfold is_digit. rewrite andb_true_iff, !Nat.leb_le. pose proof (Nat.mod_upper_bound n 10). lia. }
  pose proof (Nat.div_mod n 10 ltac:(lia)) as Hdm.
  pose proof (Nat.mod_upper_bound n 10 ltac:(lia)) as Hub.
  destruct (Nat.eqb_spec (n / 10) 0) as [Hq|Hq].
  - split_and!; [by constructor| |done]. cbn [fold_left]. lia.
  - destruct (IH (n / 10)) as (H1 & H2 & H3); [lia|].
    split_and!.
    + apply Forall_app. split; [done|]. by constructor.
    + rewrite fold_left_app. rewrite H2. cbn [fold_left]. lia.
    + intros H. apply app_nil in H as [_ H]. done.
Qed.

Lemma mangle_integer_digits n : Forall (fun c => is_digit c = true) (mangle_integer n).
Proof. apply mangle_integer_loop_spec. lia. Qed.

Lemma mangle_integer_nonempty n : mangle_integer n <> [].
Proof. apply mangle_integer_loop_spec. lia. Qed.

Lemma read_mangle_integer n : fst (read_digits 0 (mangle_integer n)) = n.
Proof.
  rewrite <- (app_nil_r (mangle_integer n)), read_digits_app by apply mangle_integer_digits.
  cbn [read_digits fst]. apply mangle_integer_loop_spec. lia.
Qed.

Lemma mangle_integer_inj n m : mangle_integer n = mangle_integer m -> n = m.
Proof. intros H. by rewrite <- (read_mangle_integer n), H, read_mangle_integer. Qed.

(** ** Single characters *)
Lemma demangle_char c f rest : c < 256 ->
  demangle_loop (S f) (mangle_char c ++ rest) = (do t <- demangle_loop f rest; Val (c :: t)).
Proof.
  intros Hc. do 256 (destruct c as [|c]; [reflexivity|]). lia.
Qed.

Lemma mangle_char_length c : 1 <= length (mangle_char c).
Proof.
  unfold mangle_char. destruct (is_digit c); [simpl; lia|]. destruct (is_lower c); [simpl; lia|].
  destruct (assoc_nat c mangles_data); simpl; lia.
Qed.

Lemma demangle_loop_mangle s : Forall byte s -> forall f,
  length (mangle_name s) <= f -> demangle_loop f (mangle_name s) = Val s.
Proof.
  induction s as [|c s IH]; intros Hs f Hf.
  - by destruct f.
  - apply Forall_cons in Hs as [Hc Hs]. cbn [mangle_name flat_map] in *.
    rewrite app_length in Hf. pose proof (mangle_char_length c).
    destruct f as [|f]; [lia|]. rewrite demangle_char by done.
    unfold mangle_name in IH. rewrite IH; [done|done|lia].
Qed.

Lemma demangle_mangle s : Forall byte s -> demangle_name (mangle_name s) = Val s.
Proof. intros Hs. by apply demangle_loop_mangle. Qed.

Lemma mangle_name_inj s t : Forall byte s -> Forall byte t -> mangle_name s = mangle_name t -> s = t.
Proof.
  intros Hs Ht H. apply demangle_mangle in Hs, Ht. rewrite H in Hs. congruence.
Qed.

(** Letters, digits and underscore. *)
Definition c_identifier_char (c : nat) : bool :=
  is_digit c || is_lower c || ((65 <=? c) && (c <=? 90)) || (c =? 95).

Lemma mangle_name_Forall (P : nat -> bool) s :
  forallb (fun c => forallb P (mangle_char c)) (seq 0 256) = true ->
  Forall byte s -> Forall (fun c => P c = true) (mangle_name s).
Proof.
  intros HP Hs. induction s as [|c s IH]; [constructor|].
  apply Forall_cons in Hs as [Hc Hs]. cbn [mangle_name flat_map]. apply Forall_app. split.
  - pose proof (byte_cases _ HP c Hc) as H. cbn beta in H.
    rewrite forallb_forall in H. apply Forall_forall. intros x Hx. apply H. by apply elem_of_list_In.
  - by apply IH.
Qed.

Lemma mangle_name_identifier s : Forall byte s ->
  Forall (fun c => c_identifier_char c = true) (mangle_name s).
Proof. apply mangle_name_Forall. vm_compute. reflexivity. Qed.

(** The separators never occur in mangled text. *)
Definition is_separator (c : nat) : bool :=
  existsb (Nat.eqb c) [module_separator; library_separator; constant_prefix; hygiene_marker;
    wrapper_suffix; iep_suffix; symbol_prefix; 82].

Lemma mangle_name_no_separator s c : Forall byte s -> is_separator c = true -> c ∉ mangle_name s.
Proof.
  intros Hs Hc Hin.
  assert (Forall (fun x => negb (is_separator x) = true) (mangle_name s)) as H.
  { apply mangle_name_Forall; [vm_compute; reflexivity|done]. }
  rewrite Forall_forall in H. specialize (H c Hin). by rewrite Hc in H.
Qed.

Lemma mangle_name_no_M s : Forall byte s -> 35 ∉ s -> method_mangled_marker ∉ mangle_name s.
Proof.
  intros Hs Hn Hin. induction s as [|c s IH].
  - by apply elem_of_nil in Hin.
  - apply Forall_cons in Hs as [Hc Hs]. cbn [mangle_name flat_map] in Hin.
    apply elem_of_app in Hin as [Hin|Hin].
    + assert (forall c, c < 256 -> (c =? 35) || negb (existsb (Nat.eqb method_mangled_marker) (mangle_char c)) = true) as H.
      { apply byte_cases. vm_compute. reflexivity. }
      specialize (H c Hc). destruct (Nat.eqb_spec c 35) as [->|Hne]; [apply Hn; constructor|].
      cbn [orb] in H. apply negb_true_iff in H.
      assert (existsb (Nat.eqb method_mangled_marker) (mangle_char c) = true); [|congruence].
      apply existsb_exists. exists method_mangled_marker. split; [by apply elem_of_list_In|].
      apply Nat.eqb_refl.
    + apply IH; [done| |done]. intros ?. apply Hn. by constructor.
Qed.

(** ** Splitting at separators *)
Lemma split_first c (a a' b b' : bytes) :
  c ∉ a -> c ∉ a' -> a ++ c :: b = a' ++ c :: b' -> a = a' /\ b = b'.
Proof.
  revert a'. induction a as [|x a IH]; intros [|x' a'] Ha Ha' H.
  - by injection H.
  - injection H as -> _. exfalso. apply Ha'. constructor.
  - injection H as -> _. exfalso. apply Ha. constructor.
  - injection H as -> H. rewrite not_elem_of_cons in Ha, Ha'.
    destruct (IH a') as [-> ->]; naive_solver.
Qed.

Lemma find_key_app c a b : c ∉ a -> find_key c (a ++ c :: b) = Some (length a).
Proof.
  induction a as [|x a IH]; intros Ha; cbn [app find_key length].
  - by rewrite Nat.eqb_refl.
  - rewrite not_elem_of_cons in Ha. destruct Ha as [Hne Ha].
    destruct (Nat.eqb_spec x c) as [->|_]; [done|]. by rewrite IH.
Qed.

Lemma find_key_none c a : c ∉ a -> find_key c a = None.
Proof.
  induction a as [|x a IH]; intros Ha; cbn [find_key]; [done|].
  rewrite not_elem_of_cons in Ha. destruct Ha as [Hne Ha].
  destruct (Nat.eqb_spec x c) as [->|_]; [done|]. by rewrite IH.
Qed.

Lemma copy_seq_prefix (a b : bytes) n : n = length a -> copy_seq (a ++ b) 0 n = Val a.
Proof.
  intros ->. unfold copy_seq. rewrite bool_decide_true by (rewrite app_length; lia).
  rewrite drop_0, Nat.sub_0_r, take_app. done.
Qed.

Lemma copy_seq_middle (a b c : bytes) n m :
  n = length a -> m = length a + length b -> copy_seq (a ++ b ++ c) n m = Val b.
Proof.
  intros -> ->. unfold copy_seq. rewrite bool_decide_true by (rewrite !app_length; lia).
  rewrite drop_app. replace (length a + length b - length a) with (length b) by lia.
  by rewrite take_app.
Qed.

Lemma copy_seq_suffix (a b : bytes) n m :
  n = length a -> m = length a + length b -> copy_seq (a ++ b) n m = Val b.
Proof. intros. rewrite <- (app_nil_r b) at 1. by apply copy_seq_middle. Qed.

(** ** Bindings *)
Definition lowercase (s : bytes) : Prop := as_lowercase s = s.

Lemma dylan_abbreviation_spec m a :
  dylan_abbreviation m = Some a ->
  (as_lowercase m, a) ∈ mangle_dylan_module /\ demangle_dylan_module a = Some (as_lowercase m) /\
  is_lower a = true.
Proof.
  unfold dylan_abbreviation. destruct (List.find _ _) as [[m' a']|] eqn:Hf; [|done].
  intros [= ->]. apply List.find_some in Hf as [Hin Heq]. cbn [fst] in Heq.
  rewrite bool_decide_eq_true in Heq. subst m'. rewrite elem_of_list_In. split; [done|].
  revert Hin. generalize (as_lowercase m) as k. intros k Hin.
  repeat (destruct Hin as [Hin|Hin]; [injection Hin as <- <-; vm_compute; done|]).
  destruct Hin.
Qed.

(** The three shapes of a mangled binding. *)
Lemma mangle_namespace_cases m l :
  (as_lowercase l = txt "dylan" /\ exists a, dylan_abbreviation m = Some a /\
     mangle_namespace m l = [library_separator; dylan_module_separator; a]) \/
  (m = l /\ mangle_namespace m l = library_separator :: mangle_name l) \/
  (m <> l /\ mangle_namespace m l
     = module_separator :: mangle_name m ++ library_separator :: mangle_name l).
Proof.
  unfold mangle_namespace, non_dylan_mangle.
  repeat case_bool_decide; try destruct (dylan_abbreviation m) as [a|] eqn:E; cbn [app]; eauto 10.
Qed.

Section binding.
Context (Hsep : forall s c, Forall byte s -> is_separator c = true -> c ∉ mangle_name s).

Lemma mangle_binding_inj v m l v' m' l' :
  Forall byte v -> Forall byte m -> Forall byte l ->
  Forall byte v' -> Forall byte m' -> Forall byte l' ->
  lowercase m -> lowercase l -> lowercase m' -> lowercase l' ->
  mangle_binding_spread v m l = mangle_binding_spread v' m' l' ->
  v = v' /\ m = m' /\ l = l'.
Proof.
  intros Hv Hm Hl Hv' Hm' Hl' Lm Ll Lm' Ll' H. unfold mangle_binding_spread in H.
  assert (forall s, Forall byte s -> module_separator ∉ mangle_name s) as HY by (intros; by apply Hsep).
  assert (forall s, Forall byte s -> library_separator ∉ mangle_name s) as HV by (intros; by apply Hsep).
  assert (forall s, Forall byte s -> dylan_module_separator ∉ mangle_name s) as HK by (intros; by apply Hsep).
  assert (forall (x y : bytes) c, c ∈ x -> x = y -> c ∉ y -> False) as Hno by (intros ???? ->; done).
  assert (forall x, module_separator ∈ mangle_name x ++ module_separator :: mangle_name m ++ library_separator :: mangle_name l) as HinY.
  { intros. apply elem_of_app. right. constructor. }
  assert (forall x, module_separator ∈ mangle_name x ++ module_separator :: mangle_name m' ++ library_separator :: mangle_name l') as HinY'.
  { intros. apply elem_of_app. right. constructor. }
  assert (forall s t, Forall byte s -> Forall byte t -> module_separator ∉ mangle_name s ++ library_separator :: mangle_name t) as HnoE.
  { intros s t Hs Ht. rewrite not_elem_of_app, not_elem_of_cons. split_and!; auto. }
  assert (forall s a, Forall byte s -> is_lower a = true ->
     module_separator ∉ mangle_name s ++ [library_separator; dylan_module_separator; a]) as HnoD.
  { intros s a Hs Ha. rewrite not_elem_of_app, !not_elem_of_cons. split_and!; auto; try done.
    - intros <-. done.
    - apply not_elem_of_nil. }
  destruct (mangle_namespace_cases m l) as [(Hd & a & Ha & Hn)|[(Hd & Hn)|(Hd & Hn)]];
  destruct (mangle_namespace_cases m' l') as [(Hd' & a' & Ha' & Hn')|[(Hd' & Hn')|(Hd' & Hn')]];
  rewrite Hn, Hn' in H.
  - apply split_first in H as [H1 H2]; [|by apply HV..].
    apply mangle_name_inj in H1; [|done..]. subst v'. injection H2 as <-.
    apply dylan_abbreviation_spec in Ha as (_ & Ha & _), Ha' as (_ & Ha' & _).
    rewrite Ha in Ha'. injection Ha'. unfold lowercase in *. rewrite Lm, Lm'. intros ->.
    split_and!; try done. congruence.
  - apply split_first in H as [H1 H2]; [|by apply HV..]. exfalso. apply (HK l' Hl').
    rewrite <- H2. constructor.
  - exfalso. apply dylan_abbreviation_spec in Ha as (_ & _ & Ha).
    apply (HnoD v a Hv Ha). rewrite H. apply HinY'.
  - apply split_first in H as [H1 H2]; [|by apply HV..]. exfalso. apply (HK l Hl).
    rewrite H2. constructor.
  - apply split_first in H as [H1 H2]; [|by apply HV..].
    apply mangle_name_inj in H1; [|done..]. apply mangle_name_inj in H2; [|done..]. by subst.
  - exfalso. apply (HnoE v l Hv Hl). rewrite H. apply HinY'.
  - exfalso. apply dylan_abbreviation_spec in Ha' as (_ & _ & Ha').
    apply (HnoD v' a' Hv' Ha'). rewrite <- H. apply HinY.
  - exfalso. apply (HnoE v' l' Hv' Hl'). rewrite <- H. apply HinY.
  - apply split_first in H as [H1 H2]; [|by apply HY..].
    apply split_first in H2 as [H2 H3]; [|by apply HV..].
    apply mangle_name_inj in H1; [|done..]. apply mangle_name_inj in H2; [|done..].
    apply mangle_name_inj in H3; [|done..]. by subst.
Qed.
End binding.

(** ** Round trips for bindings *)
Definition hash_free (s : bytes) : Prop := 35 ∉ s.

Lemma no_M_namespace m l : Forall byte m -> Forall byte l -> hash_free m -> hash_free l ->
  method_mangled_marker ∉ mangle_namespace m l.
Proof.
  intros Hm Hl Fm Fl.
  destruct (mangle_namespace_cases m l) as [(Hd & a & Ha & ->)|[(Hd & ->)|(Hd & ->)]].
  - apply dylan_abbreviation_spec in Ha as (_ & _ & Ha).
    rewrite !not_elem_of_cons. split_and!; try done; [|apply not_elem_of_nil]. intros <-. done.
  - rewrite not_elem_of_cons. split; [done|]. by apply mangle_name_no_M.
  - rewrite not_elem_of_cons, not_elem_of_app, not_elem_of_cons.
    split_and!; try done; by apply mangle_name_no_M.
Qed.

Lemma no_M_binding v m l : Forall byte v -> Forall byte m -> Forall byte l ->
  hash_free v -> hash_free m -> hash_free l ->
  method_mangled_marker ∉ mangle_binding_spread v m l.
Proof.
  intros Hv Hm Hl Fv Fm Fl. unfold mangle_binding_spread. rewrite not_elem_of_app.
  split; [by apply mangle_name_no_M | by apply no_M_namespace].
Qed.

Lemma mangle_name_nil_inv s : mangle_name s = [] -> s = [].
Proof.
  destruct s as [|c s]; [done|]. cbn [mangle_name flat_map]. intros H.
  apply app_nil in H as [H _]. pose proof (mangle_char_length c). rewrite H in *. simpl in *. lia.
Qed.

(** The variable part [w] is arbitrary text (a method name also carries a K prefix). *)
Lemma demangle_binding_gen w v m l tail :
  demangle_name w = Val v ->
  module_separator ∉ w -> library_separator ∉ w -> method_mangled_marker ∉ w ->
  Forall byte m -> Forall byte l ->
  hash_free m -> hash_free l -> lowercase m -> lowercase l -> l <> [] ->
  (tail = [] \/ exists t, tail = method_mangled_marker :: t) ->
  demangle_binding_spread (w ++ mangle_namespace m l ++ tail) = Val (v, Some m, Some l).
Proof.
  intros Hw HYw HVw HMw Hm Hl Fm Fl Lm Ll Hne Htail.
  assert (forall s, Forall byte s -> module_separator ∉ mangle_name s) as HY
    by (intros; by apply mangle_name_no_separator).
  assert (forall s, Forall byte s -> library_separator ∉ mangle_name s) as HV
    by (intros; by apply mangle_name_no_separator).
  assert (forall s, Forall byte s -> dylan_module_separator ∉ mangle_name s) as HK
    by (intros; by apply mangle_name_no_separator).
  assert (default (length (w ++ mangle_namespace m l ++ tail))
            (find_key method_mangled_marker (w ++ mangle_namespace m l ++ tail))
          = length w + length (mangle_namespace m l)) as Hend.
  { pose proof (no_M_namespace m l Hm Hl Fm Fl) as HM.
    rewrite (assoc_L (++)). destruct Htail as [->|[t ->]].
    - rewrite app_nil_r, find_key_none by (rewrite not_elem_of_app; done).
      cbn [default]. by rewrite app_length.
    - rewrite find_key_app by (rewrite not_elem_of_app; done). cbn [default]. by rewrite app_length. }
  unfold demangle_binding_spread. rewrite Hend. clear Hend.
  destruct (mangle_namespace_cases m l) as [(Hd & a & Ha & ->)|[(Hd & ->)|(Hd & ->)]]; cbn [app].
  - rewrite find_key_app by done. cbn [length]. rewrite bool_decide_true by lia.
    assert (forall msep, find_key module_separator (w ++ library_separator :: dylan_module_separator :: a :: tail) = Some msep -> ~ msep < length w) as Hno.
    { intros msep Hf Hlt.
      assert (forall x i, find_key module_separator x = Some i -> x !! i = Some module_separator) as Hfk.
      { clear. induction x as [|y x IH]; intros i; cbn [find_key]; [done|].
        destruct (Nat.eqb_spec y module_separator) as [->|_]; [by intros [= <-]|].
        destruct (find_key module_separator x); [|done]. intros [= <-]. cbn. by apply IH. }
      apply Hfk in Hf. rewrite lookup_app_l in Hf by done.
      apply HYw. by eapply elem_of_list_lookup_2. }
    replace (match find_key module_separator (w ++ library_separator :: dylan_module_separator :: a :: tail) with
      | Some msep => _ | None => _ end) with
      (do vname <- copy_seq (w ++ library_separator :: dylan_module_separator :: a :: tail) 0 (length w);
       do k <- vread (w ++ library_separator :: dylan_module_separator :: a :: tail) (length w + 1);
       if Nat.eqb k dylan_module_separator then
            do dlname <- demangle_name (txt "dylan");
            do a <- match (w ++ library_separator :: dylan_module_separator :: a :: tail) !! (length w + 2) with
                    | Some a => Val a | None => Signal "element-range-error"%string end;
            do dmname <- match demangle_dylan_module a with
                         | Some m => Val m | None => Signal "element error"%string end;
            do v <- demangle_name vname;
            Val (v, Some dmname, Some dlname)
          else
            do lname <- copy_seq (w ++ library_separator :: dylan_module_separator :: a :: tail) (length w + 1) (length w + 3);
            do dlname <- demangle_name lname;
            do v <- demangle_name vname;
            Val (v, Some dlname, Some dlname)).
    2:{ destruct (find_key module_separator _) as [msep|] eqn:Hf; [|done].
        rewrite bool_decide_false; [done|]. by apply Hno. }
    rewrite copy_seq_prefix by done. cbn [obind].
    rewrite (vread_val _ _ dylan_module_separator).
    2:{ rewrite lookup_app_r by lia. by replace (length w + 1 - length w) with 1 by lia. }
    cbn [obind]. rewrite Nat.eqb_refl.
    replace (demangle_name (txt "dylan")) with (Val (txt "dylan")) by (vm_compute; reflexivity).
    cbn [obind]. rewrite lookup_app_r by lia. replace (length w + 2 - length w) with 2 by lia.
    cbn [lookup list_lookup obind].
    apply dylan_abbreviation_spec in Ha as (_ & Ha & _). rewrite Ha. cbn [obind].
    rewrite Hw. cbn [obind]. unfold lowercase in *. by rewrite Lm, <- Hd, Ll.
  - subst m. rewrite find_key_app by done. cbn [length].
    assert (mangle_name l <> []) as Hnel by (intros ?%mangle_name_nil_inv; done).
    rewrite bool_decide_true by (destruct (mangle_name l); [done|cbn; lia]).
    assert (forall (msep : nat), find_key module_separator (w ++ library_separator :: mangle_name l ++ tail) = Some msep -> ~ msep < length w) as Hno.
    { intros msep Hf Hlt.
      assert (forall x i, find_key module_separator x = Some i -> x !! i = Some module_separator) as Hfk.
      { clear. induction x as [|y x IH]; intros i; cbn [find_key]; [done|].
        destruct (Nat.eqb_spec y module_separator) as [->|_]; [by intros [= <-]|].
        destruct (find_key module_separator x); [|done]. intros [= <-]. cbn. by apply IH. }
      apply Hfk in Hf. rewrite lookup_app_l in Hf by done.
      apply HYw. by eapply elem_of_list_lookup_2. }
    replace (match find_key module_separator (w ++ library_separator :: mangle_name l ++ tail) with
      | Some msep => _ | None => _ end) with
      (do vname <- copy_seq (w ++ library_separator :: mangle_name l ++ tail) 0 (length w);
       do k <- vread (w ++ library_separator :: mangle_name l ++ tail) (length w + 1);
       if Nat.eqb k dylan_module_separator then
            do dlname <- demangle_name (txt "dylan");
            do a <- match (w ++ library_separator :: mangle_name l ++ tail) !! (length w + 2) with
                    | Some a => Val a | None => Signal "element-range-error"%string end;
            do dmname <- match demangle_dylan_module a with
                         | Some m => Val m | None => Signal "element error"%string end;
            do v <- demangle_name vname;
            Val (v, Some dmname, Some dlname)
          else
            do lname <- copy_seq (w ++ library_separator :: mangle_name l ++ tail) (length w + 1) (length w + S (length (mangle_name l)));
            do dlname <- demangle_name lname;
            do v <- demangle_name vname;
            Val (v, Some dlname, Some dlname)).
    2:{ destruct (find_key module_separator _) as [msep|] eqn:Hf; [|done].
        rewrite bool_decide_false; [done|]. by apply Hno. }
    rewrite copy_seq_prefix by done. cbn [obind].
    destruct (mangle_name l) as [|k ml] eqn:Eml; [done|].
    rewrite (vread_val _ _ k).
    2:{ rewrite lookup_app_r by lia. by replace (length w + 1 - length w) with 1 by lia. }
    cbn [obind]. destruct (Nat.eqb_spec k dylan_module_separator) as [->|_].
    { exfalso. apply (HK l Hl). rewrite Eml. constructor. }
    rewrite (cons_middle library_separator), (assoc_L (++)).
    rewrite copy_seq_middle by (rewrite ?app_length; cbn [length]; lia). cbn [obind].
    rewrite <- Eml, demangle_mangle by done. cbn [obind]. by rewrite Hw.
  - replace (w ++ module_separator :: (mangle_name m ++ library_separator :: mangle_name l) ++ tail)
      with ((w ++ module_separator :: mangle_name m) ++ library_separator :: mangle_name l ++ tail)
      by (rewrite <- !(assoc_L (++)); reflexivity).
    rewrite find_key_app.
    2:{ rewrite not_elem_of_app, not_elem_of_cons. split_and!; [done..|by apply HV]. }
    assert (mangle_name l <> []) as Hnel by (intros ?%mangle_name_nil_inv; done).
    rewrite bool_decide_true.
    2:{ destruct (mangle_name l); [done|]. repeat (rewrite app_length; cbn [length]). lia. }
    rewrite <- (assoc_L (++)). cbn [app]. rewrite find_key_app by done.
    rewrite bool_decide_true by (rewrite app_length; cbn [length]; lia).
    rewrite copy_seq_prefix by done. cbn [obind].
    rewrite (cons_middle module_separator), (assoc_L (++)).
    rewrite copy_seq_middle by (rewrite ?app_length; cbn [length]; lia). cbn [obind].
    rewrite (cons_middle library_separator), !(assoc_L (++)), <- (assoc_L (++) _ (mangle_name l)).
    rewrite copy_seq_middle by (repeat (rewrite app_length; cbn [length]); lia). cbn [obind].
    rewrite Hw. cbn [obind]. rewrite !demangle_mangle by done. done.
Qed.

Lemma demangle_binding v m l :
  Forall byte v -> Forall byte m -> Forall byte l ->
  hash_free v -> hash_free m -> hash_free l -> lowercase m -> lowercase l -> l <> [] ->
  demangle_binding_spread (mangle_binding_spread v m l) = Val (v, Some m, Some l).
Proof.
  intros. rewrite <- (app_nil_r (mangle_binding_spread v m l)). unfold mangle_binding_spread.
  rewrite <- (assoc_L (++)). apply demangle_binding_gen; auto.
  - by apply demangle_mangle.
  - by apply mangle_name_no_separator.
  - by apply mangle_name_no_separator.
  - by apply mangle_name_no_M.
Qed.

(** ** Local and hygienic names *)
Lemma demangle_locally s : Forall byte s ->
  demangle_name_locally (mangle_name_locally s) = Val (s, None).
Proof.
  intros Hs. unfold demangle_name_locally, mangle_name_locally.
  rewrite bool_decide_false by (by destruct (mangle_name s)).
  rewrite app_length. cbn [length].
  rewrite (copy_seq_suffix _ [local_suffix]) by (cbn [length]; lia). cbn [obind].
  rewrite bool_decide_true by done. rewrite copy_seq_prefix by lia. cbn [obind].
  by rewrite demangle_mangle.
Qed.

Lemma digits_last n : exists d c, mangle_integer n = d ++ [c] /\ is_digit c = true.
Proof.
  pose proof (mangle_integer_digits n) as Hd. pose proof (mangle_integer_nonempty n) as Hn.
  destruct (exists_last Hn) as (d & c & E). exists d, c. split; [done|].
  rewrite E, Forall_app, Forall_singleton in Hd. tauto.
Qed.

Lemma demangle_hygienically s n : Forall byte s ->
  demangle_name_locally (mangle_name_hygienically s n) = Val (s, Some n).
Proof.
  intros Hs. unfold demangle_name_locally, mangle_name_hygienically.
  rewrite bool_decide_false by (by destruct (mangle_name s)).
  destruct (digits_last n) as (d & c & E & Hc).
  replace (copy_seq (mangle_name s ++ [hygiene_marker] ++ mangle_integer n) _ _) with (Val (A:=bytes) [c]).
  2:{ rewrite E. symmetry. rewrite !(assoc_L (++)). apply copy_seq_suffix;
      rewrite !app_length; cbn [length]; lia. }
  cbn [obind]. rewrite bool_decide_false by (intros [= ->]; done).
  cbn [app]. rewrite find_key_app by (by apply mangle_name_no_separator).
  rewrite cons_middle, (assoc_L (++)).
  rewrite copy_seq_suffix by (rewrite ?app_length; cbn [length]; lia). cbn [obind].
  rewrite <- (assoc_L (++)). rewrite copy_seq_prefix by done. cbn [obind].
  rewrite demangle_mangle by done. cbn [obind]. by rewrite read_mangle_integer.
Qed.

(** ** Methods *)
Lemma digit_not_M n : method_mangled_marker ∉ mangle_integer n.
Proof.
  intros H. pose proof (mangle_integer_digits n) as Hd. rewrite Forall_forall in Hd.
  by specialize (Hd _ H).
Qed.

Lemma extract_generic v m l n mlib :
  Forall byte v -> Forall byte m -> Forall byte l ->
  hash_free v -> hash_free m -> hash_free l ->
  extract_generic_function_name (mangle_generic_method (mangle_binding_spread v m l) n mlib l)
  = Val (mangle_constant (mangle_binding_spread v m l)).
Proof.
  intros. unfold extract_generic_function_name, mangle_generic_method.
  rewrite (assoc_L (++)). set (w := [constant_prefix] ++ mangle_binding_spread v m l).
  assert (method_mangled_marker ∉ w) as HM.
  { subst w. cbn [app]. rewrite not_elem_of_cons. split; [done|]. by apply no_M_binding. }
  cbn [app]. rewrite find_key_app by done. by apply copy_seq_prefix.
Qed.

Lemma extract_details v m l n mlib iep :
  Forall byte v -> Forall byte m -> Forall byte l -> Forall byte mlib ->
  hash_free v -> hash_free m -> hash_free l -> hash_free mlib ->
  lowercase m -> lowercase l -> l <> [] -> mlib <> [] ->
  (mlib = l -> demangle_name l = Val l) ->
  iep = [] \/ iep = [iep_suffix] ->
  extract_method_details (mangle_generic_method (mangle_binding_spread v m l) n mlib l ++ iep)
  = Val (Some mlib, mangle_integer n).
Proof.
  intros Hv Hm Hl Hml Fv Fm Fl Fml Lm Ll Hne Hne2 Hdl Hiep. unfold extract_method_details.
  destruct (digits_last n) as (d & c & E & Hc).
  assert (extract_callable_object_name
    (mangle_generic_method (mangle_binding_spread v m l) n mlib l ++ iep)
    = Val (mangle_generic_method (mangle_binding_spread v m l) n mlib l)) as ->.
  { unfold extract_callable_object_name. destruct Hiep as [->| ->].
    - rewrite app_nil_r. rewrite bool_decide_false; [done|].
      unfold mangle_generic_method. rewrite E, !(assoc_L (++)), last_snoc. intros [= ->]. done.
    - rewrite bool_decide_true by apply last_snoc.
      apply copy_seq_prefix. rewrite app_length. cbn [length]. lia. }
  cbn [obind]. unfold mangle_generic_method at 1 2 3.
  set (lp := if bool_decide (l = mlib) then [] else mangle_name mlib).
  set (K := [constant_prefix] ++ mangle_binding_spread v m l).
  assert ([constant_prefix] ++ mangle_binding_spread v m l ++ [method_mangled_marker] ++ lp ++
     [method_mangled_marker] ++ mangle_integer n
     = K ++ method_mangled_marker :: lp ++ method_mangled_marker :: mangle_integer n) as Efull by done.
  assert (method_mangled_marker ∉ K) as HMK.
  { subst K. cbn [app]. rewrite not_elem_of_cons. split; [done|]. by apply no_M_binding. }
  assert (method_mangled_marker ∉ lp) as HMlp.
  { subst lp. case_bool_decide; [apply not_elem_of_nil|by apply mangle_name_no_M]. }
  rewrite Efull, find_key_app by done. rewrite cons_middle, (assoc_L (++)).
  rewrite copy_seq_suffix by (rewrite ?app_length; cbn [length]; rewrite ?app_length; cbn [length]; lia).
  cbn [obind]. rewrite find_key_app by done. rewrite copy_seq_prefix by done. cbn [obind].
  rewrite (cons_middle _ lp), (assoc_L (++) lp).
  rewrite copy_seq_suffix by (rewrite ?app_length; cbn [length]; rewrite ?app_length; cbn [length]; lia).
  cbn [obind]. subst lp. destruct (bool_decide_reflect (l = mlib)) as [<-|Hneq].
  - rewrite bool_decide_true by done.
    unfold mangle_generic_method. rewrite bool_decide_true by done. unfold mangle_binding_spread.
    replace ([constant_prefix] ++ (mangle_name v ++ mangle_namespace m l) ++
       [method_mangled_marker] ++ [] ++ [method_mangled_marker] ++ mangle_integer n)
      with ((constant_prefix :: mangle_name v) ++ mangle_namespace m l ++
        method_mangled_marker :: [method_mangled_marker] ++ mangle_integer n)
      by (rewrite <- !(assoc_L (++)); reflexivity).
    assert (demangle_name (constant_prefix :: mangle_name v) = Val v) as HKv.
    { unfold demangle_name. cbn [length demangle_loop].
      replace (demangle_entry_of constant_prefix) with DHandler by (vm_compute; done).
      replace (default_handler constant_prefix) with (@nil nat) by (vm_compute; done).
      rewrite demangle_loop_mangle by done. done. }
    erewrite demangle_binding_gen.
    + cbn [obind]. rewrite Hdl by done. done.
    + exact HKv.
    + rewrite not_elem_of_cons; split; [done|]. by apply mangle_name_no_separator.
    + rewrite not_elem_of_cons; split; [done|]. by apply mangle_name_no_separator.
    + rewrite not_elem_of_cons; split; [done|]. by apply mangle_name_no_M.
    + done.
    + done.
    + done.
    + done.
    + done.
    + done.
    + done.
    + right. eauto.
  - rewrite bool_decide_false by (intros ?%mangle_name_nil_inv; done). cbn [obind].
    rewrite demangle_mangle by done. done.
Qed.

Lemma generic_method_inj v m l n mlib v' m' l' n' mlib' :
  Forall byte v -> Forall byte m -> Forall byte l -> Forall byte mlib ->
  Forall byte v' -> Forall byte m' -> Forall byte l' -> Forall byte mlib' ->
  hash_free v -> hash_free m -> hash_free l -> hash_free mlib ->
  hash_free v' -> hash_free m' -> hash_free l' -> hash_free mlib' ->
  lowercase m -> lowercase l -> lowercase m' -> lowercase l' -> mlib <> [] -> mlib' <> [] ->
  mangle_generic_method (mangle_binding_spread v m l) n mlib l
  = mangle_generic_method (mangle_binding_spread v' m' l') n' mlib' l' ->
  v = v' /\ m = m' /\ l = l' /\ mlib = mlib' /\ n = n'.
Proof.
  intros ?????????????????????? H. unfold mangle_generic_method in H. injection H as H.
  apply split_first in H as [E1 E2]; [|by apply no_M_binding..].
  apply mangle_binding_inj in E1 as (-> & -> & ->); [|exact mangle_name_no_separator|done..].
  assert (forall a b : bytes, Forall byte b -> hash_free b ->
    method_mangled_marker ∉ (if bool_decide (a = b) then [] else mangle_name b)) as Hlp.
  { clear. intros a b Hb Fb. case_bool_decide; [apply not_elem_of_nil|by apply mangle_name_no_M]. }
  apply split_first in E2 as [E2 E3]; [|by apply Hlp..].
  apply mangle_integer_inj in E3 as ->. split_and!; try done.
  repeat case_bool_decide; subst; try done.
  - symmetry in E2. apply mangle_name_nil_inv in E2. done.
  - apply mangle_name_nil_inv in E2. done.
  - by apply mangle_name_inj in E2.
Qed.

(** ** The C demangler: memory safety *)
Section c_proofs.
Context (char_signed : bool) (src : bytes).

Lemma rd_val i : i <= length src -> exists c, rd src i = Val c /\
  (i < length src -> src !! i = Some c) /\ (i = length src -> c = 0).
Proof.
  intros Hi. unfold rd. destruct (src !! i) as [c|] eqn:E.
  - exists c. split_and!; try done. intros ->. apply lookup_lt_Some in E. lia.
  - apply lookup_ge_None in E. assert (i = length src) as -> by lia.
    rewrite Nat.eqb_refl. exists 0. split_and!; try done. lia.
Qed.

Lemma put_spec buf d limit t : d <= limit -> limit < length buf ->
  exists buf' d', put buf d limit t = Val (buf', d') /\ length buf' = length buf /\
    d <= d' <= limit /\ d' <= d + length t.
Proof.
  revert buf d. induction t as [|c t IH]; intros buf d Hd Hb; cbn [put].
  - exists buf, d. cbn [length]. split_and!; [done..|lia].
  - destruct (Nat.ltb_spec d limit) as [Hlt|Hge].
    + rewrite vwrite_val by lia. cbn [obind].
      destruct (IH (<[d:=c]> buf) (S d)) as (b & d' & -> & Hb' & Hd' & Hl); [lia|rewrite insert_length; lia|].
      exists b, d'. rewrite insert_length in Hb'. cbn [length]. split_and!; [done..|lia|lia|lia].
    + exists buf, d. cbn [length]. split_and!; [done..|lia|lia].
Qed.

Lemma copy_library_spec n buf d limit lib lib_end :
  lib_end - lib <= n -> lib_end <= d -> d <= limit -> limit < length buf ->
  exists buf' d', copy_library n buf d limit lib lib_end = Val (buf', d') /\
    length buf' = length buf /\ d <= d' <= limit /\ d' <= d + (lib_end - lib).
Proof.
  revert buf d lib. induction n as [|n IH]; intros buf d lib Hn He Hd Hb; cbn [copy_library].
  - destruct (Nat.ltb_spec lib lib_end); [lia|]. cbn [andb]. exists buf, d. split_and!; [done..|lia].
  - destruct (Nat.ltb_spec lib lib_end) as [Hl|Hl]; cbn [andb].
    2:{ exists buf, d. split_and!; [done..|lia]. }
    destruct (Nat.ltb_spec d limit) as [Hlt|Hge].
    2:{ exists buf, d. split_and!; [done..|lia]. }
    destruct (lookup_lt_is_Some_2 buf lib) as [c Hc]; [lia|].
    rewrite (vread_val _ _ _ Hc). cbn [obind]. rewrite vwrite_val by lia. cbn [obind].
    destruct (IH (<[d:=c]> buf) (S d) (S lib)) as (b & d' & -> & Hb' & Hd' & Hl');
      [lia|lia|lia|rewrite insert_length; lia|].
    exists b, d'. rewrite insert_length in Hb'. split_and!; [done..|lia|lia|lia].
Qed.

Lemma c_digits_spec n i v : length src - i <= n -> i <= length src ->
  exists i' v', c_digits src n i v = Val (i', v') /\ i <= i' <= length src.
Proof.
  revert i v. induction n as [|n IH]; intros i v Hn Hi; cbn [c_digits].
  - destruct (rd_val i Hi) as (c & -> & _ & H0). cbn [obind]. rewrite H0 by lia. cbn.
    exists i, v. split; [done|lia].
  - destruct (rd_val i Hi) as (c & -> & H1 & H0). cbn [obind].
    destruct (is_digit c) eqn:Ed.
    + assert (i < length src).
      { destruct (decide (i = length src)) as [->|]; [|lia]. rewrite H0 in Ed by done. done. }
      destruct (IH (S i) ((v * 10 + N.of_nat (c - 48)) mod 2 ^ 32)%N) as (i' & v' & -> & Hi'); [lia|lia|].
      exists i', v'. split; [done|lia].
    + exists i, v. split; [done|lia].
Qed.

(** The conditions under which the code is safe. *)
Definition c_safe (size : nat) : Prop :=
  (char_signed = true -> Forall (fun c => c < 128) src) /\
  (last src <> Some dylan_module_separator \/ src = [constant_prefix]) /\
  (method_mangled_marker ∉ src \/ 64 * S (length src) <= size).

Definition c_inv (limit : nat) (st : cstate) : Prop :=
  length (cs_buf st) = S limit /\ cs_dest st <= limit /\ cs_src st <= length src /\
  (forall lib, cs_library st = Some lib -> lib <= cs_dest st) /\
  cs_dest st <= 54 * cs_src st /\ (cs_module_seen st = false -> cs_dest st <= 27 * cs_src st) /\
  (src = [constant_prefix] -> cs_src st = 1).

Lemma abbrev_module_length a m : abbrev_module a = Some m -> length m <= 21.
Proof.
  unfold abbrev_module, demangle_dylan_module.
  destruct (List.find _ _) as [[m' a']|] eqn:Hf; [|done]. intros [= ->].
  apply List.find_some in Hf as [Hin _].
  repeat (destruct Hin as [Hin|Hin]; [injection Hin as <- <-; cbn; lia|]). destruct Hin.
Qed.

Lemma demangle_map_val c i : (char_signed = true -> Forall (fun c => c < 128) src) ->
  src !! i = Some c -> exists m, demangle_map char_signed c = Val m.
Proof.
  intros Hs Hc. unfold demangle_map. destruct char_signed; cbn [andb].
  - specialize (Hs eq_refl). rewrite Forall_lookup in Hs. apply Hs in Hc.
    destruct (Nat.leb_spec 128 c); [lia|]. destruct (is_digit c); [eauto|]. destruct (is_lower c); eauto.
  - destruct (is_digit c); [eauto|]. destruct (is_lower c); eauto.
Qed.

Local Ltac c_fin :=
  split_and!; try lia;
  try (let lib := fresh in let Hl := fresh in intros lib Hl;
       first [injection Hl as <-; lia
             | match goal with H : forall lib, _ = Some lib -> _ |- _ => specialize (H _ Hl); lia end]);
  try (let Hs := fresh in intros Hs;
       match goal with H : _ = false -> _ |- _ => specialize (H Hs); lia end);
  try done; try (intros ?; exfalso; by auto).

Lemma c_body_spec limit st : c_safe (S limit) -> c_inv limit st ->
  cs_src st < length src -> cs_dest st < limit ->
  c_body char_signed src limit st = Val None \/
  exists st', c_body char_signed src limit st = Val (Some st') /\ c_inv limit st' /\
    cs_src st < cs_src st'.
Proof.
  intros (Hsig & HK & HM) (Hlen & Hd & Hs & Hlib & H54 & H27 & Hone) Hlt Hdlt.
  destruct st as [s d buf seen library]; cbn [cs_src cs_dest cs_buf cs_module_seen cs_library] in *.
  cbn [c_body].
  destruct (rd_val s) as (c & -> & Hc & _); [lia|]. specialize (Hc Hlt). cbn [obind].
  destruct (demangle_map_val c s Hsig Hc) as [mapped ->]. cbn [obind].
  assert (forall x, vwrite buf d x = Val (<[d:=x]> buf)) as Hw by (intros; apply vwrite_val; lia).
  assert (src = [constant_prefix] -> False) as Hn1.
  { intros E. specialize (Hone E). rewrite E in Hlt. cbn in Hlt. lia. }
  unfold c_inv.
  destruct (Nat.eqb_spec mapped 0); cbn [negb].
  2:{ rewrite Hw. cbn [obind]. right. eexists. split; [done|].
      cbn [cs_src cs_dest cs_buf cs_module_seen cs_library]. rewrite insert_length.
      c_fin. }
  destruct (Nat.eqb_spec c escape_separator) as [->|Hne1].
  { destruct (c_digits_spec (length src) (S s) 0%N) as (s' & v' & -> & Hs'); [lia|lia|].
    cbn [obind]. destruct (rd_val s') as (e2 & -> & He & He0); [lia|]. cbn [obind].
    destruct (Nat.eqb_spec e2 escape_separator) as [->|]; [|by left].
    assert (s' < length src).
    { destruct (decide (s' = length src)) as [E|]; [|lia]. specialize (He0 E). done. }
    rewrite Hw. cbn [obind]. right. eexists. split; [done|].
    cbn [cs_src cs_dest cs_buf cs_module_seen cs_library]. rewrite insert_length.
    c_fin. }
  destruct (Nat.eqb_spec c dylan_module_separator) as [->|Hne2].
  { assert (S s < length src) as HSs.
    { destruct (decide (S s = length src)) as [E|]; [|lia]. exfalso.
      destruct HK as [HK|HK]; [|by apply Hn1]. apply HK. rewrite last_lookup, <- E. cbn. done. }
    destruct (rd_val (S s)) as (ab & -> & Hab & _); [lia|]. cbn [obind].
    destruct (negb _ && _) eqn:Eab; [|by left].
    destruct (abbrev_module ab) as [m|] eqn:Em.
    - apply abbrev_module_length in Em.
      destruct (put_spec buf d limit m) as (b1 & d1 & -> & Hb1 & Hd1 & Hl1); [lia|lia|]. cbn [obind].
      destruct (put_spec b1 d1 limit (txt ":dylan")) as (b2 & d2 & -> & Hb2 & Hd2 & Hl2); [lia|lia|]. cbn [obind].
      replace (length (txt ":dylan")) with 6 in Hl2 by reflexivity.
      right. eexists. split; [done|].
      cbn [cs_src cs_dest cs_buf cs_module_seen cs_library].
      c_fin.
    - right. eexists. split; [done|].
      cbn [cs_src cs_dest cs_buf cs_module_seen cs_library].
      c_fin. }
  destruct (Nat.eqb_spec c module_separator) as [->|Hne3].
  { rewrite Hw. cbn [obind]. right. eexists. split; [done|].
    cbn [cs_src cs_dest cs_buf cs_module_seen cs_library]. rewrite insert_length.
    c_fin. }
  destruct (Nat.eqb_spec c library_separator) as [->|Hne4].
  { rewrite Hw. cbn [obind]. right. eexists. split; [done|].
    cbn [cs_src cs_dest cs_buf cs_module_seen cs_library]. rewrite insert_length.
    c_fin. }
  destruct (Nat.eqb c method_mangled_marker || Nat.eqb c iep_suffix) eqn:Emi; [|by left].
  assert (exists b1 d1 seen1,
    match library with
      | Some lib =>
          if negb seen then
            do ' (b, d') <- copy_library d buf d limit lib d; Val (b, d', true)
          else Val (buf, d, seen)
      | None => Val (buf, d, seen)
      end = Val (b1, d1, seen1) /\ length b1 = length buf /\ d <= d1 <= limit /\
      d1 <= 54 * s /\ (seen1 = false -> d1 = d /\ seen = false) /\
      (seen = true -> d1 = d) /\ (seen1 = seen -> d1 = d))
    as (b1 & d1 & seen1 & -> & Hb1 & Hd1 & Hd1' & Hseen & Hseen2 & Hseen3).
  { destruct library as [lib|].
    - destruct seen; cbn [negb].
      + exists buf, d, true. split_and!; try done; lia.
      + specialize (Hlib _ eq_refl). specialize (H27 eq_refl).
        destruct (copy_library_spec d buf d limit lib d) as (b & d' & -> & Hb' & Hd' & Hl'); [lia..|].
        exists b, d', true. cbn [obind]. split_and!; try done; lia.
    - exists buf, d, seen. split_and!; try done; lia. }
  cbn [obind].
  assert (seen1 = false -> d1 <= 27 * s) as Hseen4.
  { intros Hs1. destruct (Hseen Hs1) as [-> Hs2]. by apply H27. }
  destruct (Nat.eqb_spec c method_mangled_marker) as [->|HneM].
  - assert (method_mangled_marker ∈ src) as HinM by (by eapply elem_of_list_lookup_2).
    destruct HM as [HM|HM]; [done|].
    rewrite vwrite_val by lia. cbn [obind]. right. eexists. split; [done|].
    cbn [cs_src cs_dest cs_buf cs_module_seen cs_library]. rewrite insert_length.
    c_fin.
  - right. eexists. split; [done|].
    cbn [cs_src cs_dest cs_buf cs_module_seen cs_library].
    c_fin.
Qed.

Lemma c_loop_spec fuel limit st : c_safe (S limit) -> c_inv limit st ->
  length src - cs_src st <= fuel ->
  c_loop char_signed src fuel limit st = Val None \/
  exists st', c_loop char_signed src fuel limit st = Val (Some st') /\ c_inv limit st'.
Proof.
  revert st. induction fuel as [|f IH]; intros st Hsafe Hinv Hf.
  - cbn [c_loop]. pose proof Hinv as (_ & _ & Hs & _).
    destruct (rd_val (cs_src st) Hs) as (c & -> & _ & H0). cbn [obind].
    rewrite H0 by lia. cbn. right. eauto.
  - cbn [c_loop]. pose proof Hinv as (_ & _ & Hs & _).
    destruct (rd_val (cs_src st) Hs) as (c & -> & _ & H0). cbn [obind].
    destruct (Nat.eqb_spec c 0) as [->|Hc]; cbn [negb andb]; [right; eauto|].
    destruct (Nat.ltb_spec (cs_dest st) limit) as [Hd|Hd]; [|right; eauto].
    destruct (c_body_spec limit st) as [->|(st' & -> & Hinv' & Hlt)]; try done.
    + destruct (decide (cs_src st = length src)) as [E|]; [|lia]. by specialize (H0 E).
    + by left.
    + cbn [obind]. apply IH; [done|done|lia].
Qed.

Lemma dylan_demangle_safe buf0 : c_safe (length buf0) ->
  dylan_demangle char_signed src buf0 = Val None \/
  exists buf n, dylan_demangle char_signed src buf0 = Val (Some (buf, n)) /\
    length buf = length buf0 /\ buf !! n = Some 0.
Proof.
  intros Hsafe. destruct buf0 as [|b0 buf0]; [by left|].
  cbn [dylan_demangle]. set (B := b0 :: buf0) in *.
  assert (length B = S (length B - 1)) as HB by (subst B; cbn [length]; lia).
  destruct (rd_val 0) as (c0 & -> & Hc0 & Hc00); [lia|]. cbn [obind].
  destruct (c_loop_spec (S (length src)) (length B - 1)
    (CState (if Nat.eqb c0 constant_prefix then 1 else 0) 0 B false None)) as [->|(st & -> & Hinv)].
  - by rewrite <- HB.
  - unfold c_inv. cbn [cs_src cs_dest cs_buf cs_module_seen cs_library].
    split_and!; try done; try lia.
    + destruct (Nat.eqb_spec c0 constant_prefix) as [->|]; [|lia].
      destruct src; [|cbn [length]; lia]. specialize (Hc00 eq_refl). done.
    + intros E. rewrite E in Hc0. cbn [length] in Hc0. specialize (Hc0 ltac:(lia)).
      injection Hc0 as <-. done.
  - cbn [cs_src]. destruct (Nat.eqb c0 constant_prefix); lia.
  - by left.
  - cbn [obind]. destruct Hinv as (Hl & Hd & _). rewrite vwrite_val by lia. cbn [obind].
    right. do 2 eexists. split; [done|]. rewrite insert_length. split; [lia|].
    apply list_lookup_insert. lia.
Qed.
End c_proofs.

(** ** The C demangler: what it produces *)
Definition c_plain (c : nat) : Prop := c < 256 /\ c <> 35 /\ c <> 44.

Lemma mangle_char_c cs c : c_plain c ->
  (exists k, mangle_char c = [k] /\ k <> 0 /\ c <> 0 /\ demangle_map cs k = Val c) \/
  mangle_char c = escape_separator :: mangle_integer c ++ [escape_separator].
Proof.
  intros (Hc & H1 & H2).
  assert (forall c, c < 256 -> (c =? 35) || (c =? 44) ||
    match mangle_char c with
    | [k] => negb (k =? 0) && negb (c =? 0) &&
             match demangle_map cs k with Val c' => c' =? c | _ => false end
    | _ => true end = true) as H.
  { apply byte_cases. destruct cs; vm_compute; reflexivity. }
  specialize (H c Hc).
  destruct (Nat.eqb_spec c 35); [done|]. destruct (Nat.eqb_spec c 44); [done|]. cbn [orb] in H.
  assert ((exists k, mangle_char c = [k]) \/
    mangle_char c = escape_separator :: mangle_integer c ++ [escape_separator]) as [[k Hk]|Hk]; [| |by right].
  { unfold mangle_char. destruct (is_digit c); [eauto|]. destruct (is_lower c); [eauto|].
    destruct (assoc_nat c mangles_data); [eauto|]. by right. }
  rewrite Hk in H. left. exists k. rewrite !andb_true_iff, !negb_true_iff, !Nat.eqb_neq in H.
  destruct H as [[Hk0 Hc0] H]. split_and!; try done.
  destruct (demangle_map cs k); try done. by apply Nat.eqb_eq in H as ->.
Qed.

Lemma vwrite_mid (out : bytes) x tl c n :
  n = length out -> vwrite (out ++ x :: tl) n c = Val (out ++ c :: tl).
Proof.
  intros ->. rewrite vwrite_val by (rewrite app_length; cbn; lia).
  by rewrite insert_app_r_alt, Nat.sub_diag by lia.
Qed.

Lemma rd_mid (pre post : bytes) c n : n = length pre -> rd (pre ++ c :: post) n = Val c.
Proof.
  intros ->. unfold rd. rewrite lookup_app_r by lia. by rewrite Nat.sub_diag.
Qed.

Lemma c_digits_run src ds : Forall (fun c => is_digit c = true) ds ->
  forall pre post n v c, src = pre ++ ds ++ c :: post -> is_digit c = false -> length ds <= n ->
  c_digits src n (length pre) v
  = Val (length pre + length ds,
         fold_left (fun v c => ((v * 10 + N.of_nat (c - 48)) mod 2 ^ 32)%N) ds v).
Proof.
  induction ds as [|x ds IH]; intros Hd pre post n v c Hsrc Hc Hn; subst src.
  - destruct n; cbn [c_digits app]; rewrite rd_mid by done; cbn [obind fold_left length]; rewrite Hc, Nat.add_0_r; done.
  - apply Forall_cons in Hd as [Hx Hd]. cbn [length] in Hn. destruct n as [|n]; [lia|].
    cbn [c_digits app]. rewrite rd_mid by done. cbn [obind]. rewrite Hx.
    replace (S (length pre)) with (length (pre ++ [x])) by (rewrite app_length; cbn; lia).
    rewrite (IH Hd (pre ++ [x]) post n _ c); [|by rewrite <- (assoc_L (++))|done|lia].
    rewrite app_length. cbn [length fold_left]. f_equal. f_equal. lia.
Qed.

Lemma escape_value c : c < 256 ->
  fold_left (fun v c => ((v * 10 + N.of_nat (c - 48)) mod 2 ^ 32)%N) (mangle_integer c) 0%N = N.of_nat c.
Proof.
  intros Hc. apply N.eqb_eq. revert c Hc. apply byte_cases. vm_compute. reflexivity.
Qed.

Section c_run.
Context (char_signed : bool) (src : bytes) (limit : nat).

Definition cst (pre out tl : bytes) (seen : bool) (lib : option nat) : cstate :=
  CState (length pre) (length out) (out ++ tl) seen lib.

(** From the left state the loop gets to the right one. *)
Definition c_reaches (k : nat) (a b : cstate) : Prop :=
  forall f, c_loop char_signed src (k + f) limit a = c_loop char_signed src f limit b.

Lemma c_reaches_refl a : c_reaches 0 a a.
Proof. intros f. done. Qed.
Lemma c_reaches_trans k k' a b c : c_reaches k a b -> c_reaches k' b c -> c_reaches (k + k') a c.
Proof. intros H1 H2 f. rewrite <- Nat.add_assoc, H1. apply H2. Qed.

Lemma c_step pre c post out tl seen lib st' :
  src = pre ++ c :: post -> c <> 0 -> length out < limit ->
  c_body char_signed src limit (cst pre out tl seen lib) = Val (Some st') ->
  c_reaches 1 (cst pre out tl seen lib) st'.
Proof.
  intros Hsrc Hc Hlt Hb f. cbn [Nat.add c_loop].
  assert (rd src (cs_src (cst pre out tl seen lib)) = Val c) as -> by (subst src; by apply rd_mid).
  cbn [obind]. destruct (Nat.eqb_spec c 0); [done|]. cbn [negb andb].
  destruct (Nat.ltb_spec (cs_dest (cst pre out tl seen lib)) limit) as [_|H]; [|cbn in H; lia].
  rewrite Hb. done.
Qed.

Lemma c_run_char pre c post out x tl seen lib :
  c_plain c -> src = pre ++ mangle_char c ++ post -> length out < limit ->
  c_reaches 1 (cst pre out (x :: tl) seen lib) (cst (pre ++ mangle_char c) (out ++ [c]) tl seen lib).
Proof.
  intros Hc Hsrc Hlt. pose proof Hc as (Hb & _).
  destruct (mangle_char_c char_signed c Hc) as [(k & Hk & Hk0 & Hc0 & Hm)|Hk]; rewrite Hk in *.
  - eapply c_step; [exact Hsrc|done|done|]. unfold c_body, cst. subst src. cbn [app].
    rewrite rd_mid by done. cbn [obind]. rewrite Hm. cbn [obind].
    destruct (Nat.eqb_spec c 0); [done|]. cbn [negb]. rewrite vwrite_mid by done. cbn [obind].
    rewrite !app_length, <- (assoc_L (++)). cbn [length app]. rewrite !Nat.add_1_r. done.
  - eapply c_step; [exact Hsrc|done|done|]. unfold c_body, cst.
    assert (rd src (length pre) = Val escape_separator) as -> by (subst src; by apply rd_mid).
    cbn [obind]. replace (demangle_map char_signed escape_separator) with (Val 0)
      by (by destruct char_signed). cbn [obind Nat.eqb negb]. rewrite Nat.eqb_refl.
    replace (S (length pre)) with (length (pre ++ [escape_separator])) by (rewrite app_length; cbn; lia).
    rewrite (c_digits_run src (mangle_integer c) (mangle_integer_digits c) _ post _ _ escape_separator).
    + cbn [obind].
      assert (rd src (length (pre ++ [escape_separator]) + length (mangle_integer c)) = Val escape_separator) as ->.
      { subst src.
        replace (pre ++ (escape_separator :: mangle_integer c ++ [escape_separator]) ++ post)
          with (((pre ++ [escape_separator]) ++ mangle_integer c) ++ escape_separator :: post)
          by (rewrite <- !(assoc_L (++)); cbn [app]; by rewrite <- (assoc_L (++))).
        apply rd_mid. rewrite !app_length; lia. }
      cbn [obind]. rewrite Nat.eqb_refl. rewrite escape_value by done.
      replace (N.to_nat (N.of_nat c mod 256)) with c.
      2:{ rewrite N.mod_small by lia. lia. }
      rewrite vwrite_mid by done. cbn [obind]. rewrite <- !(assoc_L (++)). cbn [app].
      repeat f_equal; repeat (rewrite app_length; cbn [length]); lia.
    + subst src. rewrite <- !(assoc_L (++)). cbn [app]. by rewrite <- (assoc_L (++)).
    + done.
    + subst src. repeat (rewrite app_length; cbn [length]). lia.
Qed.

Lemma c_run_name t : Forall c_plain t -> forall pre post out tl seen lib,
  src = pre ++ mangle_name t ++ post -> length out + length t <= limit ->
  length t <= length tl ->
  c_reaches (length t) (cst pre out tl seen lib)
    (cst (pre ++ mangle_name t) (out ++ t) (drop (length t) tl) seen lib).
Proof.
  induction t as [|c t IH]; intros Ht pre post out tl seen lib Hsrc Hlim Htl.
  - cbn. rewrite !app_nil_r, drop_0. apply c_reaches_refl.
  - apply Forall_cons in Ht as [Hc Ht]. cbn [length] in *. destruct tl as [|x tl]; cbn [length] in *; [lia|].
    cbn [mangle_name flat_map] in *. fold (mangle_name t) in *.
    change (S (length t)) with (1 + length t).
    rewrite <- (assoc_L (++)) in Hsrc.
    eapply c_reaches_trans; [eapply c_run_char; [done|exact Hsrc|lia]|].
    rewrite (cons_middle c out t), !(assoc_L (++)). cbn [drop Nat.add].
    eapply (IH Ht (pre ++ mangle_char c) post); [by rewrite <- (assoc_L (++))| |lia].
    rewrite app_length. cbn [length]. lia.
Qed.

Lemma c_run_Y pre post out x tl seen lib :
  src = pre ++ module_separator :: post -> length out < limit ->
  c_reaches 1 (cst pre out (x :: tl) seen lib)
    (cst (pre ++ [module_separator]) (out ++ [58]) tl true lib).
Proof.
  intros Hsrc Hlt. eapply c_step; [exact Hsrc|done|done|]. unfold c_body, cst.
  assert (rd src (length pre) = Val module_separator) as -> by (subst src; by apply rd_mid).
  cbn [obind]. replace (demangle_map char_signed module_separator) with (Val 0) by (by destruct char_signed).
  cbn [obind Nat.eqb negb]. change (Nat.eqb module_separator escape_separator) with false.
  change (Nat.eqb module_separator dylan_module_separator) with false. cbn iota. rewrite Nat.eqb_refl.
  rewrite vwrite_mid by done. cbn [obind].
  rewrite !app_length, <- (assoc_L (++)). cbn [length app]. rewrite !Nat.add_1_r. done.
Qed.

Lemma c_run_V pre post out x tl seen lib :
  src = pre ++ library_separator :: post -> length out < limit ->
  c_reaches 1 (cst pre out (x :: tl) seen lib)
    (cst (pre ++ [library_separator]) (out ++ [58]) tl seen (Some (length out))).
Proof.
  intros Hsrc Hlt. eapply c_step; [exact Hsrc|done|done|]. unfold c_body, cst.
  assert (rd src (length pre) = Val library_separator) as -> by (subst src; by apply rd_mid).
  cbn [obind]. replace (demangle_map char_signed library_separator) with (Val 0) by (by destruct char_signed).
  cbn [obind Nat.eqb negb]. change (Nat.eqb library_separator escape_separator) with false.
  change (Nat.eqb library_separator dylan_module_separator) with false.
  change (Nat.eqb library_separator module_separator) with false. cbn iota. rewrite Nat.eqb_refl.
  rewrite vwrite_mid by done. cbn [obind].
  rewrite !app_length, <- (assoc_L (++)). cbn [length app]. rewrite !Nat.add_1_r. done.
Qed.

Lemma put_run t : forall out tl, length out + length t <= limit -> length t <= length tl ->
  put (out ++ tl) (length out) limit t
  = Val (out ++ t ++ drop (length t) tl, length out + length t).
Proof.
  induction t as [|c t IH]; intros out tl Hlim Htl; cbn [put length] in *.
  - by rewrite Nat.add_0_r, drop_0.
  - destruct tl as [|x tl]; cbn [length] in *; [lia|].
    destruct (Nat.ltb_spec (length out) limit); [|lia]. rewrite vwrite_mid by done. cbn [obind].
    rewrite cons_middle, (assoc_L (++)).
    replace (S (length out)) with (length (out ++ [c])) by (rewrite app_length; cbn; lia).
    rewrite IH; [|rewrite app_length; cbn [length]; lia|lia].
    rewrite app_length, <- !(assoc_L (++)). cbn [length app drop]. do 2 f_equal. lia.
Qed.

Lemma c_run_K pre a post out tl seen lib m :
  src = pre ++ dylan_module_separator :: a :: post -> abbrev_module a = Some m ->
  is_lower a = true -> a < abbrev_map_len ->
  length out + length m + 6 <= limit -> length m + 6 <= length tl ->
  c_reaches 1 (cst pre out tl seen lib)
    (cst (pre ++ [dylan_module_separator; a]) (out ++ m ++ txt ":dylan") (drop (length m + 6) tl) true lib).
Proof.
  intros Hsrc Hm Hlow Ha Hlim Htl. eapply c_step; [exact Hsrc|done|lia|]. unfold c_body, cst.
  assert (rd src (length pre) = Val dylan_module_separator) as -> by (subst src; by apply rd_mid).
  cbn [obind]. replace (demangle_map char_signed dylan_module_separator) with (Val 0) by (by destruct char_signed).
  cbn [obind Nat.eqb negb]. change (Nat.eqb dylan_module_separator escape_separator) with false.
  cbn iota. rewrite Nat.eqb_refl.
  assert (rd src (S (length pre)) = Val a) as ->.
  { subst src. rewrite (cons_middle dylan_module_separator pre), (assoc_L (++)). apply rd_mid.
    rewrite app_length. cbn; lia. }
  cbn [obind].
  assert (a < 128) by (unfold is_lower in Hlow; rewrite andb_true_iff, !Nat.leb_le in Hlow; lia).
  destruct (Nat.leb_spec 128 a); [lia|]. rewrite andb_false_r. cbn [negb andb].
  destruct (Nat.ltb_spec a abbrev_map_len); [|lia]. rewrite Hm.
  rewrite put_run by lia. cbn [obind]. rewrite (assoc_L (++)), <- app_length.
  rewrite put_run.
  - cbn [obind]. rewrite drop_drop, <- !(assoc_L (++)). change (length (txt ":dylan")) with 6.
    repeat f_equal; repeat (rewrite app_length; cbn [length]); change (length (txt ":dylan")) with 6; lia.
  - rewrite app_length. change (length (txt ":dylan")) with 6. lia.
  - rewrite drop_length. change (length (txt ":dylan")) with 6. lia.
Qed.

Lemma copy_library_run todo : forall a mid tl n,
  length a + length todo + length mid + length todo <= limit -> length todo <= length tl -> length todo <= n ->
  copy_library n (a ++ todo ++ mid ++ tl) (length a + length todo + length mid) limit (length a)
    (length a + length todo)
  = Val (a ++ todo ++ mid ++ todo ++ drop (length todo) tl,
         length a + length todo + length mid + length todo).
Proof.
  induction todo as [|x todo IH]; intros a mid tl n Hlim Htl Hn; cbn [length] in *.
  - destruct n; cbn [copy_library]; destruct (Nat.ltb_spec (length a) (length a + 0)); try lia; cbn [andb app];
    rewrite drop_0; do 2 f_equal; lia.
  - destruct n as [|n]; [lia|]. destruct tl as [|y tl]; cbn [length] in *; [lia|].
    cbn [copy_library]. destruct (Nat.ltb_spec (length a) (length a + S (length todo))); [|lia].
    destruct (Nat.ltb_spec (length a + S (length todo) + length mid) limit); [|lia]. cbn [andb].
    rewrite (vread_val _ _ x).
    2:{ rewrite lookup_app_r by lia. by rewrite Nat.sub_diag. }
    cbn [obind].
    replace (a ++ (x :: todo) ++ mid ++ y :: tl) with ((a ++ (x :: todo) ++ mid) ++ y :: tl)
      by (by rewrite <- !(assoc_L (++))).
    rewrite vwrite_mid by (repeat (rewrite app_length; cbn [length]); lia). cbn [obind].
    specialize (IH (a ++ [x]) (mid ++ [x]) tl n).
    repeat (rewrite app_length in IH; cbn [length] in IH).
    replace ((a ++ [x]) ++ todo ++ (mid ++ [x]) ++ tl) with ((a ++ (x :: todo) ++ mid) ++ x :: tl) in IH
      by (rewrite <- !(assoc_L (++)); done).
    replace (length a + 1 + length todo + (length mid + 1)) with (S (length a + S (length todo) + length mid)) in IH by lia.
    replace (length a + 1 + length todo) with (length a + S (length todo)) in IH by lia.
    replace (length a + 1) with (S (length a)) in IH by lia.
    rewrite IH by lia. cbn [drop]. do 2 f_equal; [|lia]. rewrite <- !(assoc_L (++)). done.
Qed.

(** METHOD_MARK when the module was seen. *)
Lemma c_run_M pre post out x tl lib :
  src = pre ++ method_mangled_marker :: post -> length out < limit ->
  c_reaches 1 (cst pre out (x :: tl) true lib)
    (cst (pre ++ [method_mangled_marker]) (out ++ [35]) tl true lib).
Proof.
  intros Hsrc Hlt. eapply c_step; [exact Hsrc|done|done|]. unfold c_body, cst.
  assert (rd src (length pre) = Val method_mangled_marker) as -> by (subst src; by apply rd_mid).
  cbn [obind]. replace (demangle_map char_signed method_mangled_marker) with (Val 0) by (by destruct char_signed).
  cbn [obind Nat.eqb negb]. change (Nat.eqb method_mangled_marker escape_separator) with false.
  change (Nat.eqb method_mangled_marker dylan_module_separator) with false.
  change (Nat.eqb method_mangled_marker module_separator) with false.
  change (Nat.eqb method_mangled_marker library_separator) with false. cbn iota. rewrite Nat.eqb_refl.
  cbn [orb]. destruct lib as [lib|]; cbn [negb obind]; rewrite vwrite_mid by done; cbn [obind];
  rewrite !app_length, <- (assoc_L (++)); cbn [length app]; rewrite !Nat.add_1_r; done.
Qed.

(** METHOD_MARK when only the library was seen: it is repeated. *)
Lemma c_run_M_library pre post out l tl :
  src = pre ++ method_mangled_marker :: post -> length out + length l + length l < limit ->
  length l < length tl ->
  c_reaches 1 (cst pre (out ++ l) tl false (Some (length out)))
    (cst (pre ++ [method_mangled_marker]) (out ++ l ++ l ++ [35]) (drop (S (length l)) tl) true (Some (length out))).
Proof.
  intros Hsrc Hlt Htl. eapply c_step; [exact Hsrc|done|rewrite app_length; lia|]. unfold c_body, cst.
  assert (rd src (length pre) = Val method_mangled_marker) as -> by (subst src; by apply rd_mid).
  cbn [obind]. replace (demangle_map char_signed method_mangled_marker) with (Val 0) by (by destruct char_signed).
  cbn [obind Nat.eqb negb]. change (Nat.eqb method_mangled_marker escape_separator) with false.
  change (Nat.eqb method_mangled_marker dylan_module_separator) with false.
  change (Nat.eqb method_mangled_marker module_separator) with false.
  change (Nat.eqb method_mangled_marker library_separator) with false. cbn iota. rewrite Nat.eqb_refl.
  cbn [orb negb].
  pose proof (copy_library_run l out [] tl (length (out ++ l))) as Hcl.
  cbn [length app] in Hcl. rewrite Nat.add_0_r in Hcl.
  rewrite <- (assoc_L (++) out l tl). rewrite app_length at 2 3. rewrite Hcl by (rewrite ?app_length; lia).
  cbn [obind].
  destruct (drop (length l) tl) as [|x tl'] eqn:Ed.
  { apply (f_equal length) in Ed. rewrite drop_length in Ed. cbn in Ed. lia. }
  rewrite !(assoc_L (++)). rewrite vwrite_mid by (rewrite !app_length; lia). cbn [obind].
  replace (drop (S (length l)) tl) with tl'.
  2:{ replace (S (length l)) with (length l + 1) by lia. rewrite <- drop_drop, Ed. done. }
  rewrite <- !(assoc_L (++)). cbn [app].
  repeat f_equal; repeat (rewrite app_length; cbn [length]); lia.
Qed.

Lemma c_run_I pre post out tl lib :
  src = pre ++ iep_suffix :: post -> length out < limit ->
  c_reaches 1 (cst pre out tl true lib) (cst (pre ++ [iep_suffix]) out tl true lib).
Proof.
  intros Hsrc Hlt. eapply c_step; [exact Hsrc|done|done|]. unfold c_body, cst.
  assert (rd src (length pre) = Val iep_suffix) as -> by (subst src; by apply rd_mid).
  cbn [obind]. replace (demangle_map char_signed iep_suffix) with (Val 0) by (by destruct char_signed).
  cbn [obind Nat.eqb negb]. change (Nat.eqb iep_suffix escape_separator) with false.
  change (Nat.eqb iep_suffix dylan_module_separator) with false.
  change (Nat.eqb iep_suffix module_separator) with false.
  change (Nat.eqb iep_suffix library_separator) with false.
  change (Nat.eqb iep_suffix method_mangled_marker) with false.
  change (Nat.eqb iep_suffix iep_suffix) with true. cbn iota.
  cbn [orb]. destruct lib as [lib|]; cbn [negb obind]; rewrite app_length; cbn [length]; rewrite Nat.add_1_r; done.
Qed.

(** The variable and its module and library, up to the first method mark. *)
Lemma c_run_binding v m l pre post out tl :
  Forall c_plain v -> Forall c_plain m -> Forall c_plain l -> lowercase m -> lowercase l ->
  src = pre ++ mangle_binding_spread v m l ++ method_mangled_marker :: post ->
  length out + length v + length m + length l + 3 <= limit ->
  length v + length m + length l + 3 <= length tl ->
  exists k tl' lib,
    length tl' = length tl - (length v + length m + length l + 3) /\
    k <= length (mangle_binding_spread v m l) + 1 /\
    c_reaches k (cst pre out tl false None)
      (cst (pre ++ mangle_binding_spread v m l ++ [method_mangled_marker])
         (out ++ v ++ [58] ++ m ++ [58] ++ l ++ [35]) tl' true lib).
Proof.
  intros Hv Hm Hl Lm Ll Hsrc Hlim Htl. unfold mangle_binding_spread in *.
  assert (forall t, length t <= length (mangle_name t)) as Hlen.
  { intros t. induction t as [|c t IH]; cbn [mangle_name flat_map length]; [lia|].
    rewrite app_length. pose proof (mangle_char_length c). fold (mangle_name t). lia. }
  pose proof (Hlen v) as Lv'. pose proof (Hlen m) as Lm'. pose proof (Hlen l) as Ll'.
  rewrite <- !(assoc_L (++)) in Hsrc.
  pose proof (c_run_name v Hv pre _ out tl false None Hsrc) as R1.
  specialize (R1 ltac:(lia) ltac:(lia)).
  assert (exists x tl1, drop (length v) tl = x :: tl1 /\ length tl1 = length tl - length v - 1) as (x & tl1 & E1 & L1).
  { destruct (drop (length v) tl) as [|x tl1] eqn:E; apply (f_equal length) in E; rewrite drop_length in E; cbn in E; [lia|].
    exists x, tl1. split; [done|lia]. }
  rewrite E1 in R1.
  destruct (mangle_namespace_cases m l) as [(Hd & a & Ha & En)|[(Hd & En)|(Hd & En)]]; rewrite En in *; cbn [app] in Hsrc.
  - (* dylan module *)
    apply dylan_abbreviation_spec in Ha as (_ & Ha & Hlow). unfold lowercase in *. rewrite Lm in Ha.
    rewrite Ll in Hd. subst l. change (length (txt "dylan")) with 5 in *.
    assert (a < abbrev_map_len) as Halt.
    { revert Ha. unfold demangle_dylan_module. destruct (List.find _ _) as [[m' a']|] eqn:Hf; [|done].
      intros _. apply List.find_some in Hf as [Hin Heq]. cbn in Heq. apply Nat.eqb_eq in Heq as <-.
      repeat (destruct Hin as [Hin|Hin]; [injection Hin as <- <-; vm_compute; lia|]). destruct Hin. }
    assert (src = (pre ++ mangle_name v) ++ library_separator :: dylan_module_separator :: a :: method_mangled_marker :: post) as S1
      by (by rewrite <- (assoc_L (++))).
    pose proof (c_run_V _ _ (out ++ v) x tl1 false None S1 ltac:(rewrite app_length; lia)) as R2.
    assert (src = ((pre ++ mangle_name v) ++ [library_separator]) ++ dylan_module_separator :: a :: method_mangled_marker :: post) as S2
      by (rewrite S1; by rewrite <- !(assoc_L (++))).
    pose proof (c_run_K _ a _ ((out ++ v) ++ [58]) tl1 false (Some (length (out ++ v))) m S2 Ha Hlow Halt
      ltac:(rewrite !app_length; cbn [length]; lia) ltac:(lia)) as R3.
    assert (src = (((pre ++ mangle_name v) ++ [library_separator]) ++ [dylan_module_separator; a]) ++ method_mangled_marker :: post) as S3
      by (rewrite S1; by rewrite <- !(assoc_L (++))).
    destruct (drop (length m + 6) tl1) as [|y tl2] eqn:E2;
      apply (f_equal length) in E2; rewrite drop_length in E2; cbn [length] in E2; [lia|].
    pose proof (c_run_M _ _ (((out ++ v) ++ [58]) ++ m ++ txt ":dylan") y tl2 (Some (length (out ++ v))) S3) as R4.
    specialize (R4 ltac:(repeat (rewrite app_length; cbn [length]); change (length (txt ":dylan")) with 6; lia)).
    eexists _, tl2, _. split; [lia|]. split; [|].
    2:{ eapply c_reaches_trans; [exact R1|]. eapply c_reaches_trans; [exact R2|].
        eapply c_reaches_trans; [exact R3|].
        replace (pre ++ (mangle_name v ++ [library_separator; dylan_module_separator; a]) ++ [method_mangled_marker])
          with ((((pre ++ mangle_name v) ++ [library_separator]) ++ [dylan_module_separator; a]) ++ [method_mangled_marker])
          by (by rewrite <- !(assoc_L (++))).
        replace (out ++ v ++ [58] ++ m ++ [58] ++ txt "dylan" ++ [35])
          with ((((out ++ v) ++ [58]) ++ m ++ txt ":dylan") ++ [35]) by (by rewrite <- !(assoc_L (++))).
        exact R4. }
    rewrite app_length. cbn [length]. lia.
  - (* module = library *)
    subst m.
    assert (src = (pre ++ mangle_name v) ++ library_separator :: mangle_name l ++ method_mangled_marker :: post) as S1
      by (by rewrite <- (assoc_L (++))).
    pose proof (c_run_V _ _ (out ++ v) x tl1 false None S1 ltac:(rewrite app_length; lia)) as R2.
    assert (src = ((pre ++ mangle_name v) ++ [library_separator]) ++ mangle_name l ++ method_mangled_marker :: post) as S2
      by (rewrite S1; by rewrite <- !(assoc_L (++))).
    pose proof (c_run_name l Hl _ _ ((out ++ v) ++ [58]) tl1 false (Some (length (out ++ v))) S2
      ltac:(rewrite !app_length; cbn [length]; lia) ltac:(lia)) as R3.
    assert (src = (((pre ++ mangle_name v) ++ [library_separator]) ++ mangle_name l) ++ method_mangled_marker :: post) as S3
      by (rewrite S2; by rewrite <- !(assoc_L (++))).
    pose proof (c_run_M_library _ _ (out ++ v) ([58] ++ l) (drop (length l) tl1) S3) as R4.
    repeat (rewrite app_length in R4; cbn [length] in R4).
    rewrite drop_length in R4. specialize (R4 ltac:(lia) ltac:(lia)).
    eexists _, _, _. split; [|split].
    3:{ eapply c_reaches_trans; [exact R1|]. eapply c_reaches_trans; [exact R2|].
        eapply c_reaches_trans; [exact R3|].
        rewrite app_length. cbn [app length] in *.
        replace ((((out ++ v) ++ [58]) ++ l)) with ((out ++ v) ++ 58 :: l) by (by rewrite <- !(assoc_L (++))).
        replace (pre ++ (mangle_name v ++ library_separator :: mangle_name l) ++ [method_mangled_marker])
          with ((((pre ++ mangle_name v) ++ [library_separator]) ++ mangle_name l) ++ [method_mangled_marker])
          by (rewrite <- !(assoc_L (++)); done).
        replace (out ++ v ++ 58 :: l ++ 58 :: l ++ [35]) with ((out ++ v) ++ 58 :: l ++ 58 :: l ++ [35])
          by (by rewrite <- !(assoc_L (++))).
        exact R4. }
    + rewrite !drop_length. lia.
    + rewrite app_length. cbn [length]. lia.
  - (* module and library *)
    assert (src = (pre ++ mangle_name v) ++ module_separator :: mangle_name m ++ library_separator :: mangle_name l ++ method_mangled_marker :: post) as S1
      by (rewrite Hsrc; rewrite <- !(assoc_L (++)); done).
    pose proof (c_run_Y _ _ (out ++ v) x tl1 false None S1 ltac:(rewrite app_length; lia)) as R2.
    assert (src = ((pre ++ mangle_name v) ++ [module_separator]) ++ mangle_name m ++ library_separator :: mangle_name l ++ method_mangled_marker :: post) as S2
      by (rewrite S1; by rewrite <- !(assoc_L (++))).
    pose proof (c_run_name m Hm _ _ ((out ++ v) ++ [58]) tl1 true None S2
      ltac:(rewrite !app_length; cbn [length]; lia) ltac:(lia)) as R3.
    assert (src = (((pre ++ mangle_name v) ++ [module_separator]) ++ mangle_name m) ++ library_separator :: mangle_name l ++ method_mangled_marker :: post) as S3
      by (rewrite S2; by rewrite <- !(assoc_L (++))).
    destruct (drop (length m) tl1) as [|y tl2] eqn:E2;
      apply (f_equal length) in E2; rewrite drop_length in E2; cbn [length] in E2; [lia|].
    pose proof (c_run_V _ _ (((out ++ v) ++ [58]) ++ m) y tl2 true None S3
      ltac:(rewrite !app_length; cbn [length]; lia)) as R4.
    assert (src = ((((pre ++ mangle_name v) ++ [module_separator]) ++ mangle_name m) ++ [library_separator]) ++ mangle_name l ++ method_mangled_marker :: post) as S4
      by (rewrite S3; by rewrite <- !(assoc_L (++))).
    pose proof (c_run_name l Hl _ _ ((((out ++ v) ++ [58]) ++ m) ++ [58]) tl2 true (Some (length (((out ++ v) ++ [58]) ++ m))) S4
      ltac:(rewrite !app_length; cbn [length]; lia) ltac:(lia)) as R5.
    assert (src = (((((pre ++ mangle_name v) ++ [module_separator]) ++ mangle_name m) ++ [library_separator]) ++ mangle_name l) ++ method_mangled_marker :: post) as S5
      by (rewrite S4; by rewrite <- !(assoc_L (++))).
    destruct (drop (length l) tl2) as [|z tl3] eqn:E3;
      apply (f_equal length) in E3; rewrite drop_length in E3; cbn [length] in E3; [lia|].
    pose proof (c_run_M _ _ (((((out ++ v) ++ [58]) ++ m) ++ [58]) ++ l) z tl3 (Some (length (((out ++ v) ++ [58]) ++ m))) S5
      ltac:(rewrite !app_length; cbn [length]; lia)) as R6.
    eexists _, tl3, _. split; [lia|split].
    2:{ eapply c_reaches_trans; [exact R1|]. eapply c_reaches_trans; [exact R2|].
        eapply c_reaches_trans; [exact R3|]. eapply c_reaches_trans; [exact R4|].
        eapply c_reaches_trans; [exact R5|].
        replace (pre ++ (mangle_name v ++ module_separator :: mangle_name m ++ library_separator :: mangle_name l) ++ [method_mangled_marker])
          with ((((((pre ++ mangle_name v) ++ [module_separator]) ++ mangle_name m) ++ [library_separator]) ++ mangle_name l) ++ [method_mangled_marker])
          by (repeat (rewrite <- !(assoc_L (++)); cbn [app]); done).
        replace (out ++ v ++ [58] ++ m ++ [58] ++ l ++ [35])
          with ((((((out ++ v) ++ [58]) ++ m) ++ [58]) ++ l) ++ [35]) by (by rewrite <- !(assoc_L (++))).
        exact R6. }
    repeat (rewrite app_length; cbn [length]). lia.
Qed.
End c_run.

Lemma digit_plain c : is_digit c = true -> c_plain c.
Proof.
  unfold is_digit, c_plain. rewrite andb_true_iff, !Nat.leb_le. lia.
Qed.
Lemma mangle_name_digits d : Forall (fun c => is_digit c = true) d -> mangle_name d = d.
Proof.
  induction 1 as [|c d Hc Hd IH]; [done|]. cbn [mangle_name flat_map]. fold (mangle_name d).
  unfold mangle_char. by rewrite Hc, IH.
Qed.

(** The internal entry point of a method prints as variable:module:library#method-library#n. *)
Lemma c_demangles_iep cs v m l mlib n buf0 :
  Forall c_plain v -> Forall c_plain m -> Forall c_plain l -> Forall c_plain mlib ->
  lowercase m -> lowercase l ->
  let text := v ++ [58] ++ m ++ [58] ++ l ++ [35]
              ++ (if bool_decide (l = mlib) then [] else mlib) ++ [35] ++ mangle_integer n in
  length text + 1 < length buf0 ->
  exists rest,
    dylan_demangle cs
      (mangle_generic_method (mangle_binding_spread v m l) n mlib l ++ [iep_suffix]) buf0
    = Val (Some (text ++ 0 :: rest, length text)) /\ length (text ++ 0 :: rest) = length buf0.
Proof.
  intros Hv Hm Hl Hml Lm Ll text Hbuf.
  set (src := mangle_generic_method (mangle_binding_spread v m l) n mlib l ++ [iep_suffix]).
  set (q := if bool_decide (l = mlib) then [] else mlib) in *.
  assert (Forall c_plain q) as Hq by (subst q; by case_bool_decide).
  assert (forall b : bool, mangle_name (if b then [] else mlib) = if b then [] else mangle_name mlib) as Hif by (by intros []).
  assert (src = [constant_prefix] ++ mangle_binding_spread v m l ++ method_mangled_marker ::
     mangle_name q ++ method_mangled_marker :: mangle_name (mangle_integer n) ++ [iep_suffix]) as Hsrc.
  { subst src q. unfold mangle_generic_method. rewrite Hif.
    rewrite (mangle_name_digits (mangle_integer n)) by apply mangle_integer_digits.
    repeat (rewrite <- !(assoc_L (++)); cbn [app]). done. }
  clearbody src.
  assert (length text = length v + length m + length l + length q + length (mangle_integer n) + 4) as Htext.
  { subst text. repeat (rewrite app_length; cbn [length]). lia. }
  destruct buf0 as [|b0 buf0]; [cbn in Hbuf; lia|]. unfold dylan_demangle.
  remember (b0 :: buf0) as B eqn:EB.
  set (limit := length B - 1).
  assert (rd src 0 = Val constant_prefix) as -> by (subst src; done).
  cbn [obind]. rewrite Nat.eqb_refl.
  destruct (c_run_binding cs src limit v m l [constant_prefix] _ [] B Hv Hm Hl Lm Ll Hsrc)
    as (k1 & tl1 & lib & L1 & K1 & R1); [cbn [length]; subst limit; lia|lia|].
  set (pre1 := [constant_prefix] ++ mangle_binding_spread v m l ++ [method_mangled_marker]) in *.
  set (out1 := [] ++ v ++ [58] ++ m ++ [58] ++ l ++ [35]) in *.
  assert (length out1 = length v + length m + length l + 3) as Lo1.
  { subst out1. repeat (rewrite app_length; cbn [length]). lia. }
  assert (src = pre1 ++ mangle_name q ++ method_mangled_marker :: mangle_name (mangle_integer n) ++ [iep_suffix]) as S1.
  { subst src pre1. repeat (rewrite <- !(assoc_L (++)); cbn [app]). done. }
  pose proof (c_run_name cs src limit q Hq pre1 _ out1 tl1 true lib S1 ltac:(subst limit; lia) ltac:(lia)) as R2.
  assert (src = (pre1 ++ mangle_name q) ++ method_mangled_marker :: mangle_name (mangle_integer n) ++ [iep_suffix]) as S2.
  { rewrite S1. by rewrite <- !(assoc_L (++)). }
  destruct (drop (length q) tl1) as [|x tl2] eqn:E1;
    apply (f_equal length) in E1; rewrite drop_length in E1; cbn [length] in E1; [lia|].
  pose proof (c_run_M cs src limit _ _ (out1 ++ q) x tl2 lib S2 ltac:(rewrite app_length; subst limit; lia)) as R3.
  assert (src = ((pre1 ++ mangle_name q) ++ [method_mangled_marker]) ++ mangle_name (mangle_integer n) ++ [iep_suffix]) as S3.
  { rewrite S2. by rewrite <- !(assoc_L (++)). }
  assert (Forall c_plain (mangle_integer n)) as Hn.
  { eapply Forall_impl; [apply mangle_integer_digits|]. apply digit_plain. }
  pose proof (c_run_name cs src limit _ Hn _ _ ((out1 ++ q) ++ [35]) tl2 true lib S3
    ltac:(rewrite !app_length; cbn [length]; subst limit; lia) ltac:(lia)) as R4.
  assert (src = (((pre1 ++ mangle_name q) ++ [method_mangled_marker]) ++ mangle_name (mangle_integer n)) ++ [iep_suffix]) as S4.
  { rewrite S3. by rewrite <- !(assoc_L (++)). }
  pose proof (c_run_I cs src limit _ _ (((out1 ++ q) ++ [35]) ++ mangle_integer n) (drop (length (mangle_integer n)) tl2) lib S4
    ltac:(rewrite !app_length; cbn [length]; subst limit; lia)) as R5.
  pose proof (c_reaches_trans _ _ _ _ _ _ _ _ R1 (c_reaches_trans _ _ _ _ _ _ _ _ R2 (c_reaches_trans _ _ _ _ _ _ _ _ R3
    (c_reaches_trans _ _ _ _ _ _ _ _ R4 R5)))) as R.
  assert (forall t, length t <= length (mangle_name t)) as Hlen.
  { intros t. induction t as [|c t IH]; cbn [mangle_name flat_map length]; [lia|].
    rewrite app_length. pose proof (mangle_char_length c). fold (mangle_name t). lia. }
  pose proof (Hlen q) as Lq'. pose proof (Hlen (mangle_integer n)) as Ln'.
  set (k := k1 + (length q + (1 + (length (mangle_integer n) + 1)))) in *.
  assert (k <= length src) as Hk.
  { rewrite Hsrc. repeat (rewrite app_length; cbn [length]). subst k. lia. }
  replace (S (length src)) with (k + (S (length src) - k)) by lia.
  change (CState 1 0 B false None) with (cst [constant_prefix] [] B false None).
  rewrite R. clear R R1 R2 R3 R4 R5.
  assert (forall f st, rd src (cs_src st) = Val 0 -> c_loop cs src f limit st = Val (Some st)) as Hdone.
  { intros [|f] st Hst; cbn [c_loop]; rewrite Hst; done. }
  rewrite Hdone.
  2:{ unfold cst. cbn [cs_src]. rewrite <- S4. unfold rd. rewrite lookup_ge_None_2 by lia.
      by rewrite Nat.eqb_refl. }
  cbn [obind cst cs_buf cs_dest].
  destruct (drop (length (mangle_integer n)) tl2) as [|y rest] eqn:E2;
    apply (f_equal length) in E2; rewrite drop_length in E2; cbn [length] in E2; [lia|].
  rewrite vwrite_mid by done. cbn [obind].
  assert ((((out1 ++ q) ++ [35]) ++ mangle_integer n) = text) as ->.
  { subst out1 text. by rewrite <- !(assoc_L (++)). }
  exists rest. split; [done|]. rewrite app_length. cbn [length]. lia.
Qed.
