(** C09: equal keys hash equally.  C10: symbols are interned. *)
From Verif Require Import Base NumStrModel IntSpec IntProofs IntBitsProofs TableModel TableSpec TableVec TableOps TableProofs TableProps HashModel HashSpec HashProofs SymProofs.
From Coq Require Import ZifyBool ZifyNat.
Open Scope Z_scope.

(** ** C09 *)

(** The test of <string-table> is equality of the strings; equal strings have
    the same code, and every string has one. *)
Theorem C09_strings s1 s2 :
  Forall is_code s1 -> representable (Z.of_nat (length s1)) ->
  (string_equal s1 s2 = true <-> s1 = s2) /\
  exists h, string_hash s1 = Val h /\ representable h /\
    (string_equal s1 s2 = true -> string_hash s2 = Val h).
Proof.
  intros Hc Hl. split; [apply string_equal_true|].
  destruct (string_hash_ok s1 Hc Hl) as (h & Hh & Hr). exists h. split; [done|]. split; [done|].
  intros He. apply string_equal_true in He as <-. done.
Qed.
Print Assumptions C09_strings.

(** The test of <case-insensitive-string-table> is equality up to the case of
    letters, and strings that pass it have the same code. *)
Theorem C09_case_insensitive s1 s2 :
  (case_insensitive_equal s1 s2 = true <-> same_folded s1 s2) /\
  exists h, ci_string_hash s1 = Val h /\ representable h /\
    (case_insensitive_equal s1 s2 = true -> ci_string_hash s2 = Val h).
Proof.
  split; [apply case_insensitive_equal_true|].
  destruct (ci_hash_ok s1 0 (Z.of_nat (length s1)) ltac:(lia) ltac:(lia)) as (h & Hh & Hr).
  exists h. split; [done|]. split; [apply small_representable; lia|]. intros He.
  apply case_insensitive_equal_true in He. unfold same_folded in He.
  fold (ci_string_hash s1) in Hh. rewrite ci_string_hash_steps in *.
  rewrite masked_fold, <- He, <- masked_fold. done.
Qed.
Print Assumptions C09_case_insensitive.

(** The same for the test and code of the symbol table, which compare a name
    with a range of a string. *)
Theorem C09_symbols name str s e :
  0 <= s <= e -> e <= Z.of_nat (length str) ->
  exists b h, ci_equal_2 name str s e = Val b /\
    (b = true <-> same_folded name (take (Z.to_nat (e - s)) (drop (Z.to_nat s) str))) /\
    ci_string_hash_2 str s e = Val h /\ representable h /\
    (b = true -> ci_string_hash name = Val h).
Proof.
  intros H1 H2. destruct (ci_equal_2_ok name str s e H1 H2) as (b & Hb & Hs).
  destruct (ci_hash_ok str s e H1 H2) as (h & Hh & Hr).
  exists b, h. split; [done|]. split; [exact Hs|]. split; [done|].
  split; [apply small_representable; lia|]. intros ->.
  rewrite ci_string_hash_2_steps in Hh by done. rewrite ci_string_hash_steps.
  destruct Hs as [Hs _]. specialize (Hs eq_refl). unfold same_folded in Hs. fold (slice str s e) in Hs.
  rewrite masked_fold, Hs, <- masked_fold. done.
Qed.
Print Assumptions C09_symbols.

(** So these tables meet the conditions under which a table is a finite map
    (C06_table_is_finite_map), whatever the collector does. *)
Theorem C09_string_tables :
  contract string_protocol (fun _ => None) /\
  contract ci_protocol (fun _ => None) /\
  contract symbol_protocol (fun _ => None).
Proof.
  split; [|split; [|apply symbol_contract]]; apply value_contract; intros *;
    rewrite ?string_equal_true, ?case_insensitive_equal_true; unfold same_folded;
    try done; try congruence.
  intros H. by rewrite !ci_string_hash_steps, (masked_fold k), H, <- masked_fold.
Qed.
Print Assumptions C09_string_tables.

(** The unordered hash of a collection does not depend on the order in which
    its entries are met. *)
Section Collections.
Context {K E : Type} (kh : K -> Z) (eh : E -> Z).
Context (Hkh : forall k, representable (kh k)) (Heh : forall e, representable (eh e)).

Definition entry_code (p : K * E) : Z :=
  match merge_hash_ids (eh p.2) (kh p.1) true with Val c => c | _ => 0 end.

Lemma entry_code_ok p :
  merge_hash_ids (eh p.2) (kh p.1) true = Val (entry_code p) /\ representable (entry_code p).
Proof.
  unfold entry_code. destruct (merge_ok (eh p.2) (kh p.1) true (Heh _) (Hkh _)) as (c & -> & Hc). done.
Qed.

Lemma representable_lxor a b : representable a -> representable b -> representable (Z.lxor a b).
Proof.
  intros Ha Hb. rewrite <- int_logxor_spec by done. unfold IntModel.int_logxor. rewrite untag_force.
  - apply untag_representable, inw_lxor; by apply tag_inw.
  - apply inw_lxor; by apply tag_inw.
Qed.

Lemma collection_hash_loop_ok col : forall id, representable id ->
  collection_hash_loop kh eh false col id =
    Val (Z.lxor id (foldr (fun p => Z.lxor (entry_code p)) 0 col)) /\
  representable (Z.lxor id (foldr (fun p => Z.lxor (entry_code p)) 0 col)).
Proof.
  induction col as [|[k e] col IH]; intros id Hid; cbn [collection_hash_loop foldr].
  - by rewrite Z.lxor_0_r.
  - destruct (entry_code_ok (k, e)) as [He Hr]. cbn [fst snd] in He. rewrite He. cbn [obind].
    unfold merge_hash_ids. cbn [obind]. rewrite int_logxor_spec by done.
    destruct (IH (Z.lxor (entry_code (k, e)) id)) as [H1 H2]; [by apply representable_lxor|].
    rewrite H1, <- Z.lxor_assoc, (Z.lxor_comm id). split; [done|exact H2].
Qed.

Theorem C09_collection_order (col col' : list (K * E)) :
  Permutation col col' ->
  exists h, collection_hash kh eh col false = Val h /\ collection_hash kh eh col' false = Val h /\
    representable h.
Proof.
  intros Hp. unfold collection_hash.
  assert (H0 : representable 0) by (apply small_representable; lia).
  destruct (collection_hash_loop_ok col 0 H0) as [-> Hr].
  destruct (collection_hash_loop_ok col' 0 H0) as [-> _].
  eexists. split; [reflexivity|]. split; [|exact Hr]. do 2 f_equal.
  clear Hr. induction Hp as [|p l l2 Hp IH|x y l|l1 l2 l3 H1 IH1 H2 IH2]; cbn [foldr]; [done|by rewrite IH| |congruence].
  rewrite <- !Z.lxor_assoc, (Z.lxor_comm (entry_code y)). done.
Qed.
End Collections.
Print Assumptions C09_collection_order.

(** Objects hashed by value have a code. *)
Theorem C09_objects v :
  match v with
  | VInteger n => representable n
  | VBoolean _ => True
  | VCharacter c => is_code c
  | VWord w | VSingle w => - 2 ^ 63 <= w < 2 ^ 63
  | VDouble l h => - 2 ^ 63 <= l < 2 ^ 63 /\ - 2 ^ 63 <= h < 2 ^ 63
  end ->
  exists h, object_hash v = Val h /\ representable h.
Proof.
  destruct v as [n|b|c|w|l h|w]; cbn [object_hash]; intros H.
  - eauto.
  - eexists. split; [reflexivity|]. apply small_representable. destruct b; lia.
  - unfold is_code in H. rewrite int_add_spec by (apply small_representable; lia).
    rewrite exact_ok by (apply small_representable; lia).
    eexists. split; [reflexivity|]. apply small_representable. lia.
  - by apply hash_index_ok.
  - destruct H as [Hl Hh]. destruct (hash_index_ok l Hl) as (cl & -> & Hcl). cbn [obind].
    destruct (hash_index_ok h Hh) as (ch & -> & Hch). cbn [obind]. by apply merge_ok.
  - by apply hash_index_ok.
Qed.
Print Assumptions C09_objects.

(** Concrete cases: a short and a long string, two spellings, two orders. *)
Example C09_ex :
  string_hash (codes "hello") = Val 621334 /\
  string_hash (codes "the quick brown fox jumps over the lazy dog") = Val 240619444 /\
  case_insensitive_equal (codes "Hello World") (codes "hELLO wORLD") = true /\
  ci_string_hash (codes "Hello World") = ci_string_hash (codes "hELLO wORLD") /\
  ci_string_hash (codes "Hello World") <> ci_string_hash (codes "Hello Worle") /\
  ci_equal_2 (codes "quick") (codes "the QUICK brown") 4 9 = Val true /\
  collection_hash id id [(0, 10); (1, 20); (2, 30)] false =
    collection_hash id id [(2, 30); (0, 10); (1, 20)] false /\
  collection_hash id id [(0, 10); (1, 20)] true <> collection_hash id id [(1, 20); (0, 10)] true.
Proof. vm_compute. repeat split; congruence. Qed.

(** ** C10 *)

(** Any sequence of requests for symbols by name, with the Dylan library
    initialised at any point and libraries with literal symbols loaded at any
    point: every request is answered, two answers are the same symbol exactly
    when the names differ in case only, and the symbol has that name. *)
Theorem C10_interned_partial os c t :
  2 * Z.of_nat (length os) + 14 <= max_entries ->
  Forall no_null (preboot os) ->
  make_table symbol_protocol initial_symbol_table_size false c = Val t ->
  exists rs w, srun (SWorld [] [] false t) os = Val (rs, w) /\
    interned (requested os) (omap id rs) /\
    forall i n x, requested os !! i = Some n -> omap id rs !! i = Some x ->
      exists n', names w !! x = Some n' /\ same_folded n' n.
Proof.
  intros Hn Hz Ht.
  pose proof (C06_default_growth (Z.of_nat (length os)) Hn) as HN.
  destruct (make_table_ok symbol_protocol _ symbol_contract (V := nat) initial_symbol_table_size c)
    as (t' & Ht' & Hw).
  { unfold initial_symbol_table_size, max_entries. lia. }
  assert (t' = t) as -> by congruence.
  destruct (srun_ok (length os) HN os (SWorld [] [] false t) [] []) as (rs & w & m & Hr & Hl & Hs).
  { apply sok_before; try done.
    - split; try done. intros k x H. by apply elem_of_nil in H. intros k x H. by apply elem_of_nil in H.
    - intros k x H. by apply elem_of_nil in H.
    - exact (w_tab _ _ _ Hw). }
  { cbn. lia. }
  { done. }
  exists rs, w. split; [done|].
  assert (Hk : known w m (rev (zip (requested os) (omap id rs)) ++ [])) by (by destruct Hs).
  assert (Hlog : forall i n x, requested os !! i = Some n -> omap id rs !! i = Some x ->
    mget (test symbol_protocol) m n = Some x).
  { intros i n x H1 H2. apply (kn_log _ _ _ Hk). rewrite app_nil_r.
    apply elem_of_list_In. apply -> in_rev. apply elem_of_list_In, elem_of_list_lookup. exists i. apply lookup_zip_with_Some. eauto. }
  assert (Hent : forall i n x, requested os !! i = Some n -> omap id rs !! i = Some x ->
    exists n', names w !! x = Some n' /\ same_folded n' n).
  { intros i n x H1 H2. pose proof (Hlog i n x H1 H2) as Hg.
    apply mget_Some_inv in Hg as (k & Hin & Htst). exists k.
    split; [by apply (kn_names _ _ _ Hk)|]. apply same_folded_sym. by apply test_symbol. }
  split; [split; [done|]|done].
  intros i j n n' x x' H1 H2 H3 H4. split.
  - intros <-. destruct (Hent i n x H1 H3) as (k & Hk1 & Hk2).
    destruct (Hent j n' x H2 H4) as (k' & Hk1' & Hk2'). assert (k' = k) as -> by congruence.
    unfold same_folded in *. congruence.
  - intros Hsf. pose proof (Hlog i n x H1 H3) as Hg. pose proof (Hlog j n' x' H2 H4) as Hg'.
    rewrite (mget_same symbol_protocol _ symbol_contract _ n n') in Hg by (by apply test_symbol). congruence.
Qed.
Print Assumptions C10_interned_partial.

(** The answer to a request after any history, so in particular once the table
    has grown several times. *)
Definition demo_symbols : list sop :=
  [SResolve (codes "foo"); SMake (codes "Bar"); SResolve (codes "BAR"); SBoot;
   SMake (codes "FOO"); SMake (codes "baz"); SResolve (codes "Baz"); SMake (codes "bar")].

Example C10_ex :
  Forall no_null (preboot demo_symbols) /\
  match make_table symbol_protocol (V := nat) 31 false (Clock 0 [1; 2]%nat) with
  | Val t => match srun (SWorld [] [] false t) demo_symbols with
             | Val (rs, _) => omap id rs
             | _ => []
             end
  | _ => []
  end = [0; 1; 1; 0; 3; 3; 1]%nat.
Proof.
  split; [|vm_compute; reflexivity].
  change (preboot demo_symbols) with [codes "foo"; codes "Bar"; codes "BAR"].
  repeat (apply Forall_cons; split; [apply (bool_decide_unpack (0 ∉ _)); vm_compute; exact I|]). by apply Forall_nil.
Qed.

(** Before the library is initialised the run-time compares names with
    strncasecmp, which stops at a null character: different names, one symbol. *)
Theorem C10_null_refuted :
  ~ same_folded [97; 0; 98] [97; 0; 99] /\
  match make_table symbol_protocol (V := nat) 31 false (Clock 0 []) with
  | Val t => match srun (SWorld [] [] false t) [SMake [97; 0; 98]; SMake [97; 0; 99]] with
             | Val (rs, _) => rs
             | _ => []
             end
  | _ => []
  end = [Some 0; Some 0]%nat.
Proof. split; [by intros H; vm_compute in H|vm_compute; reflexivity]. Qed.
Print Assumptions C10_null_refuted.
