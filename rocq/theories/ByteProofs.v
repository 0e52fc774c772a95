(** Proofs about byte vectors. *)
From Coq Require Import ZifyBool ZifyNat ZifyN Lia.
From Verif Require Import Base IntModel IntProofs NumStrModel NumStrSpec NumStrProofs ByteModel ByteSpec.
Local Open Scope Z_scope.
Local Open Scope outcome_scope.

(** *** Splicing *)
Lemma splice_changed (v w : list Z) start n : inside v start n -> length w = Z.to_nat n ->
  changed v (take (Z.to_nat start) v ++ w ++ drop (Z.to_nat (start + n)) v) start (start + n) (fun i => w !! Z.to_nat (i - start)).
Proof.
  intros (H1 & H2 & H3) Hw. split; [rewrite !app_length, take_length, drop_length; lia|]. intros i Hi. case_bool_decide as Hc.
  - rewrite lookup_app_r by (rewrite take_length; lia). rewrite take_length. rewrite lookup_app_l by lia. f_equal. lia.
  - destruct (decide (i < start)) as [Hlt|Hge].
    + rewrite lookup_app_l by (rewrite take_length; lia). by rewrite lookup_take by lia.
    + rewrite lookup_app_r by (rewrite take_length; lia). rewrite take_length. rewrite lookup_app_r by lia.
      rewrite lookup_drop. f_equal. lia.
Qed.

(** *** byte-vector-fill *)
Lemma fill_spec v value start stop : Z.of_nat (length v) < 2 ^ 60 -> 0 <= start <= stop -> stop < Z.of_nat (length v) ->
  exists v', byte_vector_fill v value start (Some stop) = Val v' /\ changed v v' start (stop + 1) (fun _ => Some (value mod 256)).
Proof.
  intros Hlen Hs Hl. unfold byte_vector_fill, check_start_compute_end.
  destruct (start <? 0) eqn:E1; [lia|]. destruct (_ <? stop) eqn:E2; [lia|]. destruct (stop <? start) eqn:E3; [lia|]. cbn [obind].
  rewrite int_result_ok by (unfold fits; lia). cbn [obind]. rewrite int_result_ok by (unfold fits; lia). cbn [obind]. unfold fill_bytes.
  destruct (0 <? stop - start + 1) eqn:E4; [|lia]. rewrite E1. cbn [orb]. destruct (_ <? start + (stop - start + 1)) eqn:E5; [lia|].
  eexists. split; [reflexivity|].
  destruct (splice_changed v (replicate (Z.to_nat (stop - start + 1)) (value mod 256)) start (stop - start + 1)) as [H1 H2].
  { unfold inside. lia. } { by rewrite replicate_length. }
  split; [exact H1|]. intros i Hi. rewrite (H2 i Hi). replace (start + (stop - start + 1)) with (stop + 1) by lia.
  case_bool_decide; [|done]. apply lookup_replicate_2. lia.
Qed.

Lemma fill_overrun v value start : Z.of_nat (length v) < 2 ^ 60 -> 0 <= start <= Z.of_nat (length v) -> byte_vector_fill v value start None = UB.
Proof.
  intros Hlen Hs. unfold byte_vector_fill, check_start_compute_end.
  destruct (start <? 0) eqn:E1; [lia|]. destruct (_ <? Z.of_nat (length v)) eqn:E2; [lia|]. destruct (_ <? start) eqn:E3; [lia|]. cbn [obind].
  rewrite int_result_ok by (unfold fits; lia). cbn [obind]. rewrite int_result_ok by (unfold fits; lia). cbn [obind]. unfold fill_bytes.
  destruct (0 <? _) eqn:E4; [|lia]. rewrite E1. cbn [orb]. destruct (_ <? start + _) eqn:E5; [done|lia].
Qed.

Lemma fill_error v value start stop : let n := Z.of_nat (length v) in
  start < 0 \/ n < default n stop \/ default n stop < start -> exists msg, byte_vector_fill v value start stop = Signal msg.
Proof.
  intros n H. unfold byte_vector_fill, check_start_compute_end. fold n.
  replace (match stop with Some l => l | None => n end) with (default n stop) by (by destruct stop).
  destruct (start <? 0) eqn:E1; [by eexists|]. destruct (n <? default n stop) eqn:E2; [by eexists|]. destruct (default n stop <? start) eqn:E3; [by eexists|lia].
Qed.

(** *** copy-bytes *)
Lemma copy_spec same dst ds src ss n : Z.of_nat (length dst) < 2 ^ 60 -> Z.of_nat (length src) < 2 ^ 60 ->
  inside dst ds n -> inside src ss n -> (same = true -> src = dst /\ (ds + n <= ss \/ ss + n <= ds)) ->
  exists dst', copy_bytes same dst ds src ss n = Val dst' /\ changed dst dst' ds (ds + n) (fun i => src !! Z.to_nat (i - ds + ss)).
Proof.
  intros Hd Hs (D1 & D2 & D3) (S1 & S2 & S3) Hsame. unfold copy_bytes.
  rewrite int_result_ok by (unfold fits; lia). cbn [obind]. rewrite int_result_ok by (unfold fits; lia). cbn [obind].
  destruct ((0 <=? n) && (0 <=? ss) && (0 <=? ds) && (ss + n <=? Z.of_nat (length src)) && (ds + n <=? Z.of_nat (length dst))) eqn:E; [|lia].
  unfold replace_bytes. destruct (0 <? n) eqn:En.
  - assert (same && overlap ds ss n = false) as ->.
    { destruct same; [|done]. destruct (Hsame eq_refl) as [_ Ho]. unfold overlap. lia. }
    destruct ((ds <? 0) || (ss <? 0) || (Z.of_nat (length dst) <? ds + n) || (Z.of_nat (length src) <? ss + n)) eqn:E2; [lia|].
    eexists. split; [reflexivity|].
    destruct (splice_changed dst (take (Z.to_nat n) (drop (Z.to_nat ss) src)) ds n) as [H1 H2].
    { unfold inside. lia. } { rewrite take_length, drop_length. lia. }
    split; [exact H1|]. intros i Hi. rewrite (H2 i Hi). case_bool_decide; [|done]. rewrite lookup_take by lia. rewrite lookup_drop. f_equal. lia.
  - exists dst. split; [done|]. split; [done|]. intros i Hi. rewrite bool_decide_false by lia. done.
Qed.

Lemma copy_overlap dst ds ss n : Z.of_nat (length dst) < 2 ^ 60 ->
  inside dst ds n -> inside dst ss n -> ds < ss + n -> ss < ds + n -> copy_bytes true dst ds dst ss n = UB.
Proof.
  intros Hd (D1 & D2 & D3) (S1 & S2 & S3) H1 H2. unfold copy_bytes.
  rewrite int_result_ok by (unfold fits; lia). cbn [obind]. rewrite int_result_ok by (unfold fits; lia). cbn [obind].
  destruct ((0 <=? n) && (0 <=? ss) && (0 <=? ds) && (ss + n <=? Z.of_nat (length dst)) && (ds + n <=? Z.of_nat (length dst))) eqn:E; [|lia].
  unfold replace_bytes. destruct (0 <? n) eqn:En; [|lia].
  assert (true && overlap ds ss n = true) as -> by (unfold overlap; lia). done.
Qed.

Lemma copy_error same dst ds src ss n : ~ (inside dst ds n /\ inside src ss n) ->
  exists msg, copy_bytes same dst ds src ss n = Signal msg.
Proof.
  intros H. unfold copy_bytes. unfold inside in H.
  destruct (decide (fits (ss + n))) as [F1|F1]; [rewrite (int_result_ok _ F1)|rewrite (int_result_bad _ F1); by eexists]. cbn [obind].
  destruct (decide (fits (ds + n))) as [F2|F2]; [rewrite (int_result_ok _ F2)|rewrite (int_result_bad _ F2); by eexists]. cbn [obind].
  destruct ((0 <=? n) && (0 <=? ss) && (0 <=? ds) && (ss + n <=? Z.of_nat (length src)) && (ds + n <=? Z.of_nat (length dst))) eqn:E; [lia|by eexists].
Qed.

Lemma elt_ok v i x : 0 <= i -> v !! Z.to_nat i = Some x -> elt v i = Val x.
Proof. intros H E. unfold elt. destruct (i <? 0) eqn:E0; [lia|]. by rewrite E. Qed.
Lemma set_elt_ok v i x : 0 <= i < Z.of_nat (length v) -> set_elt v i x = Val (<[Z.to_nat i := x]> v).
Proof. intros H. unfold set_elt. destruct ((i <? 0) || _) eqn:E; [lia|done]. Qed.

(** The loop copies forwards, which is right unless the target lies ahead of an overlapping source. *)
Lemma copy_loop_spec (same : bool) dst0 ds src ss n : inside dst0 ds n -> inside src ss n ->
  (same = true -> src = dst0 /\ (ds <= ss \/ ss + n <= ds)) ->
  forall k i dst, Z.of_nat k = n - i -> 0 <= i -> changed dst0 dst ds (ds + i) (fun j => src !! Z.to_nat (j - ds + ss)) ->
  exists dst', copy_loop same k i dst ds src ss = Val dst' /\ changed dst0 dst' ds (ds + n) (fun j => src !! Z.to_nat (j - ds + ss)).
Proof.
  intros (D1 & D2 & D3) (S1 & S2 & S3) Hsame. induction k as [|k IH]; intros i dst Hk Hi [C1 C2]; cbn [copy_loop].
  - exists dst. split; [done|]. replace n with i by lia. by split.
  - destruct (lookup_lt_is_Some_2 src (Z.to_nat (ss + i)) ltac:(lia)) as [x Hx].
    assert (Hread : (if same then dst else src) !! Z.to_nat (ss + i) = Some x).
    { destruct same; [|done]. destruct (Hsame eq_refl) as [-> Ho]. rewrite C2 by lia. rewrite bool_decide_false; [done|lia]. }
    assert (Hnn : 0 <= ss + i) by lia. rewrite (elt_ok _ _ _ Hnn Hread). cbn [obind]. rewrite set_elt_ok by lia. cbn [obind].
    apply IH; [lia|lia|]. split; [by rewrite insert_length|]. intros j Hj. destruct (decide (j = ds + i)) as [->|Hne].
    + rewrite list_lookup_insert by lia. rewrite bool_decide_true by lia. replace (ds + i - ds + ss) with (ss + i) by lia. done.
    + rewrite list_lookup_insert_ne by lia. rewrite C2 by done. destruct (decide (ds <= j < ds + i)).
      * rewrite !bool_decide_true by lia. done.
      * rewrite !bool_decide_false by lia. done.
Qed.

(** *** Hexadecimal *)
Definition value_of (c : Z) : Z := Z.land c 15 + 9 * Z.shiftr c 6.

Lemma value_of_digit c v : any_hex c v -> value_of c = v /\ 0 <= v <= 15.
Proof.
  intros H.
  assert (Hall : forall lo len off, Forall (fun k => value_of (lo + Z.of_nat k) = Z.of_nat k + off) (seq 0 len) -> forall c, lo <= c < lo + Z.of_nat len -> value_of c = c - lo + off).
  { intros lo len off HF c' Hc. rewrite Forall_forall in HF. specialize (HF (Z.to_nat (c' - lo))).
    replace (lo + Z.of_nat (Z.to_nat (c' - lo))) with c' in HF by lia. rewrite HF; [lia|]. apply elem_of_list_In, in_seq. lia. }
  destruct H as [[[Hc ->]|[Hc ->]]|[Hc ->]]; (split; [|lia]).
  - rewrite (Hall 48 10%nat 0); [lia|repeat constructor|lia].
  - rewrite (Hall 97 6%nat 10); [lia|repeat constructor|lia].
  - rewrite (Hall 65 6%nat 10); [lia|repeat constructor|lia].
Qed.

Lemma hex_code_digit d : 0 <= d <= 15 -> lower_hex (hex_code d) d.
Proof.
  intros H. assert (HF : Forall (fun k => lower_hex (hex_code (Z.of_nat k)) (Z.of_nat k)) (seq 0 16)).
  { cbn [seq]. repeat apply List.Forall_cons; try apply List.Forall_nil; unfold lower_hex; vm_compute; ((left; split; [split; discriminate|reflexivity]) || (right; split; [split; discriminate|reflexivity])). }
  rewrite Forall_forall in HF. specialize (HF (Z.to_nat d)). rewrite Z2Nat.id in HF by lia. apply HF. apply elem_of_list_In, in_seq. lia.
Qed.

Lemma byte_split b : byte b -> 0 <= Z.land b 15 <= 15 /\ 0 <= Z.shiftr b 4 <= 15 /\ b = Z.shiftr b 4 * 16 + Z.land b 15.
Proof.
  intros H. unfold byte in H. assert (El : Z.land b 15 = b mod 16) by exact (Z.land_ones b 4 ltac:(lia)). rewrite El. rewrite Z.shiftr_div_pow2 by lia.
  change (2 ^ 4) with 16. pose proof (Z.div_mod b 16 ltac:(lia)). pose proof (Z.mod_pos_bound b 16 ltac:(lia)). lia.
Qed.

Lemma raw_elt_ok v i x : 0 <= i -> v !! Z.to_nat i = Some x -> raw_elt v i = Val x.
Proof. intros H E. unfold raw_elt. destruct (i <? 0) eqn:E0; [lia|]. by rewrite E. Qed.
Lemma raw_set_mid (a b : list Z) y x i : i = Z.of_nat (length a) -> raw_set (a ++ y :: b) i x = Val (a ++ x :: b).
Proof.
  intros ->. unfold raw_set. rewrite app_length. cbn [length]. destruct (_ || _) eqn:E; [lia|]. rewrite Nat2Z.id.
  f_equal. rewrite <- (Nat.add_0_r (length a)), insert_app_r. done.
Qed.
Lemma raw_elt_mid (a b : list Z) x i : i = Z.of_nat (length a) -> raw_elt (a ++ x :: b) i = Val x.
Proof. intros ->. apply raw_elt_ok; [lia|]. rewrite Nat2Z.id, lookup_app_r, Nat.sub_diag by lia. done. Qed.

Lemma hex_loop_spec : forall data pre out, Forall byte data -> (length out = 2 * length pre)%nat ->
  exists s, hex_loop (length data) (Z.of_nat (length pre)) (pre ++ data) (out ++ replicate (length data * 2) 32) = Val (out ++ s) /\ hex_of lower_hex s data.
Proof.
  induction data as [|b data IH]; intros pre out HF Hlen; cbn [length hex_loop].
  - exists []. split; [done|constructor].
  - apply Forall_cons in HF as [Hb HF]. rewrite raw_elt_mid by done. cbn [obind]. cbn [Nat.mul Nat.add replicate].
    rewrite raw_set_mid by lia. cbn [obind].
    replace (out ++ hex_code (Z.shiftr b 4) :: 32 :: replicate (length data * 2) 32) with ((out ++ [hex_code (Z.shiftr b 4)]) ++ 32 :: replicate (length data * 2) 32) by (by rewrite <- app_assoc).
    rewrite raw_set_mid by (rewrite app_length; cbn; lia). cbn [obind].
    destruct (IH (pre ++ [b]) ((out ++ [hex_code (Z.shiftr b 4)]) ++ [hex_code (Z.land b 15)]) HF) as (s & E & Hs).
    { rewrite !app_length. cbn. lia. }
    exists (hex_code (Z.shiftr b 4) :: hex_code (Z.land b 15) :: s). destruct (byte_split b Hb) as (H1 & H2 & H3). split.
    + rewrite app_length in E. cbn [length] in E. rewrite Nat2Z.inj_add in E. change (Z.of_nat 1) with 1 in E.
      rewrite <- !app_assoc in E. cbn [app] in E. rewrite <- app_assoc. cbn [app]. exact E.
    + rewrite H3 at 3. constructor; [by apply hex_code_digit|by apply hex_code_digit|done].
Qed.

Lemma hexstring_spec data : Forall byte data -> exists s, hexstring data = Val s /\ hex_of lower_hex s data.
Proof. intros HF. exact (hex_loop_spec data [] [] HF eq_refl). Qed.

Lemma hex_of_length digit s bs : hex_of digit s bs -> (length s = 2 * length bs)%nat.
Proof. induction 1; cbn; lia. Qed.

Lemma from_hex_spec : forall s bs, hex_of any_hex s bs -> forall fuel pre out, (length pre = 2 * length out)%nat -> (length bs < fuel)%nat ->
  from_hex_loop fuel (pre ++ s) (Z.of_nat (length pre)) (out ++ replicate (length bs) 0) = Val (out ++ bs).
Proof.
  induction 1 as [|c1 c2 v1 v2 s bs H1 H2 H IH]; intros fuel pre out Hlen Hf; (destruct fuel as [|fuel]; [lia|]); cbn [from_hex_loop].
  - rewrite app_nil_r. destruct (_ <? _) eqn:E; [lia|done].
  - rewrite app_length. cbn [length] in *. destruct (_ <? _) eqn:E; [|lia].
    rewrite raw_elt_mid by done. cbn [obind].
    replace (pre ++ c1 :: c2 :: s) with ((pre ++ [c1]) ++ c2 :: s) by (by rewrite <- app_assoc).
    rewrite raw_elt_mid by (rewrite app_length; cbn; lia). cbn [obind].
    destruct (value_of_digit c1 v1 H1) as [V1 B1]. destruct (value_of_digit c2 v2 H2) as [V2 B2]. unfold value_of in V1, V2. rewrite V1.
    replace (Z.shiftl v1 4 + Z.land c2 15 + 9 * Z.shiftr c2 6) with (v1 * 16 + v2) by (rewrite Z.shiftl_mul_pow2 by lia; change (2 ^ 4) with 16; lia).
    destruct ((0 <=? v1 * 16 + v2) && _) eqn:Eb; [|lia]. cbn [replicate].
    rewrite raw_set_mid.
    2: { rewrite Hlen. replace (Z.of_nat (2 * length out)) with (Z.of_nat (length out) * 2) by lia. apply Z.div_mul. lia. }
    cbn [obind]. specialize (IH fuel ((pre ++ [c1]) ++ [c2]) (out ++ [v1 * 16 + v2])).
    rewrite <- !app_assoc in IH. cbn [app] in IH. rewrite <- app_assoc. cbn [app]. rewrite <- IH; [|rewrite !app_length; cbn; lia|lia].
    f_equal. rewrite app_length. cbn. lia.
Qed.

Lemma from_hexstring_spec s bs : hex_of any_hex s bs -> from_hexstring s = Val bs.
Proof.
  intros H. unfold from_hexstring. pose proof (hex_of_length _ _ _ H) as Hl.
  assert (Z.odd (Z.of_nat (length s)) = false) as ->.
  { rewrite Hl. replace (Z.of_nat (2 * length bs)) with (2 * Z.of_nat (length bs)) by lia. by rewrite Z.odd_mul. }
  replace (Nat.div (length s) 2) with (length bs) by (rewrite Hl, Nat.mul_comm, Nat.div_mul; lia).
  apply (from_hex_spec s bs H (S (length s)) [] [] eq_refl). lia.
Qed.

Lemma lower_any s bs : hex_of lower_hex s bs -> hex_of any_hex s bs.
Proof. induction 1; constructor; try done; by left. Qed.

Lemma from_hex_never_ub : forall fuel s pre out k, (length s < fuel)%nat -> (length pre = 2 * length out)%nat -> (length s = 2 * k)%nat ->
  from_hex_loop fuel (pre ++ s) (Z.of_nat (length pre)) (out ++ replicate k 0) <> UB /\
  from_hex_loop fuel (pre ++ s) (Z.of_nat (length pre)) (out ++ replicate k 0) <> NoFuel.
Proof.
  induction fuel as [|fuel IH]; intros s pre out k Hf Hp Hk; [lia|]. cbn [from_hex_loop]. rewrite app_length.
  destruct s as [|c1 [|c2 s]]; [|cbn in Hk; lia|]; cbn [length] in *.
  { destruct (_ <? _) eqn:E; [lia|done]. }
  destruct (_ <? _) eqn:E; [|lia]. rewrite raw_elt_mid by done. cbn [obind].
  replace (pre ++ c1 :: c2 :: s) with ((pre ++ [c1]) ++ c2 :: s) by (by rewrite <- app_assoc).
  rewrite raw_elt_mid by (rewrite app_length; cbn; lia). cbn [obind].
  destruct (_ && _); [|done]. destruct k as [|k]; [lia|]. cbn [replicate].
  rewrite raw_set_mid.
  2: { rewrite Hp. replace (Z.of_nat (2 * length out)) with (Z.of_nat (length out) * 2) by lia. apply Z.div_mul. lia. }
  cbn [obind]. set (b := Z.shiftl _ 4 + _ + _).
  specialize (IH s ((pre ++ [c1]) ++ [c2]) (out ++ [b]) k). rewrite <- !app_assoc in IH. cbn [app] in IH. rewrite <- app_assoc. cbn [app].
  replace (Z.of_nat (length pre) + 2) with (Z.of_nat (length (pre ++ [c1; c2]))) by (rewrite app_length; cbn; lia).
  apply IH; [lia|rewrite !app_length; cbn; lia|lia].
Qed.
