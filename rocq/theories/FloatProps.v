(** C58: floating-point literals. *)
From Verif Require Import Base LexTable LexModel LexSpec LexProofs LexPathProofs LitModel LitSpec LitProofs LitIntProofs LexProps BlankProofs BlankProps StrProps
  FloatSpec FloatProofs.
From Coq Require Import ZArith QArith Qpower Lia ZifyBool ZifyNat.
Local Open Scope outcome_scope.
Local Open Scope Z_scope.

Lemma spelled_no_newline p : well_formed p -> Forall (fun c => c <> 10) (spelled p).
Proof.
  intros (Hsg & Hd & _ & _ & He). unfold spelled, mantissa_digits in *.
  assert (forall ds, Forall (is_digit 10) ds -> Forall (fun c => c <> 10) ds) as Hds by (intros ds H; eapply Forall_impl; [exact H|]; intros c Hc; destruct (digit10 c Hc); lia).
  assert (forall sg, In sg signs -> Forall (fun c => c <> 10) sg) as Hs by (intros sg H; cbn in H; destruct H as [<- | [<- | [<- | []]]]; by repeat constructor).
  apply Forall_app in Hd as [Hd1 Hd2]. repeat apply Forall_app_2; auto.
  - destruct (f_fraction p); [constructor; auto; done | done].
  - destruct (f_exponent p) as [[[m sg] ds]|]; [|done]. destruct He as (Hm & H1 & H2 & _). constructor; [|apply Forall_app_2; auto].
    cbn in Hm. repeat (destruct Hm as [<- | Hm]; [done|]). done.
Qed.

(** Missing: the rounding of this number to a floating-point number, and underscores. *)
Theorem C58_float_partial : forall r before p after,
  Forall is_byte (before ++ spelled p ++ after) -> well_formed p -> then_ends_word after ->
  (length (f_whole p) <= 18)%nat \/ minus_exponent p = false ->
  exists d, gives r before (spelled p) after (LFloat d) /\ kind_is p (d_class d) /\
    ((length (mantissa_digits p) <= 18)%nat -> decimal_value d == float_value p)%Q /\
    (0 <= (float_value p - decimal_value d) * inject_Z (sign_of (f_sign p)) < ten_to (exponent_of p + Z.of_nat (length (f_whole p)) - 18))%Q.
Proof.
  intros r before p after Hb Hw Ha Hc. exists (first18 p). destruct (first18_close p Hw Hc) as [H1 H2].
  split; [|split; [by apply kind_of_is | by split]]. apply gives_from; [done|]. intros lx Elx.
  assert (lx_position lx = length before) as Hpos by (subst lx; done).
  destruct (run_float p Hw) as (s & Hr & Hbl & Hst).
  unfold get_token. rewrite (scan_plain (before ++ spelled p ++ after) before (spelled p) after lx s B_parse_fp_literal); auto.
  - cbn [obind tk_builder tk_start tk_end]. cbv zeta. rewrite drop_app.
    replace (length before + length (spelled p) - length before)%nat with (length (spelled p)) by lia. rewrite take_app, (atof_spelled p Hw). cbn [obind].
    eexists _, _. split; [reflexivity|]. done.
  - by apply spelled_no_newline.
  - apply Hst; [by eapply bytes_of | done].
  - rewrite !app_length. lia.
Qed.

(** A number of more than 18 digits before the point with a negative exponent: 1000000000000000000e-1 is a
    hundredth of what it spells. *)
Theorem C58_long_refuted : forall r, exists p d, well_formed p /\ gives r [] (spelled p) [] (LFloat d) /\ (float_value p == (100 # 1) * decimal_value d)%Q.
Proof.
  intros r. exists (FloatParts [] [49; 48; 48; 48; 48; 48; 48; 48; 48; 48; 48; 48; 48; 48; 48; 48; 48; 48; 48] None (Some (101, [45], [49]))).
  eexists. split; [|split].
  - unfold well_formed. cbn. split_and!; auto; try done; repeat constructor; unfold is_digit; eexists; (split; [reflexivity | lia]).
  - apply gives_from; [repeat constructor; cbn; lia|]. intros lx ->. eexists _, _. split; [vm_compute; reflexivity|]. split; vm_compute; reflexivity.
  - vm_compute. reflexivity.
Qed.

(** Zeros at the front count as digits: 0.00000000000000000123 reads as zero. *)
Theorem C58_small_refuted : forall r, exists p d, well_formed p /\ gives r [] (spelled p) [] (LFloat d) /\ (0 < float_value p)%Q /\ (decimal_value d == 0)%Q.
Proof.
  intros r. exists (FloatParts [] [48] (Some [48; 48; 48; 48; 48; 48; 48; 48; 48; 48; 48; 48; 48; 48; 48; 48; 48; 49; 50; 51]) None).
  eexists. split; [|split; [|split]].
  - unfold well_formed. cbn. split_and!; auto; try done; try (by left); repeat constructor; unfold is_digit; eexists; (split; [reflexivity | lia]).
  - apply gives_from; [repeat constructor; cbn; lia|]. intros lx ->. eexists _, _. split; [vm_compute; reflexivity|]. split; vm_compute; reflexivity.
  - vm_compute. reflexivity.
  - vm_compute. reflexivity.
Qed.

(** A sign and a point without any digit is read as a number. *)
Theorem C58_no_digit_refuted : forall r, exists d, gives r [] [45; 46] [] (LFloat d).
Proof.
  intros r. eexists. apply gives_from; [repeat constructor; cbn; lia|]. intros lx ->. eexists _, _. split; [vm_compute; reflexivity|]. split; vm_compute; reflexivity.
Qed.

(** Underscores in a fraction depend on the parity of what is before them: 1.2_3 is the number 1.23, but in
    1.25_3 the number ends before the underscore. *)
Theorem C58_underscore_refuted : forall r,
  (exists d, gives r [] [49; 46; 50; 95; 51] [] (LFloat d) /\ (decimal_value d == 123 # 100)%Q) /\
  (exists d, gives r [] [49; 46; 50; 53] [95; 51] (LFloat d) /\ (decimal_value d == 125 # 100)%Q).
Proof.
  intros r. split; eexists; (split; [apply gives_from; [repeat constructor; cbn; lia|]; intros lx ->; eexists _, _; (split; [vm_compute; reflexivity|]; split; vm_compute; reflexivity) |
    vm_compute; reflexivity]).
Qed.

Print Assumptions C58_float_partial.
Print Assumptions C58_long_refuted.
Print Assumptions C58_small_refuted.
Print Assumptions C58_no_digit_refuted.
Print Assumptions C58_underscore_refuted.

(** ** The hypotheses are met: x = -12.50d+3; *)
Definition example_parts := FloatParts [45] [49; 50] (Some [53; 48]) (Some (100, [43], [51])).
Example C58_example_formed : well_formed example_parts /\ then_ends_word [59] /\ (float_value example_parts == -12500 # 1)%Q /\ kind_is example_parts FDouble.
Proof.
  split; [|split; [reflexivity | split; [vm_compute; reflexivity | cbn; tauto]]].
  unfold well_formed, example_parts. cbn. split_and!; auto; try done; try (by left); try tauto; repeat constructor; unfold is_digit; eexists; (split; [reflexivity | lia]).
Qed.
Example C58_example : exists t lx,
  get_token (IntRange (-1024) 1023) 50 ([61; 32] ++ spelled example_parts ++ [59]) (Lexer 2 1 0 (Counts 0 0 0 0)) =
    Val (t, LFloat (Decimal FDouble (-1) 1250 100 true 3), lx) /\ tk_end t = 11%nat.
Proof. eexists _, _. split; vm_compute; reflexivity. Qed.
