(** C55: integer literals. *)
From Verif Require Import Base LexTable LexModel LexSpec LexProofs LitModel LitSpec LitProofs LitIntProofs.
From Coq Require Import ZArith Lia ZifyBool ZifyNat.
Local Open Scope outcome_scope.
Local Open Scope Z_scope.

(** Wherever an integer literal stands in the source, and whatever comes before it, get-token at its start
    takes exactly its characters and gives its value, if what follows does not go on with the number; a
    literal whose value is not representable is reported, never silently wrapped. *)
Theorem C55_integer : forall r before literal after value lx fuel,
  0 <= max_int r -> min_int r = - max_int r - 1 ->
  Forall is_byte (before ++ literal ++ after) -> ready (before ++ literal ++ after) lx -> lx_position lx = length before ->
  integer_literal literal value -> then_ends_number after -> (length literal < fuel)%nat ->
  if (min_int r <=? value) && (value <=? max_int r) then
    exists t lx', get_token r fuel (before ++ literal ++ after) lx = Val (t, LInteger value, lx') /\
      tk_start t = length before /\ tk_end t = (length before + length literal)%nat /\
      ready (before ++ literal ++ after) lx' /\ lx_position lx' = tk_end t
  else get_token r fuel (before ++ literal ++ after) lx = Signal "integer-too-large".
Proof.
  intros r pre lit post z lx fuel Hmax Hmin Hb Hrd Hpos Hl Hp Hf.
  pose proof (integer_token r pre lit post z lx fuel (conj Hmax Hmin) Hb Hl Hp Hpos Hf) as E. unfold representable in E.
  destruct (_ && _); [|exact E]. eexists _, _. split; [exact E|]. cbn. split_and!; auto.
  destruct (integer_no_newline lit z Hl) as [Hn _]. destruct Hrd as [Hg Hr].
  split; [|exact Hr]. cbn. rewrite Hpos in Hg. revert Hg. clear -Hn. unfold good, line_at, column_at. rewrite !app_length.
  rewrite (take_app_alt pre) by done. rewrite (app_assoc pre), (take_app_alt (pre ++ lit)) by (by rewrite app_length).
  rewrite List.filter_app, app_length.
  assert (forall n, column (pre ++ lit) n = (column pre n + length lit)%nat) as Hc.
  { clear -Hn. revert pre. induction lit as [|c lit IH] using rev_ind; intros pre n; [rewrite app_nil_r; cbn; lia|].
    apply Forall_app in Hn as [Hn1 Hn2]. apply Forall_cons in Hn2 as [Hc _]. rewrite app_assoc, column_snoc, app_length. replace (c =? 10) with false by lia.
    rewrite (IH Hn1). cbn. lia. }
  assert (List.filter (Z.eqb 10) lit = []) as ->.
  { clear -Hn. induction lit as [|c lit IH]; [done|]. apply Forall_cons in Hn as [Hc Hn]. cbn [List.filter]. replace (10 =? c) with false by lia. apply (IH Hn). }
  rewrite Hc. cbn. lia.
Qed.

Print Assumptions C55_integer.

(** ** The hypotheses are met *)

(** -1_234 and #xFf *)
Example C55_example_minus : integer_literal [45; 49; 95; 50; 51; 52] (-1234).
Proof.
  apply (IL_minus [[49]; [50; 51; 52]]). split; [done|].
  repeat constructor; try done; unfold is_digit; eexists; (split; [reflexivity | lia]).
Qed.
Example C55_example_hex : integer_literal [35; 120; 70; 102] 255.
Proof.
  apply (IL_radix 120 16 [[70; 102]]); [cbn; tauto|]. split; [done|].
  repeat constructor; try done; unfold is_digit; eexists; (split; [reflexivity | lia]).
Qed.
(** "x-1_234)" at position 1, in a range of three digits and in one of four *)
Example C55_example : exists t lx',
  get_token (IntRange (-2048) 2047) 20 [40; 45; 49; 95; 50; 51; 52; 41] (Lexer 1 1 0 (Counts 0 0 0 0)) = Val (t, LInteger (-1234), lx') /\ tk_end t = 7%nat.
Proof. eexists _, _. split; vm_compute; reflexivity. Qed.
Example C55_example_large :
  get_token (IntRange (-1024) 1023) 20 [40; 45; 49; 95; 50; 51; 52; 41] (Lexer 1 1 0 (Counts 0 0 0 0)) = Signal "integer-too-large".
Proof. vm_compute. reflexivity. Qed.
Example C55_example_ready : ready [40; 45; 49; 95; 50; 51; 52; 41] (Lexer 1 1 0 (Counts 0 0 0 0)) /\ then_ends_number [41].
Proof. split; [split; [unfold good; vm_compute; split_and!; auto with lia | by split] | reflexivity]. Qed.
