(** C40, buffered streams over files. *)
From Coq Require Import ZifyBool ZifyNat.
From stdpp Require Import list_numbers.
From Verif Require Import Base SeqStreamModel SeqStreamSpec FileStreamModel FileStreamSpec FileStreamProofs FileStreamBothProofs.
Local Open Scope Z_scope.

Section props.
  Context {A : Type} (zero blank newline : A) (is_nl is_cr : A -> bool) (short : nat -> nat).
  Notation open := (FileStreamModel.make_stream zero blank short).
  Notation does := (file_runs zero blank newline is_nl is_cr short).
  Notation says := (file_spec_history zero blank newline is_nl is_cr).
  Notation close := (FileStreamModel.close zero short).
  Notation file s := (bytes (disk_of s)).

  Lemma same_calls os : forall s s1 s2 rs1 rs2,
    does s os s1 rs1 -> does s os s2 rs2 -> s1 = s2 /\ rs1 = rs2.
  Proof.
    induction os as [|o os IH]; intros s s1 s2 rs1 rs2 H1 H2.
    - inversion H1; inversion H2; by subst.
    - inversion H1 as [|? ? t1 r1 ? ? q1 Hc1 Hr1]; inversion H2 as [|? ? t2 r2 ? ? q2 Hc2 Hr2]; subst.
      destruct Hc1 as [n1 Hc1], Hc2 as [n2 Hc2].
      specialize (Hc1 (n1 + n2)%nat ltac:(lia)). specialize (Hc2 (n1 + n2)%nat ltac:(lia)).
      rewrite Hc1 in Hc2. injection Hc2 as <- <-. destruct (IH _ _ _ _ _ Hr1 Hr2) as [-> ->]. done.
  Qed.
  Lemma input_keeps os : forall v, contents_of (says Input v os).1 = contents_of v.
  Proof.
    induction os as [|o os IH]; intros v; [done|]. cbn [file_spec_history].
    destruct (file_spec zero blank newline is_nl is_cr Input v o) as [v1 r] eqn:E.
    specialize (IH v1). destruct (says Input v1 os) as [v2 rs]. cbn [fst] in *. rewrite IH.
    destruct o as [| | | | | | | | | | | | | | | |? []| |]; cbn [file_spec go_far readable writable negb orb andb] in E; unfold go in E;
      repeat case_match; simplify_eq; done.
  Qed.

  (** An input stream on a file: whatever the size of the buffer, wherever the file
      is opened and however few bytes the system returns for each read, every call
      ends and answers what [file_spec] says, and the file does not change. *)
  Theorem C40_file_input (l : list A) start size os :
    (0 < size)%nat -> (start <= length l)%nat -> Forall proper os ->
    exists s, open l start size Input = Val (s, Ret ()) /\
      (exists s', does s os s' (says Input (FileView l start) os).2) /\
      (forall s' rs, does s os s' rs -> rs = (says Input (FileView l start) os).2 /\ file s' = l).
  Proof.
    intros Hs Hst Hp.
    destruct (make_input zero blank newline is_nl is_cr short l start size Hs Hst) as (s & E & H).
    exists s. split; [done|].
    destruct (input_history zero blank newline is_nl is_cr short os s _ H Hp) as (s' & Hr & H').
    split; [by exists s'|]. intros s2 rs H2.
    destruct (same_calls _ _ _ _ _ _ Hr H2) as [<- <-]. split; [done|].
    rewrite (sh_bytes _ _ H'), input_keeps. done.
  Qed.

  (** An output stream on a file: every call answers what [file_spec] says, and
      after [close] the file is the contents, whatever the size of the buffer and
      however few bytes the system takes at a time.  Missing: writing after
      [force-output] when the position is not at the end (refuted below), and
      [unread-element] on an output stream. *)
  Theorem C40_file_output_partial (l : list A) start size os :
    (0 < size)%nat -> (start <= length l)%nat ->
    output_history zero blank newline is_nl is_cr (FileView l start) false os ->
    exists s, open l start size Output = Val (s, Ret ()) /\
      (exists s', does s os s' (says Output (FileView l start) os).2) /\
      (forall s' rs, does s os s' rs ->
         rs = (says Output (FileView l start) os).2 /\
         exists s'', close s' false = Val (s'', Ret ()) /\ dir s'' = Closed /\
           file s'' = contents_of (says Output (FileView l start) os).1).
  Proof.
    intros Hs Hst Hp.
    destruct (make_output zero blank newline is_nl is_cr short l start size Hs Hst) as (s & E & H).
    exists s. split; [done|].
    destruct (output_run zero blank newline is_nl is_cr short os s _ _ H Hp) as (s' & st & Hr & H').
    split; [by exists s'|]. intros s2 rs H2.
    destruct (same_calls _ _ _ _ _ _ Hr H2) as [<- <-]. split; [done|].
    destruct (close_output zero newline is_nl is_cr short s' _ _ H') as (s3 & E3 & Hb & Hd). by exists s3.
  Qed.

  (** After [force-output] the file is the contents, without closing it. *)
  Theorem C40_file_force_partial (l : list A) start size os :
    (0 < size)%nat -> (start <= length l)%nat ->
    output_history zero blank newline is_nl is_cr (FileView l start) false os ->
    exists s s' rs, open l start size Output = Val (s, Ret ()) /\
      does s (os ++ [FForceOutput]) s' rs /\
      file s' = contents_of (says Output (FileView l start) os).1.
  Proof.
    intros Hs Hst Hp.
    destruct (make_output zero blank newline is_nl is_cr short l start size Hs Hst) as (s & E & H).
    destruct (output_run zero blank newline is_nl is_cr short os s _ _ H Hp) as (s' & st & Hr & H').
    destruct (force_output_ok zero newline is_nl is_cr short s' _ _ H') as (s3 & E3 & Ho & Hb).
    set (answers := (says Output (FileView l start) os).2) in *. clearbody answers.
    exists s, s3, (answers ++ [RDone (Ret ())]). split; [done|]. split; [|done].
    clear -Hr E3. induction Hr as [s|s o s1 r os s2 rs Hc Hr IH].
    - cbn. econstructor; [|constructor]. exists 0%nat. intros fuel _. cbn [file_call]. by rewrite E3.
    - cbn. econstructor; [done|]. by apply IH.
  Qed.

  (** An input-output stream on a file that stays smaller than the buffer, on a
      system that transfers a whole buffer at once: reads, writes and positions mixed
      in any way answer what [file_spec] says, and [close] leaves the contents in the
      file.  Missing: files that reach the size of the buffer and short reads, both
      refuted below. *)
  Theorem C40_file_input_output_partial (l : list A) start size os :
    (forall k, (size <= short k)%nat) -> (start <= length l)%nat -> (length l < size)%nat ->
    small_history zero blank newline is_nl is_cr size (FileView l start) os ->
    exists s, open l start size InputOutput = Val (s, Ret ()) /\
      (exists s', does s os s' (says InputOutput (FileView l start) os).2) /\
      (forall s' rs, does s os s' rs ->
         rs = (says InputOutput (FileView l start) os).2 /\
         exists s'', close s' false = Val (s'', Ret ()) /\ dir s'' = Closed /\
           file s'' = contents_of (says InputOutput (FileView l start) os).1).
  Proof.
    intros Hf Hst Hl Hp.
    destruct (make_both zero blank newline is_nl is_cr short size Hf ltac:(lia) l start Hst Hl) as (s & E & H).
    exists s. split; [done|].
    destruct (both_run zero blank newline is_nl is_cr short size Hf ltac:(lia) os s _ H Hp) as (s' & Hr & H').
    split; [by exists s'|]. intros s2 rs H2.
    destruct (same_calls _ _ _ _ _ _ Hr H2) as [<- <-]. split; [done|].
    destruct (close_both zero newline is_nl is_cr short size Hf ltac:(lia) s' _ H') as (s3 & E3 & Hb & Hd). by exists s3.
  Qed.

  (** *** Consequences *)
  Lemma put_nil_end (v : @file_view A) : (position_of v <= length (contents_of v))%nat -> put v [] = v.
  Proof.
    intros H. destruct v as [c p]. unfold put. cbn in *. rewrite Nat.add_0_r.
    by rewrite take_drop.
  Qed.
  Lemma writes_says chunks : forall v, (position_of v <= length (contents_of v))%nat ->
    says Output v (map (fun c => FWrite c 0 None) chunks) =
    (put v (concat chunks), replicate (length chunks) (RDone (Ret ()))).
  Proof.
    induction chunks as [|c cs IH]; intros v Hv; cbn [map file_spec_history concat].
    - by rewrite put_nil_end.
    - cbn [file_spec writable]. unfold part, default, from_option, zlen. cbn [option_map].
      rewrite Z.sub_0_r, Nat2Z.id. change (Z.to_nat 0) with 0%nat. rewrite drop_0, firstn_all.
      rewrite IH.
      + cbn [length replicate]. f_equal. by rewrite put_put.
      + unfold put. cbn. rewrite !app_length, take_length, drop_length. lia.
  Qed.
  Lemma writes_history chunks : forall v,
    output_history zero blank newline is_nl is_cr v false (map (fun c => FWrite c 0 None) chunks).
  Proof.
    induction chunks as [|c cs IH]; intros v; cbn [map output_history]; [done|].
    split; [unfold proper; cbn; lia|]. split; [done|]. split; [done|]. apply IH.
  Qed.

  (** Writing any strings, one after the other, to a stream opened at the end of a
      file appends them: buffers are neither lost nor written twice. *)
  Theorem C40_file_written (l : list A) size chunks :
    (0 < size)%nat ->
    exists s s' s'', open l (length l) size Output = Val (s, Ret ()) /\
      does s (map (fun c => FWrite c 0 None) chunks) s' (replicate (length chunks) (RDone (Ret ()))) /\
      close s' false = Val (s'', Ret ()) /\ file s'' = l ++ concat chunks.
  Proof.
    intros Hs.
    destruct (C40_file_output_partial l (length l) size (map (fun c => FWrite c 0 None) chunks))
      as (s & E & (s' & Hr) & Hall); [done|done|apply writes_history|].
    destruct (Hall _ _ Hr) as (_ & s'' & Ec & _ & Hb).
    rewrite writes_says in Hr, Hb by done. cbn [fst snd] in *.
    exists s, s', s''. repeat (split; [done|]). rewrite Hb. unfold put. cbn.
    rewrite firstn_all, drop_ge by lia. by rewrite app_nil_r.
  Qed.

  (** Reading a file in pieces of any sizes gives consecutive pieces of it. *)
  Theorem C40_file_reads (l : list A) size ns :
    (0 < size)%nat -> (foldr Nat.add 0 ns <= length l)%nat ->
    exists s s' pieces, open l 0%nat size Input = Val (s, Ret ()) /\
      does s (map (fun n => FRead (Z.of_nat n) false) ns) s' (map (fun p => RSequence (Ret p)) pieces) /\
      map length pieces = ns /\ concat pieces = take (foldr Nat.add 0%nat ns) l.
  Proof.
    intros Hs Hn.
    destruct (C40_file_input l 0%nat size (map (fun n => FRead (Z.of_nat n) false) ns)) as (s & E & (s' & Hr) & _);
      [done|lia|by apply Forall_forall; intros o (n & -> & _)%elem_of_list_fmap|].
    assert (HS : forall ns p, (p + foldr Nat.add 0 ns <= length l)%nat ->
      exists pieces, (says Input (FileView l p) (map (fun n => FRead (Z.of_nat n) false) ns)).2 =
                       map (fun p => RSequence (Ret p)) pieces /\
                     map length pieces = ns /\ concat pieces = take (foldr Nat.add 0%nat ns) (drop p l)).
    { clear. induction ns as [|n ns IH]; intros p Hp; [by exists []|]. cbn [foldr] in Hp.
      destruct (IH (p + n)%nat) as (ps & E & Hl & Hc); [lia|].
      exists (take n (drop p l) :: ps). cbn [map file_spec_history file_spec readable negb orb].
      unfold rest, forward. cbn [contents_of position_of]. unfold zlen. rewrite drop_length, Nat2Z.id.
      replace (Z.of_nat n <? 0) with false by lia.
      replace (Z.of_nat n <=? Z.of_nat (length l - p)) with true by lia.
      destruct (says Input _ _) as [v rs]. cbn [fst snd] in *. rewrite E. split; [done|]. split.
      - rewrite take_length, drop_length, Hl. f_equal. lia.
      - cbn [concat foldr]. rewrite Hc. rewrite <- drop_drop. by rewrite take_take_drop. }
    destruct (HS ns 0%nat) as (ps & E1 & Hl & Hc); [lia|].
    exists s, s', ps. rewrite <- E1. done.
  Qed.
End props.

(** What one stream wrote another reads back, with any two buffer sizes, however
    the strings were cut and however few bytes each system call transfers. *)
Theorem C40_file_read_back {A} (zero blank newline : A) is_nl is_cr short1 short2 size1 size2 chunks :
  (0 < size1)%nat -> (0 < size2)%nat ->
  exists s s' s'' t t',
    FileStreamModel.make_stream zero blank short1 [] 0%nat size1 Output = Val (s, Ret ()) /\
    file_runs zero blank newline is_nl is_cr short1 s (map (fun c => FWrite c 0 None) chunks) s'
      (replicate (length chunks) (RDone (Ret ()))) /\
    FileStreamModel.close zero short1 s' false = Val (s'', Ret ()) /\
    FileStreamModel.make_stream zero blank short2 (bytes (disk_of s'')) 0%nat size2 Input = Val (t, Ret ()) /\
    file_runs zero blank newline is_nl is_cr short2 t [FReadToEnd; FAtEnd] t'
      [RSequence (Ret (concat chunks)); RBool true].
Proof.
  intros H1 H2.
  destruct (C40_file_written zero blank newline is_nl is_cr short1 [] size1 chunks H1) as (s & s' & s'' & E & Hr & Ec & Hb).
  destruct (C40_file_input zero blank newline is_nl is_cr short2 (bytes (disk_of s'')) 0%nat size2 [FReadToEnd; FAtEnd])
    as (t & Et & (t' & Ht) & _); [done|lia|by repeat constructor|].
  exists s, s', s'', t, t'. repeat (split; [done|]). rewrite Hb in Ht. cbn in Ht.
  unfold rest, forward in Ht. cbn [contents_of position_of] in Ht. rewrite drop_0 in Ht.
  rewrite (proj2 (Nat.leb_le _ _)) in Ht by lia. exact Ht.
Qed.

(** *** Refuted
    [run] calls the code; [full] is a system that always transfers everything. *)
Definition run (short : nat -> nat) (l : list Z) (start size : nat) (r : direction) (os : list (@file_op Z))
  : outcome (@FileStreamModel.stream Z * list (@result Z)) :=
  obind (FileStreamModel.make_stream 0 32 short l start size r) (fun '(s, _) =>
    (fix go s os :=
       match os with
       | [] => Val (s, [])
       | o :: os =>
         obind (file_call 0 32 10 (Z.eqb 10) (Z.eqb 13) short 60 s o) (fun '(s, a) =>
         obind (go s os) (fun '(s, rs) => Val (s, a :: rs)))
       end) s os).
Definition closed (short : nat -> nat) (o : outcome (@FileStreamModel.stream Z * list (@result Z)))
  : outcome (list (@result Z) * list Z) :=
  obind o (fun '(s, rs) => obind (FileStreamModel.close 0 short s false) (fun '(s, _) => Val (rs, bytes (disk_of s)))).
Definition full (k : nat) : nat := 1000%nat.
Definition told (r : direction) (l : list Z) (os : list (@file_op Z)) : list (@result Z) * list Z :=
  let '(v, rs) := file_spec_history 0 32 10 (Z.eqb 10) (Z.eqb 13) r (FileView l 0) os in (rs, contents_of v).

(** Input-output streams.  Writing after reading exactly to the end of the buffer
    stores outside it. *)
Theorem C40_file_overrun_refuted : exists os,
  Forall proper os /\ told InputOutput [1; 2; 3] os = ([RSequence (Ret [1; 2]); RDone (Ret ())], [1; 2; 9]) /\
  run full [1; 2; 3] 0 2 InputOutput os = UB.
Proof.
  exists [FRead 2 false; FWriteElement 9]. split; [by repeat constructor|]. split; vm_compute; reflexivity.
Qed.
(** Reading after writing to the end of the buffer fails an assertion instead of
    signalling the end of the stream. *)
Theorem C40_file_read_after_write_refuted : exists os,
  Forall proper os /\ told InputOutput [] os = ([RDone (Ret ()); RElement EosError], [1; 2]) /\
  closed full (run full [] 0 2 InputOutput os) = Val ([RDone (Ret ()); RElement Failed], [1; 2]).
Proof.
  exists [FWrite [1; 2] 0 None; FReadElement false]. split; [repeat constructor; cbn; lia|]. split; vm_compute; reflexivity.
Qed.
(** Reading after a write that crossed into the next buffer reports the end of the
    stream although there is more to read. *)
Theorem C40_file_early_end_refuted : exists os,
  Forall proper os /\
  told InputOutput [1; 2; 3; 4; 5; 6; 7; 8] os = ([RDone (Ret ()); RElement (Ret 6)], [9; 9; 9; 9; 9; 6; 7; 8]) /\
  closed full (run full [1; 2; 3; 4; 5; 6; 7; 8] 0 4 InputOutput os) =
    Val ([RDone (Ret ()); RElement EosError], [9; 9; 9; 9; 9; 6; 7; 8]).
Proof.
  exists [FWrite [9; 9; 9; 9; 9] 0 None; FReadElement false]. split; [repeat constructor; cbn; lia|]. split; vm_compute; reflexivity.
Qed.
(** Setting the position after such a write reads past the buffer. *)
Theorem C40_file_set_position_refuted : exists os,
  Forall proper os /\ (told InputOutput [1; 2; 3; 4; 5; 6; 7; 8; 9; 10; 11; 12] os).1 = [RDone (Ret ()); RDone (Ret ())] /\
  run full [1; 2; 3; 4; 5; 6; 7; 8; 9; 10; 11; 12] 0 4 InputOutput os = UB.
Proof.
  exists [FWrite [9; 9; 9; 9; 9] 0 None; FSetPosition 5]. split; [repeat constructor; cbn; lia|]. split; vm_compute; reflexivity.
Qed.
(** A read that returns fewer bytes than asked for, as POSIX permits, lets a
    following write replace the bytes that were not read by zeros. *)
Theorem C40_file_short_read_refuted : exists os,
  Forall proper os /\ told InputOutput [1; 2; 3; 4] os = ([RDone (Ret ()); RDone (Ret ())], [1; 2; 3; 9]) /\
  closed (fun _ => 1%nat) (run (fun _ => 1%nat) [1; 2; 3; 4] 0 4 InputOutput os) =
    Val ([RDone (Ret ()); RDone (Ret ())], [1; 2; 0; 9]).
Proof.
  exists [FSetPosition 3; FWriteElement 9]. split; [by repeat constructor|]. split; vm_compute; reflexivity.
Qed.
(** [force-output] between two reads makes the second one fail an assertion. *)
Theorem C40_file_force_read_refuted : exists os,
  Forall proper os /\
  told InputOutput [1; 2; 3; 4] os = ([RSequence (Ret [1; 2; 3; 4]); RDone (Ret ()); RElement EosError], [1; 2; 3; 4]) /\
  closed full (run full [1; 2; 3; 4] 0 4 InputOutput os) =
    Val ([RSequence (Ret [1; 2; 3; 4]); RDone (Ret ()); RElement Failed], [1; 2; 3; 4]).
Proof.
  exists [FRead 4 false; FForceOutput; FReadElement false]. split; [by repeat constructor|]. split; vm_compute; reflexivity.
Qed.
(** Output streams: what is written after [force-output] at a position before the
    end is lost, although all calls succeed. *)
Theorem C40_file_force_refuted : exists os,
  Forall proper os /\
  told Output [] os = ([RDone (Ret ()); RDone (Ret ()); RDone (Ret ()); RDone (Ret ())], [0; 1; 9; 3]) /\
  closed full (run full [] 0 100 Output os) =
    Val ([RDone (Ret ()); RDone (Ret ()); RDone (Ret ()); RDone (Ret ())], [0; 1; 2; 3]).
Proof.
  exists [FWrite [0; 1; 2; 3] 0 None; FSetPosition 2; FForceOutput; FWriteElement 9].
  split; [repeat constructor; cbn; lia|]. split; vm_compute; reflexivity.
Qed.
(** Output streams: the zeros that extend the file to its new position
    (writable-file-stream-position) are not all written the second time. *)
Theorem C40_file_extend_refuted : exists s s1 s2 s3,
  FileStreamModel.make_stream 0 32 full [] 0%nat 2 Output = Val (s, Ret ()) /\
  set_writable_position 0 full s 2 = Val (s1, Ret ()) /\
  set_writable_position 0 full s1 4 = Val (s2, Ret ()) /\ stream_position s2 = 4%nat /\
  FileStreamModel.close 0 full s2 false = Val (s3, Ret ()) /\ bytes (disk_of s3) = [0; 0].
Proof. do 4 eexists. repeat (split; [vm_compute; reflexivity|]). vm_compute; reflexivity. Qed.

(** *** The hypotheses are met, and the spec says what is meant. *)
Example input_hypotheses :
  Forall proper [FReadLine false; FPeek true; FRead 3 false; FReadInto 2 [0; 0; 0; 0] 1 false; FUnreadElement 5;
                 FAdjust (-2) FromCurrent; FReadSkip 1; FReadToEnd; FAtEnd; @FContents Z] /\
  (told Input [1; 2; 13; 10; 3; 4; 5; 6; 7]
     [FReadLine false; FPeek true; FRead 3 false; FReadInto 2 [0; 0; 0; 0] 1 false; FAtEnd; FUnreadElement 7;
      FAdjust (-2) FromCurrent; FReadSkip 1; FReadToEnd; FRead 2 false; FSetPosition 2]).1 =
  [RLine (Ret ([1; 2], true)); RElement (Ret 3); RSequence (Ret [3; 4; 5]); RInto [0; 6; 7; 0] (Ret 2); RBool true;
   RElement (Ret 7); RDone (Ret ()); RDone (Ret ()); RSequence (Ret [6; 7]); RSequence (IncompleteRead 0 [32; 32]);
   RDone (Ret ())] /\
  (obind (run (fun k => k) [1; 2; 13; 10; 3; 4; 5; 6; 7] 0 2 Input
     [FReadLine false; FPeek true; FRead 3 false]) (fun '(_, rs) => Val rs)) =
  Val [RLine (Ret ([1; 2], true)); RElement (Ret 3); RSequence (Ret [3; 4; 5])].
Proof. split; [repeat constructor; cbn; unfold zlen; cbn; lia|]. split; vm_compute; reflexivity. Qed.
Example output_hypotheses :
  let os := [FWrite [1; 2; 3; 4; 5] 1 None; FForceOutput; FWriteElement 6; FSetPosition 1; FWriteFill 8 2; FForceOutput;
             FAdjust 0 FromEnd; FWriteLine [7] 0 None; FSize; FPosition] in
  output_history 0 32 10 (Z.eqb 10) (Z.eqb 13) (FileView [] 0) false os /\
  (told Output [] os).2 = [2; 8; 8; 5; 6; 7; 10] /\
  closed (fun k => k) (run (fun k => k) [] 0 2 Output os) = Val (told Output [] os).
Proof. split; [|split; vm_compute; reflexivity]. cbn. repeat split; try done; unfold zlen; cbn; lia. Qed.

Example input_output_hypotheses :
  let os := [FRead 2 false; FWrite [8; 9] 0 None; FPosition; FReadElement false; FReadElement true; FWriteElement 7;
             FAdjust 7 FromStart; FSize; FWriteElement 6; FSetPosition 1; FReadToEnd; FContents; FForceOutput;
             FUnreadElement 6; FReadElement false] in
  small_history 0 32 10 (Z.eqb 10) (Z.eqb 13) 16 (FileView [1; 2; 3; 4; 5] 0) os /\
  told InputOutput [1; 2; 3; 4; 5] os =
    ([RSequence (Ret [1; 2]); RDone (Ret ()); RInt 4; RElement (Ret 5); RElement EosValue; RDone (Ret ());
      RDone (Ret ()); RInt 7; RDone (Ret ()); RDone (Ret ()); RSequence (Ret [2; 8; 9; 5; 7; 0; 6]);
      RSequence (Ret [1; 2; 8; 9; 5; 7; 0; 6]); RDone (Ret ()); RElement (Ret 6); RElement (Ret 6)], [1; 2; 8; 9; 5; 7; 0; 6]) /\
  closed full (run full [1; 2; 3; 4; 5] 0 16 InputOutput os) = Val (told InputOutput [1; 2; 3; 4; 5] os).
Proof. split; [|split; vm_compute; reflexivity]. vm_compute. repeat split; try lia; try discriminate. Qed.

Print Assumptions C40_file_input.
Print Assumptions C40_file_input_output_partial.
Print Assumptions C40_file_output_partial.
Print Assumptions C40_file_force_partial.
Print Assumptions C40_file_written.
Print Assumptions C40_file_reads.
Print Assumptions C40_file_read_back.
Print Assumptions C40_file_overrun_refuted.
Print Assumptions C40_file_read_after_write_refuted.
Print Assumptions C40_file_early_end_refuted.
Print Assumptions C40_file_set_position_refuted.
Print Assumptions C40_file_short_read_refuted.
Print Assumptions C40_file_force_read_refuted.
Print Assumptions C40_file_force_refuted.
Print Assumptions C40_file_extend_refuted.
