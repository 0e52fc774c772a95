(** C40, streams over sequences. *)
From Coq Require Import ZifyBool ZifyNat.
From stdpp Require Import list_numbers.
From Verif Require Import Base SeqStreamModel SeqStreamSpec SeqStreamProofs.
Local Open Scope Z_scope.

Section props.
  Context {A : Type} (fill : A) (is_nl is_cr : A -> bool).

  (** A history of calls on a new stream gives the answers of [spec]; the loops
      end and nothing else can be answered.  Missing: the calls that [allowed]
      excludes; all of those that the documentation defines are refuted below. *)
  Theorem C40_sequence_stream_partial (l : list A) is_stretchy d start stop s os :
    make_stream l is_stretchy d start stop = Some s ->
    0 <= default 0 start <= default (zlen l) stop -> default (zlen l) stop <= zlen l ->
    allowed_history fill is_nl is_cr d (default 0 start) (new_view l d start stop) os ->
    let answers := (spec_history fill is_nl is_cr d (new_view l d start stop) os).2 in
    (exists s', runs fill is_nl is_cr s os s' answers) /\
    (forall s' rs, runs fill is_nl is_cr s os s' rs -> rs = answers).
  Proof.
    intros Hm H1 H2 Ha answers. destruct (make_ok fill is_nl is_cr l is_stretchy d start stop s Hm H1 H2) as [Hs Hr].
    destruct (history_ok fill is_nl is_cr _ d os s _ Hs Hr Ha) as (s' & Hrun & _). fold answers in Hrun.
    split; [by exists s'|]. clearbody answers. clear -Hrun. revert s answers Hrun. revert s'. induction os as [|o os IH]; intros s' s answers H1 s2 rs H2.
    - inversion H1; inversion H2; congruence.
    - inversion H1 as [|? ? s1 r1 ? ? rs1 Hc1 Hr1]; inversion H2 as [|? ? s3 r3 ? ? rs3 Hc3 Hr3]; subst.
      destruct Hc1 as [n1 Hc1], Hc3 as [n3 Hc3].
      specialize (Hc1 (n1 + n3)%nat ltac:(lia)). specialize (Hc3 (n1 + n3)%nat ltac:(lia)).
      rewrite Hc1 in Hc3. injection Hc3 as <- <-. f_equal. eapply IH; done.
  Qed.

  (** *** Consequences *)
  Lemma writes_history d v chunks os :
    writable d = true ->
    spec_history fill is_nl is_cr d v (map (fun c => Write c 0 None) chunks ++ os) =
    let '(v', rs) := spec_history fill is_nl is_cr d (foldl (overwrite fill) v chunks) os in
    (v', replicate (length chunks) (RDone (Ret ())) ++ rs).
  Proof.
    intros Hw. revert v. induction chunks as [|c cs IH]; intros v; cbn [map app spec_history foldl].
    - by destruct (spec_history _ _ _ _ _ _).
    - cbn [spec default]. rewrite Hw. replace (true && (0 <=? 0) && (0 <=? zlen c) && (zlen c <=? zlen c)) with true by (unfold zlen; lia).
      cbn [option_map from_option]. unfold default, from_option. rewrite Z.sub_0_r. unfold zlen. rewrite Nat2Z.id. 
      change (Z.to_nat 0) with 0%nat. rewrite drop_0, firstn_all, IH.
      by destruct (spec_history _ _ _ _ _ _).
  Qed.
  Lemma writes_allowed d st v chunks os :
    writable d = true ->
    allowed_history fill is_nl is_cr d st (foldl (overwrite fill) v chunks) os ->
    allowed_history fill is_nl is_cr d st v (map (fun c => Write c 0 None) chunks ++ os).
  Proof.
    intros Hw. revert v. induction chunks as [|c cs IH]; intros v; cbn [map app foldl allowed_history]; [done|].
    intros H. split; [done|]. apply IH. cbn [spec default]. rewrite Hw.
    replace (true && (0 <=? 0) && (0 <=? zlen c) && (zlen c <=? zlen c)) with true by (unfold zlen; lia).
    unfold default, from_option. rewrite Z.sub_0_r. unfold zlen. rewrite Nat2Z.id. 
    change (Z.to_nat 0) with 0%nat. rewrite drop_0, firstn_all. exact H.
  Qed.
  Lemma writes_view b (v : view) chunks :
    inside v -> pristine v = b ->
    foldl (overwrite fill) v chunks =
    View (take (position v) (contents v) ++ concat chunks ++ drop (position v + length (concat chunks)) (contents v))
         (position v + length (concat chunks)) b.
  Proof.
    revert v. induction chunks as [|c cs IH]; intros v Hin Hb; cbn [foldl concat].
    - cbn. rewrite Nat.add_0_r, take_drop, <- Hb. by destruct v.
    - unfold inside in *. rewrite IH.
      + unfold overwrite. cbn [position contents]. rewrite !app_length.
        replace (position v - length (contents v))%nat with 0%nat by lia. cbn [replicate app].
        f_equal; [|lia]. rewrite (app_assoc _ c).
        assert (Hl : length (take (position v) (contents v) ++ c) = (position v + length c)%nat)
          by (rewrite app_length, take_length; lia).
        rewrite <- Hl at 1. rewrite take_app, <- !app_assoc. do 3 f_equal. rewrite (app_assoc _ c).
        rewrite drop_app_ge by (rewrite Hl; lia). rewrite Hl, drop_drop. f_equal. lia.
      + unfold overwrite. cbn [position contents]. rewrite !app_length, take_length, replicate_length, drop_length. lia.
      + done.
  Qed.

  (** What was written to an output stream is its contents; after that the
      stream is empty and collects what is written next. *)
  Theorem C40_written (l : list A) is_stretchy s chunks chunks' :
    make_stream l is_stretchy Output None None = Some s ->
    exists s',
      runs fill is_nl is_cr s (map (fun c => Write c 0 None) chunks ++ Contents true :: map (fun c => Write c 0 None) chunks' ++ [Contents true]) s'
        (replicate (length chunks) (RDone (Ret ())) ++ RSequence (Ret (concat chunks)) ::
         replicate (length chunks') (RDone (Ret ())) ++ [RSequence (Ret (concat chunks'))]).
  Proof.
    intros Hm.
    destruct (C40_sequence_stream_partial l is_stretchy Output None None s
      (map (fun c => Write c 0 None) chunks ++ Contents true :: map (fun c => Write c 0 None) chunks' ++ [Contents true]) Hm) as [(s' & Hr) _];
      try (unfold zlen; cbn; lia).
    - apply writes_allowed; [done|]. cbn [allowed_history]. split; [done|]. cbn [spec fst]. apply writes_allowed; [done|]. cbn. done.
    - exists s'. rewrite writes_history in Hr by done. cbn [spec_history spec] in Hr. rewrite writes_history in Hr by done. cbn in Hr.
      erewrite (writes_view _ (View [] 0 _)) in Hr; [|unfold inside; cbn; lia|reflexivity]. cbn in Hr.
      erewrite (writes_view _ (View [] 0 _)) in Hr; [|unfold inside; cbn; lia|reflexivity]. cbn in Hr.
      rewrite drop_nil, app_nil_r in Hr. rewrite drop_nil, app_nil_r in Hr. exact Hr.
  Qed.

  (** What was written to an input-output stream can be read again, followed by
      what was not overwritten. *)
  Theorem C40_read_back (l : list A) is_stretchy s chunks :
    make_stream l is_stretchy InputOutput None None = Some s ->
    exists s',
      runs fill is_nl is_cr s (map (fun c => Write c 0 None) chunks ++ [SetPosition 0; ReadToEnd]) s'
        (replicate (length chunks) (RDone (Ret ())) ++
         [RDone (Ret ()); RSequence (Ret (concat chunks ++ drop (length (concat chunks)) l))]).
  Proof.
    intros Hm.
    destruct (C40_sequence_stream_partial l is_stretchy InputOutput None None s
      (map (fun c => Write c 0 None) chunks ++ [SetPosition 0; ReadToEnd]) Hm) as [(s' & Hr) _];
      try (unfold zlen; cbn; lia).
    - apply writes_allowed; [done|]. cbn [allowed_history]. split; [|done]. cbn. unfold zlen. lia.
    - exists s'. rewrite writes_history in Hr by done.
      erewrite writes_view in Hr; [|unfold inside; cbn; lia|reflexivity].
      cbn -[drop] in Hr. unfold remaining in Hr. cbn -[drop Z.to_nat] in Hr. change (Z.to_nat 0) with 0%nat in Hr. rewrite !drop_0, Z.sub_0_r in Hr.
      unfold zlen in Hr. rewrite Nat2Z.id, firstn_all in Hr. exact Hr.
  Qed.

  (** Successive reads return successive pieces. *)
  Theorem C40_reads (l : list A) is_stretchy s (ns : list nat) :
    make_stream l is_stretchy Input None None = Some s -> (sum_list ns <= length l)%nat ->
    exists s' pieces,
      runs fill is_nl is_cr s (map (fun n => Read (Z.of_nat n) false) ns) s' (map (fun p => RSequence (Ret p)) pieces) /\
      map length pieces = ns /\ concat pieces = take (sum_list ns) l.
  Proof.
    intros Hm Hle.
    assert (Hgo : forall ns p, (p + sum_list ns <= length l)%nat ->
      exists pieces, allowed_history fill is_nl is_cr Input 0 (View l p true) (map (fun n => Read (Z.of_nat n) false) ns) /\
        (spec_history fill is_nl is_cr Input (View l p true) (map (fun n => Read (Z.of_nat n) false) ns)).2 =
          map (fun p => RSequence (Ret p)) pieces /\ map length pieces = ns /\ concat pieces = take (sum_list ns) (drop p l)).
    { clear. induction ns as [|n ns IH]; intros p Hp.
      - exists []. done.
      - change (sum_list (n :: ns)) with (n + sum_list ns)%nat in Hp. destruct (IH (p + n)%nat) as (ps & Ha & Hr & Hl & Hc); [lia|].
        exists (take n (drop p l) :: ps).
        assert (Hsp : spec fill is_nl is_cr Input (View l p true) (Read (Z.of_nat n) false) =
                      (View l (p + n) true, RSequence (Ret (take n (drop p l))))).
        { cbn. unfold remaining, advance. cbn. replace (Z.of_nat n <? 0) with false by lia.
          rewrite drop_length. replace (Z.of_nat n <=? _) with true by lia. by rewrite Nat2Z.id. }
        cbn [map allowed_history spec_history]. rewrite Hsp. cbn [fst]. split; [|split; [|split]].
        + split; [|exact Ha]. cbn. unfold inside. cbn. lia.
        + cbn. destruct (spec_history _ _ _ _ _ _) as [v rs]. cbn in *. by rewrite Hr.
        + rewrite Hl, take_length, drop_length. f_equal. lia.
        + cbn [concat]. rewrite Hc. change (sum_list (n :: ns)) with (n + sum_list ns)%nat.
          rewrite <- drop_drop. rewrite <- (take_drop n (drop p l)) at 3. rewrite take_app_ge.
          * f_equal. f_equal. rewrite take_length, drop_length. lia.
          * rewrite take_length, drop_length. lia. }
    destruct (Hgo ns 0%nat Hle) as (ps & Ha & Hr & Hl & Hc).
    assert (Hnv : new_view l Input None None = View l 0 true).
    { cbn. rewrite drop_0, Z.sub_0_r. unfold zlen. by rewrite Nat2Z.id, firstn_all. }
    destruct (C40_sequence_stream_partial l is_stretchy Input None None s (map (fun n => Read (Z.of_nat n) false) ns) Hm) as [(s' & Hrun) _];
      try (unfold zlen; cbn; lia); [by rewrite Hnv|].
    exists s', ps. rewrite Hnv, Hr in Hrun. done.
  Qed.

  (** A closed stream is neither read nor written. *)
  Theorem C40_closed (s : @stream A) sup n x src :
    (read_element (close s) sup).2 = Failed /\ (peek (close s) sup).2 = Failed /\ (read (close s) n sup).2 = Failed /\
    write_element fill (close s) x = (close s, Failed) /\ write fill (close s) src 0 None = (close s, Failed).
  Proof. done. Qed.
End props.

(** *** Where the code does not do what the documentation says *)
Section refuted.
  Local Open Scope nat_scope.

  (** Position 0 of a stream with [start: 2] cannot be set. *)
  Theorem C40_position_start_refuted :
    exists s : @stream nat, make_stream [1; 2; 3; 4; 5] false Input (Some 2%Z) None = Some s /\
      stream_position s = 0%Z /\ set_stream_position s 0 = (s, Failed) /\ set_position_start s = (s, Failed).
  Proof. eexists. repeat split. Qed.

  (** [#"end"] is refused without [end:]; with both, [from: #"end"] is wrong. *)
  Theorem C40_position_end_refuted :
    (forall l d s, make_stream (A := nat) l false d None None = Some s -> set_position_end s = (s, Failed)) /\
    (exists s : @stream nat, make_stream [1; 2; 3; 4; 5] false Input (Some 1%Z) (Some 4%Z) = Some s /\
      stream_size s = 3%Z /\ adjust_position s 0 FromEnd = (s, Failed) /\
      (adjust_position s (-1) FromEnd).2 = Ret () /\ stream_position (adjust_position s (-1) FromEnd).1 = 3%Z).
  Proof.
    split.
    - intros l [] s; cbn; intros [= <-]; done.
    - eexists. repeat split.
  Qed.

  (** A position beyond the end is accepted; [read] then moves back to the end
      and fails instead of reporting the end of the stream. *)
  Theorem C40_position_beyond_refuted :
    exists s : @stream nat, make_stream [1; 2; 3] false Input None None = Some s /\
      (set_stream_position s 5).2 = Ret () /\ stream_position (set_stream_position s 5).1 = 5%Z /\
      (read (set_stream_position s 5).1 1 false).2 = Failed /\
      stream_position (read (set_stream_position s 5).1 1 false).1 = 3%Z.
  Proof. eexists. repeat split. Qed.

  (** [read-into!] of more than there is moves the position to the end, but does
      not store the elements; the error reports elements that are not in the stream. *)
  Theorem C40_read_into_refuted :
    exists s : @stream nat, make_stream [1; 2; 3] false Input None None = Some s /\
      (let '(s', into, a) := read_into s 5 [0; 0; 0; 0; 0] 0 false in
       into = [0; 0; 0; 0; 0] /\ a = IncompleteRead 3 [0; 0; 0] /\ stream_position s' = 3%Z) /\
      (let '(s', into, a) := read_into s 3 [0; 0] 0 false in
       into = [0; 0] /\ a = IncompleteRead 2 [0; 0] /\ stream_position s' = 2%Z).
  Proof. eexists. repeat split. Qed.

  (** Moving beyond the end does not make the stream longer. *)
  Theorem C40_adjust_beyond_refuted :
    exists s : @stream nat, make_stream [] false Output None None = Some s /\
      (adjust_position s 10 FromCurrent).2 = Ret () /\ stream_size (adjust_position s 10 FromCurrent).1 = 0%Z.
  Proof. eexists. repeat split. Qed.

  (** After the contents have been taken, old elements come back in a gap. *)
  Theorem C40_gap_refuted :
    exists s : @stream nat, make_stream [] false Output None None = Some s /\
      let s1 := (write 0 s [1; 2; 3] 0 None).1 in
      let s2 := (stream_contents 0 s1 true).1 in
      let s3 := (adjust_position s2 2 FromCurrent).1 in
      let s4 := (write 0 s3 [9] 0 None).1 in
      stream_size s2 = 0%Z /\ (stream_contents 0 s4 true).2 = Ret [1; 2; 9].
  Proof. eexists. repeat split. Qed.

  (** Taking the contents of an input stream with [start: 2] (clearing is the
      default) makes its position negative, and the contents cannot be taken again. *)
  Theorem C40_contents_input_refuted :
    exists s : @stream nat, make_stream [1; 2; 3] false Input (Some 2%Z) None = Some s /\
      (stream_contents 0 s true).2 = Ret [3] /\
      stream_position (stream_contents 0 s true).1 = (-2)%Z /\
      (stream_contents 0 (stream_contents 0 s true).1 true).2 = Failed.
  Proof. eexists. repeat split. Qed.

  (** Unreading at the start (undefined in the documentation) leaves the range. *)
  Theorem C40_unread_start_refuted :
    exists s : @stream nat, make_stream [1; 2; 3] false Input (Some 2%Z) None = Some s /\
      (unread_element s 7).2 = Ret 7 /\ stream_position (unread_element s 7).1 = (-1)%Z.
  Proof. eexists. repeat split. Qed.
End refuted.

(** *** Hypotheses are met *)
Definition nl (x : nat) := Nat.eqb x 10.
Definition cr (x : nat) := Nat.eqb x 13.
Example C40_sequence_stream_ex :
  exists s : @stream nat,
    make_stream [1; 2; 3]%nat false InputOutput None None = Some s /\
    let os := [ReadElement false; Write [7; 8; 13; 10; 9]%nat 1 None; Adjust 3 FromCurrent; WriteElement 4%nat; Size;
               SetPosition 1; ReadLine false; UnreadElement 10%nat; Peek false; Read 20 false; AtEnd; Contents true; Size] in
    allowed_history 0%nat nl cr InputOutput 0 (new_view [1; 2; 3]%nat InputOutput None None) os /\
    (spec_history 0%nat nl cr InputOutput (new_view [1; 2; 3]%nat InputOutput None None) os).2 =
      [RElement (Ret 1%nat); RDone (Ret ()); RDone (Ret ()); RDone (Ret ()); RInt 9; RDone (Ret ());
       RLine (Ret ([8]%nat, true)); RElement (Ret 10%nat); RElement (Ret 10%nat);
       RSequence (IncompleteRead 6 [10; 9; 0; 0; 0; 4]%nat); RBool true; RSequence (Ret [1; 8; 13; 10; 9; 0; 0; 0; 4]%nat); RInt 0].
Proof.
  eexists. split; [reflexivity|]. cbv zeta. split; [|vm_compute; reflexivity].
  vm_compute. repeat split; try (intros; discriminate); try (left; reflexivity); try lia.
  all: try (right; split; [intros; discriminate|right; done]).
  right; split; intros; discriminate.
Qed.
Example C40_input_ex :
  exists s : @stream nat,
    make_stream [1; 2; 3; 4; 5]%nat false Input (Some 1) (Some 4) = Some s /\
    let os := [Size; Read 2 false; SetPosition 1; ReadInto 2 [0; 0; 0]%nat 1 false; ReadElement true] in
    allowed_history 0%nat nl cr Input 1 (new_view [1; 2; 3; 4; 5]%nat Input (Some 1) (Some 4)) os /\
    (spec_history 0%nat nl cr Input (new_view [1; 2; 3; 4; 5]%nat Input (Some 1) (Some 4)) os).2 =
      [RInt 3; RSequence (Ret [2; 3]%nat); RDone (Ret ()); RInto [0; 3; 4]%nat (Ret 2); RElement EosValue].
Proof.
  eexists. split; [reflexivity|]. cbv zeta. split; [|vm_compute; reflexivity].
  vm_compute. repeat split; try (intros; discriminate); try lia.
  right; split; intros; discriminate.
Qed.

Print Assumptions C40_sequence_stream_partial.
Print Assumptions C40_written.
Print Assumptions C40_read_back.
Print Assumptions C40_reads.
Print Assumptions C40_closed.
Print Assumptions C40_position_start_refuted.
Print Assumptions C40_position_end_refuted.
Print Assumptions C40_position_beyond_refuted.
Print Assumptions C40_read_into_refuted.
Print Assumptions C40_adjust_beyond_refuted.
Print Assumptions C40_gap_refuted.
Print Assumptions C40_contents_input_refuted.
Print Assumptions C40_unread_start_refuted.
