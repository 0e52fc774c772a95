(** Iteration over single collections and over several sequences, by position. *)
From Verif Require Import Base CollModel CollSpec.
From Coq Require Import ZArith ZifyBool ZifyNat.
Local Open Scope outcome_scope.
Local Open Scope Z_scope.

Definition slen (c : coll) : option nat :=
  match c with
  | CVec _ l | CDeq _ l | CList l => Some (length l)
  | CRange _ _ n => Some n
  | CTab _ t => Some (length t)
  | CRangeInf _ _ => None
  end.

Definition pos_state (c : coll) (i : nat) : state :=
  match c with
  | CVec _ _ => SInt (Z.of_nat i)
  | CDeq first _ => SInt (first + Z.of_nat i)
  | CList _ => SList i
  | CRange f b 0 => SNone
  | CRange f b _ | CRangeInf f b => SInt (f + Z.of_nat i * b)
  | CTab _ _ => STab i
  end.

(** The part of well-formedness that reading needs. *)
Definition wf_keys (c : coll) : Prop := match c with CTab _ t => NoDup t.*1 | CRange _ b _ | CRangeInf _ b => b <> 0 | _ => True end.

Lemma wf_wf_keys c : wf_coll c -> wf_keys c.
Proof. by destruct c as [[]| | | | |]. Qed.

Definition entry_at (c : coll) (i : nat) : option (key * value) :=
  match c with
  | CTab _ t => t !! i
  | _ => match value_at c (KInt (Z.of_nat i)) with Some v => Some (KInt (Z.of_nat i), v) | None => None end
  end.

Definition below (i : nat) (o : option nat) : Prop := match o with Some n => (i < n)%nat | None => True end.
Definition upto (i : nat) (o : option nat) : Prop := match o with Some n => (i <= n)%nat | None => True end.

Lemma fip_init c : f_init (fip_of c) = pos_state c 0.
Proof. destruct c as [| | |f b [|n]| |]; cbn; f_equal; lia. Qed.

Lemma value_at_nat c i :
  is_sequence c = true ->
  value_at c (KInt (Z.of_nat i)) =
    match c with
    | CVec _ l | CDeq _ l | CList l => l !! i
    | CRange f b n => if decide (i < n)%nat then Some (VInt (f + Z.of_nat i * b)) else None
    | CRangeInf f b => Some (VInt (f + Z.of_nat i * b))
    | CTab _ _ => None
    end.
Proof.
  intros Hs. destruct c; cbn in *; try done; rewrite ?decide_True by lia; rewrite ?Nat2Z.id; try done.
  destruct (decide (i < n)%nat); [rewrite decide_True by lia|rewrite decide_False by lia]; done.
Qed.

Lemma entry_below c i : below i (slen c) <-> is_Some (entry_at c i).
Proof.
  unfold entry_at. destruct c; [..|cbn; by rewrite lookup_lt_is_Some].
  all: rewrite value_at_nat by done; cbn.
  1-3: destruct (l !! i) eqn:E; [apply lookup_lt_Some in E|apply lookup_ge_None in E]; split; intros H; try lia; try done;
       by destruct H.
  - destruct (decide (i < n)%nat); split; intros H; try done; by destruct H.
  - split; intros H; [by eexists|done].
Qed.

Lemma pos_fin c i : wf_keys c -> upto i (slen c) ->
  run_fin (f_fin (fip_of c)) c (pos_state c i) (f_limit (fip_of c)) = Val (bool_decide (slen c = Some i)).
Proof.
  intros Hwf Hi. destruct c as [k l|first l|l|f b n|f b|kt t]; cbn in *.
  - f_equal. apply Bool.eq_iff_eq_true. rewrite Z.eqb_eq, bool_decide_eq_true. split; [intros H; f_equal|intros [= ?]]; lia.
  - f_equal. apply Bool.eq_iff_eq_true. rewrite Z.eqb_eq, bool_decide_eq_true. split; [intros H; f_equal|intros [= ?]]; lia.
  - f_equal. apply Bool.eq_iff_eq_true. rewrite Nat.eqb_eq, bool_decide_eq_true. split; [intros H; f_equal|intros [= ?]]; lia.
  - destruct n as [|n]; cbn.
    { assert (i = 0%nat) by lia. subst i. by rewrite bool_decide_true. }
    destruct (0 <? b) eqn:Eb; cbn; f_equal; apply Bool.eq_iff_eq_true; rewrite Z.ltb_lt, bool_decide_eq_true;
      (split; [intros H; f_equal; nia|intros [= ?]; nia]).
  - done.
  - f_equal. apply Bool.eq_iff_eq_true. rewrite Nat.leb_le, bool_decide_eq_true. split; [intros H; f_equal|intros [= ?]]; lia.
Qed.

Lemma pos_next c i : below i (slen c) ->
  run_next (f_next (fip_of c)) c (pos_state c i) = Val (pos_state c (S i)).
Proof.
  intros Hi. destruct c as [k l|first l|l|f b [|n]|f b|kt t]; cbn in *; try lia; try (do 2 f_equal; lia); try done.
  destruct (length l); [lia|]. do 2 f_equal. lia.
Qed.

Lemma pos_elt c i k v : entry_at c i = Some (k, v) ->
  run_elt (f_elt (fip_of c)) c (pos_state c i) = Val v.
Proof.
  unfold entry_at. destruct c as [vk l|first l|l|f b n|f b|kt t]; [..|cbn; by intros ->].
  all: rewrite value_at_nat by done.
  - destruct (l !! i) eqn:E; [|done]. intros [= <- <-]. cbn. rewrite bool_decide_true by done.
    rewrite (zread_val _ _ v0); [done|lia|by rewrite Nat2Z.id].
  - destruct (l !! i) eqn:E; [|done]. intros [= <- <-]. cbn.
    rewrite (zread_val _ _ v0); [done|lia|]. by replace (Z.to_nat (first + Z.of_nat i - first)) with i by lia.
  - destruct (l !! i) eqn:E; [|done]. intros [= <- <-]. cbn. by rewrite E.
  - destruct (decide (i < n)%nat); [|done]. intros [= <- <-]. destruct n; [lia|]. done.
  - intros [= <- <-]. done.
Qed.

Lemma pos_key c i k v : wf_keys c -> entry_at c i = Some (k, v) ->
  run_key (f_key (fip_of c)) c (pos_state c i) = Val k.
Proof.
  intros Hwf. unfold entry_at. destruct c as [vk l|first l|l|f b n|f b|kt t]; [..|cbn; by intros ->].
  all: rewrite value_at_nat by done.
  - destruct (l !! i) eqn:E; [|done]. intros [= <- <-]. done.
  - destruct (l !! i) eqn:E; [|done]. intros [= <- <-]. cbn. do 2 f_equal. lia.
  - destruct (l !! i) eqn:E; [|done]. intros [= <- <-]. done.
  - destruct (decide (i < n)%nat); [|done]. intros [= <- <-]. destruct n; [lia|]. cbn in *.
    do 2 f_equal. replace (f + Z.of_nat i * b - f) with (Z.of_nat i * b) by lia. by apply Z.div_mul.
  - intros [= <- <-]. cbn in *.
    do 2 f_equal. replace (f + Z.of_nat i * b - f) with (Z.of_nat i * b) by lia. by apply Z.div_mul.
Qed.

Lemma entry_seq c i k v : is_sequence c = true -> entry_at c i = Some (k, v) -> k = KInt (Z.of_nat i) /\ value_at c k = Some v.
Proof. unfold entry_at. destruct c; try done; intros _; destruct (value_at _ _) eqn:E; try done; intros [= <- <-]; done. Qed.

(** ** The heap *)

Lemma at_val h a c : h !! a = Some c -> at_ h a = Val c.
Proof. unfold at_. by intros ->. Qed.

Lemma all_val h as_ cs : Forall2 (fun a c => h !! a = Some c) as_ cs -> all_ h as_ = Val cs.
Proof. induction 1 as [|a c as_ cs H _ IH]; [done|]. cbn. by rewrite (at_val _ _ _ H), IH. Qed.

Lemma all_inv h as_ cs : all_ h as_ = Val cs -> Forall2 (fun a c => h !! a = Some c) as_ cs.
Proof.
  revert cs. induction as_ as [|a as_ IH]; intros cs; cbn.
  - intros [= <-]. constructor.
  - unfold at_. destruct (h !! a) eqn:E; cbn; [|done]. destruct (all_ h as_) eqn:E2; cbn; try done.
    intros [= <-]. constructor; [done|]. by apply IH.
Qed.

(** ** Several sequences in parallel *)

Definition all_below (i : nat) (cs : list coll) : Prop := Forall (fun c => below i (slen c)) cs.
Definition all_upto (i : nat) (cs : list coll) : Prop := Forall (fun c => upto i (slen c)) cs.

Global Instance below_dec i o : Decision (below i o).
Proof. destruct o; cbn; apply _. Defined.
Global Instance all_below_dec i cs : Decision (all_below i cs).
Proof. unfold all_below. apply _. Defined.

Lemma below_upto i o : below i o -> upto (S i) o.
Proof. destruct o; cbn; lia. Qed.

Lemma all_below_upto i cs : all_below i cs -> all_upto (S i) cs.
Proof. intros H. eapply Forall_impl; [exact H|]. intros c. apply below_upto. Qed.

Lemma upto_below i o : upto i o -> o <> Some i -> below i o.
Proof. destruct o as [n|]; cbn; [|done]. intros H1 H2. assert (n <> i) by congruence. lia. Qed.

Lemma multi_fin cs i : Forall wf_keys cs -> all_upto i cs ->
  any_finished (map fip_of cs) cs (map (fun c => pos_state c i) cs) = Val (bool_decide (~ all_below i cs)).
Proof.
  induction cs as [|c cs IH]; intros Hwf Hi; cbn.
  { done. }
  inversion_clear Hwf. inversion_clear Hi. rewrite pos_fin by done. cbn. destruct (decide (slen c = Some i)) as [E|E].
  - rewrite (bool_decide_true (slen c = Some i)) by done. rewrite bool_decide_true; [done|]. intros Hb. inversion_clear Hb as [|?? Hb' ?]. rewrite E in Hb'. cbn in Hb'. lia.
  - rewrite (bool_decide_false (slen c = Some i)) by done. rewrite IH by done. f_equal. apply bool_decide_ext. unfold all_below. rewrite Forall_cons.
    assert (below i (slen c)) by (by apply upto_below). tauto.
Qed.

Lemma multi_next cs i : all_below i cs ->
  next_states (map fip_of cs) cs (map (fun c => pos_state c i) cs) = Val (map (fun c => pos_state c (S i)) cs).
Proof.
  induction cs as [|c cs IH]; intros Hb; [done|]. inversion_clear Hb. cbn.
  rewrite pos_next by done. cbn. by rewrite IH.
Qed.

Lemma multi_elt cs i vs : Forall (fun c => is_sequence c = true) cs -> aligned cs (KInt (Z.of_nat i)) = Some vs ->
  elements_at (map fip_of cs) cs (map (fun c => pos_state c i) cs) = Val vs.
Proof.
  unfold aligned. intros Hs H. apply mapM_Some in H. revert Hs. induction H as [|c v cs vs Hv H IH]; intros Hs; [done|].
  inversion_clear Hs. cbn.
  assert (entry_at c i = Some (KInt (Z.of_nat i), v)) as He by (unfold entry_at; destruct c; try done; by rewrite Hv).
  rewrite (pos_elt _ _ _ _ He). cbn. by rewrite IH.
Qed.

Lemma below_aligned cs i : Forall (fun c => is_sequence c = true) cs ->
  all_below i cs <-> is_Some (aligned cs (KInt (Z.of_nat i))).
Proof.
  intros Hs. unfold aligned. split.
  - intros H. apply mapM_is_Some_2. unfold all_below in H. rewrite !Forall_forall in *. intros c Hc.
    specialize (H c Hc). specialize (Hs c Hc). apply entry_below in H as [[k v] H].
    apply entry_seq in H as [-> H]; [|done]. by eexists.
  - intros H. apply mapM_is_Some_1 in H. unfold all_below. rewrite !Forall_forall in *. intros c Hc.
    specialize (H c Hc) as [v Hv]. specialize (Hs c Hc). apply entry_below. exists (KInt (Z.of_nat i), v).
    unfold entry_at. destruct c; try done; by rewrite Hv.
Qed.
