(** C71, the worklist: the automaton is made completely and in finitely many steps. *)
From Verif Require Import Base GlobSpec GlobModel GlobProofs GlobProofs2 GlobProofs3 GlobProofs4 DfaModel DfaProofs.
From Coq Require Import ZArith.
Local Open Scope Z_scope.

(** Whatever the order in which the transitions of a state are gone through, as long as it has all bytes, making the automaton ends,
    and on every string of bytes every transition leads to a state that was made, and the string is accepted exactly if the
    expression denotes it. *)
Theorem C71_worklist order e w : (forall label c, byte c -> c ∈ order label) -> Forall byte w ->
  exists b, table_accepts order e w = Val b /\ (b = true <-> denotes e w).
Proof.
  intros Ho Hw. unfold table_accepts. pose proof (dfa_ok order e) as H. destruct (with_accept e) as [st r]. destruct H as (states & -> & _ & H). cbn [obind].
  apply H. intros c label Hc. apply Ho. rewrite Forall_forall in Hw. by apply Hw.
Qed.

(** There are at most two to the number of characters, dots and classes in the expression, plus one, states. *)
Fixpoint leaves (e : rx) : nat :=
  match e with
  | Epsilon => 0
  | Symbol_set _ => 1
  | Union e1 e2 | Concatenation e1 e2 => leaves e1 + leaves e2
  | Closure e => leaves e
  end.

Lemma fold_next (g : store -> nat -> list nat) : forall ls st,
  next (fold_left (fun st node => set_follow st node (g st node)) ls st) = next st.
Proof. induction ls as [|n ls IH]; intros st; [done|]. cbn [fold_left]. by rewrite IH. Qed.

Lemma build_next : forall e st, next (build st e).1 = (next st + leaves e)%nat.
Proof.
  induction e as [|set|e1 IH1 e2 IH2|e1 IH1 e2 IH2|e IH]; intros st; cbn [build leaves].
  - cbn. lia.
  - cbn. lia.
  - specialize (IH1 st). destruct (build st e1) as [st1 r1]. specialize (IH2 st1). destruct (build st1 e2) as [st2 r2]. cbn in *. lia.
  - specialize (IH1 st). destruct (build st e1) as [st1 r1]. specialize (IH2 st1). destruct (build st1 e2) as [st2 r2]. cbn in *.
    rewrite fold_next. lia.
  - specialize (IH st). destruct (build st e) as [st1 r1]. cbn in *. rewrite fold_next. lia.
Qed.

Theorem C71_states order e : exists n, num_dfa_states order e = Val n /\ (n <= 2 ^ (leaves e + 1))%nat.
Proof.
  unfold num_dfa_states. pose proof (dfa_ok order e) as H.
  assert (Hn : next (with_accept e).1 = (leaves e + 1)%nat).
  { unfold with_accept. pose proof (build_next e empty_store) as Hb. destruct (build empty_store e) as [st r]. cbn in Hb. unfold append_leaf, make_leaf, make_concatenation. cbn.
    rewrite fold_next. cbn. lia. }
  destruct (with_accept e) as [st r]. destruct H as (states & -> & Hl & _). cbn in *. rewrite Hn in Hl. by exists (length states).
Qed.

(** (a|b)*ab has three states: nothing, a and ab read last *)
Example C71_worklist_ex :
  let sym c := Symbol_set (fun x => x =? c) in
  let e := Concatenation (Closure (Union (sym 97) (sym 98))) (Concatenation (sym 97) (sym 98)) in
  let order (_ : list nat) := map Z.of_nat (List.seq 0 256) in
  (forall label c, byte c -> c ∈ order label) /\
  num_dfa_states order e = Val 3%nat /\
  table_accepts order e [98; 97; 98] = Val true /\ table_accepts order e [97; 98; 97] = Val false /\ table_accepts order e [99] = Val false.
Proof.
  cbn zeta. split_and!; try (vm_compute; reflexivity). intros _ c [H1 H2]. apply elem_of_list_In, in_map_iff. exists (Z.to_nat c). rewrite in_seq. lia.
Qed.

Print Assumptions C71_worklist.
Print Assumptions C71_states.
