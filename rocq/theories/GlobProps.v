(** C71: glob patterns match exactly the strings they describe. *)
From Verif Require Import Base GlobModel GlobSpec GlobProofs GlobProofs2 GlobProofs3 GlobProofs4.
From Coq Require Import ZArith.
Local Open Scope Z_scope.

(** The function glob-match-function makes from patterns answers true for exactly the strings that match one of them, if all the
    patterns are well formed; otherwise an error is signalled.  Nothing else happens. *)
Theorem C71_glob pattern more w :
  (Forall well_formed (pattern :: more) ->
     exists b, glob_match pattern more w = Val b /\ (b = true <-> exists s, s ∈ pattern :: more /\ matches s w)) /\
  (~ Forall well_formed (pattern :: more) -> exists m, glob_match pattern more w = Signal m).
Proof.
  pose proof (glob_match_ok pattern more w) as H. pose proof (glob_returns pattern more w) as Hr. destruct (glob_match pattern more w) as [b|m| |]; try done; cbn in Hr.
  - split; [intros _; by exists b|done].
  - split; [done|]. intros _. by exists m.
Qed.

(** The automaton made from a regular expression accepts exactly the strings the expression denotes. *)
Theorem C71_automaton e w : accepts e w = true <-> denotes e w.
Proof. apply accepts_ok. Qed.

(** ((a|b)*ab)* *)
Example C71_automaton_ex :
  let sym c := Symbol_set (fun x => x =? c) in
  let e := Closure (Concatenation (Closure (Union (sym 97) (sym 98))) (Concatenation (sym 97) (sym 98))) in
  accepts e [] = true /\ accepts e [98; 97; 98; 97; 97; 98] = true /\ accepts e [98; 97] = false /\ accepts e [99] = false.
Proof. split_and!; vm_compute; reflexivity. Qed.

(** a*[^0-9]?\* and [x]y on strings *)
Example C71_glob_ex :
  let pattern := [97; 42; 91; 94; 48; 45; 57; 93; 63; 92; 42] in let other := [91; 120; 93; 121] in
  glob_match pattern [other] [97; 98; 98; 99; 49; 42] = Val true /\ glob_match pattern [other] [97; 49; 49; 42] = Val false /\
  glob_match pattern [other] [120; 121] = Val true /\ glob_match pattern [other] [121] = Val false /\
  glob_match [91; 97; 45] [] [97] = Signal missing_close /\ glob_match [91; 93; 93] [] [93] = Val true.
Proof. split_and!; vm_compute; reflexivity. Qed.

Example C71_well_formed_ex : well_formed [97; 42; 91; 94; 48; 45; 57; 93; 63] /\ matches [97; 42; 91; 94; 48; 45; 57; 93; 63] [97; 1; 2; 98; 49].
Proof.
  assert (class_at true [48; 45; 57; 93; 63] [63] [(48, 57)]) by (apply class_range; [by left|constructor]).
  split.
  - repeat (apply wf_other; [rewrite !not_elem_of_cons; split_and!; try done; apply not_elem_of_nil|]). apply (wf_not_class _ [63] [(48, 57)]); [done|].
    apply wf_other; [rewrite !not_elem_of_cons; split_and!; try done; apply not_elem_of_nil|constructor].
  - apply match_self; [rewrite !not_elem_of_cons; split_and!; try done; apply not_elem_of_nil|].
    apply (match_star _ [1; 2] [98; 49]); [repeat constructor; done|]. apply (match_not_class _ [63] [(48, 57)]); [done|done| |apply match_any; [done|constructor]].
    intros (a & b & [= -> ->]%elem_of_list_singleton & ?). lia.
Qed.

Print Assumptions C71_glob.
Print Assumptions C71_automaton.
