(** C72: the regular expressions of Jam are read as they are written. *)
From Verif Require Import Base GlobSpec GlobModel GlobProofs GlobProofs2 GlobProofs3 GlobProofs4 RxSpec RxModel RxProofs.
From Coq Require Import ZArith.
Local Open Scope Z_scope.

(** Every expression, however nested, that is written with no more parentheses than precedence calls for is read back, and the
    automaton made from what is read accepts exactly the strings the expression matches. *)
Theorem C72_written e : writable e ->
  exists node, parse_regular_expression (written 0 e) = Val node /\ forall w, accepts node w = true <-> re_matches e w.
Proof.
  intros Hw. exists (node_of e). split; [by apply parse_written|]. intros w. by rewrite accepts_ok, node_matches.
Qed.

(** Whatever the string, the parser gives an expression or signals an error. *)
Theorem C72_returns s : (exists node, parse_regular_expression s = Val node) \/ (exists m, parse_regular_expression s = Signal m).
Proof.
  pose proof (parse_regexp_returns s) as H. destruct (parse_regular_expression s) as [x|m| |]; try done; [left; by exists x|right; by exists m].
Qed.

(** (a|b+)*\.[]_0-9]?|.  *)
Example C72_ex :
  let e := Alt (Seq (Seq (Star (Alt (Char 97) (Plus (Char 98)))) (Char 46)) (Opt (Class false [One 93; One 95; Range 48 57]))) Dot in
  writable e /\ written 0 e = [40; 97; 124; 98; 43; 41; 42; 92; 46; 91; 93; 95; 48; 45; 57; 93; 63; 124; 46] /\
  exists node, parse_regular_expression (written 0 e) = Val node /\
    accepts node [98; 98; 97; 46; 55] = true /\ accepts node [46] = true /\ accepts node [97; 55] = false /\ accepts node [10] = false.
Proof.
  cbn zeta. split_and!; [cbn; split_and!; try done; [by repeat (apply List.Forall_cons; [cbn; lia|])|intros _ i [= <-]; cbn; lia]|vm_compute; reflexivity|].
  eexists. split; [vm_compute; reflexivity|]. split_and!; vm_compute; reflexivity.
Qed.

(** An operator where an operand is due is a character; an empty pair of parentheses lacks the closing one; a closing one by itself
    ends the expression. *)
Example C72_errors_ex :
  (exists node, parse_regular_expression [124; 97] = Val node /\ accepts node [124; 97] = true) /\
  parse_regular_expression [40; 41] = Signal missing_paren /\
  parse_regular_expression [97; 41] = Signal ended_prematurely /\
  parse_regular_expression [97; 124] = Signal regexp_missing.
Proof. split_and!; try (vm_compute; reflexivity). eexists. split; vm_compute; reflexivity. Qed.

Print Assumptions C72_written.
Print Assumptions C72_returns.
