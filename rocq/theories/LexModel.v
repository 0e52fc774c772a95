(** The lexer's state machine interpreter: sources/dfmc/reader/lexer.dylan:15-240 and 342-470, run on the
    table of LexTable.v. *)
From Verif Require Import Base LexTable.
From Coq Require Import ZArith.
Local Open Scope outcome_scope.
Local Open Scope nat_scope.

(** ** Transitions *)

(** for (i from lo to hi) *)
Definition zrange (lo hi : Z) : list Z := map (fun i => (lo + Z.of_nat i)%Z) (seq 0 (Z.to_nat (hi - lo + 1))).

(** The characters add-transition adds for a string, lexer.dylan:112-145; [last] and [range] are its
    variables. *)
Fixpoint expand (s : list Z) (last : option Z) (range : bool) : list Z :=
  match s with
  | [] => []
  | ch :: s =>
      if range then
        match last with
        | Some l => zrange (l + 1) ch ++ expand s None false
        | None => 45%Z :: ch :: expand s (Some ch) false
        end
      else if (ch =? 45)%Z then expand s last true
      else ch :: expand s (Some ch) false
  end.

(** $full-character-set, lexer.dylan:24-25: "\t\n\f\r -~" and the 8-bit extensions *)
Definition full_character_set : list Z := [9; 10; 12; 13; 32; 45; 126; 128; 45; 255]%Z.

Definition on_codes (o : on) : list Z :=
  match o with
  | OnChar c => [c]
  | OnString s => expand s None false
  | OnOtherwise => expand full_character_set None false
  end.

(** vector-element(state.state-transitions, char-code).  make-transition-table (lexer.dylan:147-177) fills a
    vector and signals an error if two transitions of a state overlap, except #"otherwise", which comes
    last and only takes what is left; so the first transition that contains the code is the one in the
    vector (that there are no overlaps is [table_no_clash] in LexProofs). *)
Fixpoint lookup_transition (trs : list (on * lstate)) (c : Z) : option lstate :=
  match trs with
  | [] => None
  | (o, s) :: trs => if existsb (Z.eqb c) (on_codes o) then Some s else lookup_transition trs c
  end.

(** ** The lexer's counters *)

(** double-quote-start-count etc., lexer.dylan:274-281 *)
Record counts := Counts { dq_start : nat; dq_end : nat; dc_start : nat; dc_end : nat }.

(** What a state action answers: #f, #t, #"clear-previous", #"use-previous", #"accept" *)
Inductive acceptable := ANo | AYes | AClear | AUsePrevious | AAccept.

(** The actions, lexer.dylan:1064-1109 *)
Definition run_action (a : action) (k : counts) : acceptable * counts :=
  match a with
  | A_increment_delimited_comment_start_count =>
      (AClear, Counts (dq_start k) (dq_end k) (S (dc_start k)) (dc_end k))
  | A_increment_delimited_comment_end_count =>
      let count := S (dc_end k) in
      (if count =? dc_start k then AYes else ANo, Counts (dq_start k) (dq_end k) (dc_start k) count)
  | A_increment_double_quote_start_count =>
      let n := S (dq_start k) in
      (if n =? 2 then AYes else ANo, Counts n (dq_end k) (dc_start k) (dc_end k))
  | A_increment_double_quote_end_count =>
      let n := S (dq_end k) in
      (if (n =? dq_start k) && negb (n =? 2) then AAccept else ANo, Counts (dq_start k) n (dc_start k) (dc_end k))
  | A_reset_double_quote_end_count =>
      (if (dq_start k =? dq_end k) || (dq_start k =? 2) then AUsePrevious else ANo,
       Counts (dq_start k) 0 (dc_start k) (dc_end k))
  end.

(** do-state-action, lexer.dylan:75-87 *)
Definition do_state_action (s : lstate) (k : counts) : acceptable * counts :=
  match state_action s with
  | None => (match state_builder s with Some _ => AYes | None => ANo end, k)
  | Some a =>
      let '(res, k) := run_action a k in
      (match res with
       | AYes => match state_builder s with Some _ => AYes | None => ANo end
       | _ => res
       end, k)
  end.

(** ** get-token *)

(** The slots of <lexer> that get-token uses, lexer.dylan:254-296 *)
Record lexer := Lexer {
  lx_position : nat;
  lx_line : nat;
  lx_line_start : nat;
  lx_counts : counts }.

(** The variables of get-token, lexer.dylan:349-366 *)
Record vars := Vars {
  start_pos : nat; start_line : nat; start_line_start : nat;
  cur_line : nat; cur_line_start : nat;
  bldr : option builder;
  end_pos : option nat; end_line : option nat; end_line_start : option nat;
  kounts : counts }.

(** save-accepting-state, lexer.dylan:378-383 *)
Definition save_accepting (v : vars) (pos : nat) (b : builder) : vars :=
  Vars (start_pos v) (start_line v) (start_line_start v) (cur_line v) (cur_line_start v)
       (Some b) (Some pos) (Some (cur_line v)) (Some (cur_line_start v)) (kounts v).

(** The assignments of "clear-previous", lexer.dylan:417-421 *)
Definition clear_previous (v : vars) : vars :=
  Vars (start_pos v) (start_line v) (start_line_start v) (cur_line v) (cur_line_start v)
       None None (Some (cur_line v)) (Some (cur_line_start v)) (kounts v).

(** The assignments of start-over, lexer.dylan:404-412 *)
Definition started_over (v : vars) (pos : nat) : vars :=
  Vars pos (cur_line v) (cur_line_start v) (cur_line v) (cur_line_start v) None None None None (kounts v).

(** Resetting the comment counts, lexer.dylan:427-430 *)
Definition reset_comment (v : vars) : vars :=
  Vars (start_pos v) (start_line v) (start_line_start v) (cur_line v) (cur_line_start v) (bldr v) (end_pos v) (end_line v)
       (end_line_start v) (Counts (dq_start (kounts v)) (dq_end (kounts v)) 0 0).

Definition set_counts (v : vars) (k : counts) : vars :=
  Vars (start_pos v) (start_line v) (start_line_start v) (cur_line v) (cur_line_start v) (bldr v) (end_pos v) (end_line v)
       (end_line_start v) k.

(** The side effect of next-state, lexer.dylan:389-392 *)
Definition newline_seen (v : vars) (pos : nat) : vars :=
  Vars (start_pos v) (start_line v) (start_line_start v) (S (cur_line v)) (S pos) (bldr v) (end_pos v) (end_line v)
       (end_line_start v) (kounts v).

Definition newline_code : Z := 10.

(** next-state, lexer.dylan:384-395.  The bounds are not checked (without-bounds-checks), so a code outside
    of the table is [UB]. *)
Definition next_state (contents : list Z) (s : lstate) (pos : nat) (v : vars) : outcome (option lstate * vars) :=
  match state_transitions s with
  | [] => Val (None, v)
  | trs =>
      match contents !! pos with
      | None => UB
      | Some c =>
          let v := if (c =? newline_code)%Z then newline_seen v pos else v in
          if (0 <=? c)%Z && (c <=? 255)%Z then Val (lookup_transition trs c, v) else UB
      end
  end.

(** repeat, advance and start-over, lexer.dylan:396-450: the position where the machine stopped *)
Fixpoint repeat_ (fuel : nat) (contents : list Z) (s : lstate) (pos : nat) (v : vars) : outcome (nat * vars) :=
  match fuel with
  | O => NoFuel
  | S fuel =>
      let advance v :=
        if pos <? length contents then
          do ' (new_state, v) <- next_state contents s pos v ;
          match new_state with
          | Some s' => repeat_ fuel contents s' (pos + 1) v
          | None => Val (pos, v)
          end
        else Val (pos, v) in
      let b := state_builder s in
      let '(acc, k) := do_state_action s (kounts v) in
      let v := set_counts v k in
      match acc, b with
      | AClear, _ => advance (clear_previous v)
      | ANo, _ | _, None => advance v
      | _, Some B_whitespace => repeat_ fuel contents S_start pos (started_over v pos)
      | _, Some B_comment => repeat_ fuel contents S_start pos (started_over (reset_comment v) pos)
      | AYes, Some b => advance (save_accepting v pos b)
      | AUsePrevious, Some _ =>
          match bldr v, end_pos v with
          | Some _, Some e => Val (e, v)
          | _, _ => Signal "the lexer expected a previous accepting state but there is none"
          end
      | AAccept, Some b => Val (pos, save_accepting v pos b)
      end
  end.

(** What get-token found: the builder (#f at the end of the source) and the source location, with 1-based
    lines and 0-based columns. *)
Record token := Token {
  tk_builder : option builder;
  tk_start : nat; tk_start_line : nat; tk_start_column : Z;
  tk_end : nat; tk_end_line : nat; tk_end_column : Z }.

Definition initial_vars (lx : lexer) : vars :=
  Vars (lx_position lx) (lx_line lx) (lx_line_start lx) (lx_line lx) (lx_line_start lx) None None None None (lx_counts lx).

(** get-token up to the call of the builder, lexer.dylan:342-465.  (At the end of the source the builder is
    that of <eof-marker>.  An invalid token is a serious program warning, here a signal: what the reader
    does after it is not modelled.) *)
Definition scan (fuel : nat) (contents : list Z) (lx : lexer) : outcome (token * lexer) :=
  do ' (_, v) <- repeat_ fuel contents S_start (lx_position lx) (initial_vars lx) ;
  let finish b e el els :=
    Val (Token b (start_pos v) (start_line v) (Z.of_nat (start_pos v) - Z.of_nat (start_line_start v))
               e el (Z.of_nat e - Z.of_nat els),
         Lexer e el els (kounts v)) in
  match bldr v with
  | None =>
      if length contents <=? start_pos v then finish None (start_pos v) (cur_line v) (cur_line_start v)
      else Signal "invalid-token"
  | Some b =>
      match end_pos v, end_line v, end_line_start v with
      | Some e, Some el, Some els => finish (Some b) e el els
      | _, _, _ => UB
      end
  end.

(** make(<lexer>, source: ...), lexer.dylan:254-296 *)
Definition new_lexer : lexer := Lexer 0 1 0 (Counts 0 0 0 0).
