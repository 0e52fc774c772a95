From stdpp Require Import sets.
From Verif Require Import Base GlobModel GlobSpec GlobProofs.
From Coq Require Import ZArith ZifyBool ZifyNat.
Local Open Scope Z_scope.

(** ** Character classes *)

Lemma in_ranges_cons c a b ranges : in_ranges c ((a, b) :: ranges) <-> a <= c <= b \/ in_ranges c ranges.
Proof.
  unfold in_ranges. split.
  - intros (x & y & [[= -> ->]|H]%elem_of_cons & Hc); [by left|]. right. by exists x, y.
  - intros [H|(x & y & H & Hc)]; [exists a, b|exists x, y]; (split; [|done]); [by left|by right].
Qed.

Lemma parse_class_char first set c s : (first = true \/ c <> 93) -> (forall b s', s <> 45 :: b :: s') ->
  parse_class first set (c :: s) = parse_class false (fun x => set x || (x =? c)) s.
Proof.
  intros Hf Hs. cbn [parse_class]. replace ((c =? c_close) && negb first) with false by (unfold c_close; destruct Hf; [subst; lia|lia]).
  destruct s as [|d [|e s']]; try done. destruct (d =? c_dash) eqn:Hd; [|done]. unfold c_dash in Hd. assert (d = 45) as -> by lia. by destruct (Hs e s').
Qed.

Lemma parse_class_range first set c e s : (first = true \/ c <> 93) ->
  parse_class first set (c :: 45 :: e :: s) = parse_class false (fun x => set x || ((c <=? x) && (x <=? e))) s.
Proof.
  intros Hf. cbn [parse_class]. by replace ((c =? c_close) && negb first) with false by (unfold c_close; destruct Hf; [subst; lia|lia]).
Qed.

Lemma parse_class_complete first s rest ranges : class_at first s rest ranges -> forall set,
  exists set', parse_class first set s = Val (set', rest) /\ (forall x, set' x = true <-> set x = true \/ in_ranges x ranges) /\ (length rest < length s)%nat.
Proof.
  induction 1 as [rest|first a b s rest ranges Hf Hc IH|first a s rest ranges Hf Hs Hc IH]; intros set.
  - exists set. split; [done|]. split; [|cbn; lia]. intros x. split; [by left|]. intros [?|(? & ? & []%elem_of_nil & _)]. done.
  - destruct (IH (fun x => set x || ((a <=? x) && (x <=? b)))) as (set' & He & Hx & Hl). exists set'. split; [by rewrite parse_class_range|].
    split; [|cbn; lia]. intros x. rewrite Hx, in_ranges_cons. rewrite orb_true_iff, andb_true_iff. rewrite !Z.leb_le. tauto.
  - destruct (IH (fun x => set x || (x =? a))) as (set' & He & Hx & Hl). exists set'. split; [by rewrite parse_class_char|].
    split; [|cbn; lia]. intros x. rewrite Hx, in_ranges_cons. rewrite orb_true_iff, Z.eqb_eq. assert (x = a <-> a <= x <= a) by lia. tauto.
Qed.

Lemma parse_class_sound : forall n first set s, (length s <= n)%nat ->
  match parse_class first set s with
  | Val (_, rest) => exists ranges, class_at first s rest ranges
  | Signal _ => True
  | _ => False
  end.
Proof.
  induction n as [|n IH]; intros first set s Hn; [destruct s; [done|cbn in Hn; lia]|]. destruct s as [|c s]; [done|].
  destruct ((c =? c_close) && negb first) eqn:Hc.
  { cbn [parse_class]. rewrite Hc. unfold c_close in Hc. assert (c = 93) as -> by lia. destruct first; [lia|]. exists []. constructor. }
  assert (Hf : first = true \/ c <> 93) by (unfold c_close in Hc; destruct first; [by left|right; lia]). cbn in Hn.
  destruct s as [|d [|e s']].
  - rewrite parse_class_char; [|done|done]. done.
  - rewrite parse_class_char; [|done|by intros b s' [= ]]. specialize (IH false (fun x => set x || (x =? c)) [d]). cbn [length] in *. specialize (IH ltac:(lia)).
    destruct (parse_class _ _ _) as [[set' rest]|m| |]; try done. destruct IH as (ranges & H). exists ((c, c) :: ranges). constructor; [done|by intros b s' [= ]|done].
  - destruct (decide (d = 45)) as [->|Hd].
    + rewrite parse_class_range by done. specialize (IH false (fun x => set x || ((c <=? x) && (x <=? e))) s'). cbn [length] in *. specialize (IH ltac:(lia)).
      destruct (parse_class _ _ _) as [[set' rest]|m| |]; try done. destruct IH as (ranges & H). exists ((c, e) :: ranges). by constructor.
    + rewrite parse_class_char; [|done|congruence]. specialize (IH false (fun x => set x || (x =? c)) (d :: e :: s')). specialize (IH ltac:(lia)).
      destruct (parse_class _ _ _) as [[set' rest]|m| |]; try done. destruct IH as (ranges & H). exists ((c, c) :: ranges). constructor; [done|congruence|done].
Qed.

(** ** The items of a pattern *)

Lemma any_byte c : any_char_set c = true <-> byte c.
Proof. unfold any_char_set, byte. lia. Qed.

Lemma star_any v : star (leaf_lang any_char_set) v <-> Forall byte v.
Proof.
  split.
  - induction 1 as [|v w (c & -> & Hc) Hw IH]; [done|]. constructor; [by apply any_byte|done].
  - induction 1 as [|c v Hc Hv IH]; [constructor|]. apply (star_app _ [c] v); [|done]. exists c. split; [done|by apply any_byte].
Qed.

Lemma cat_leaf set E w : cat (leaf_lang set) E w <-> exists c v, w = c :: v /\ set c = true /\ E v.
Proof.
  split.
  - intros (u & v & -> & (c & -> & Hc) & Hv). by exists c, v.
  - intros (c & v & -> & Hc & Hv). exists [c], v. split; [done|]. split; [by exists c|done].
Qed.

Lemma item_any s w : matches (63 :: s) w <-> cat (leaf_lang any_char_set) (matches s) w.
Proof.
  rewrite cat_leaf. split.
  - inversion 1; subst; [eexists _, _; split; [done|]; split; [by apply any_byte|done]|]. set_solver.
  - intros (c & v & -> & Hc & Hv). constructor; [by apply any_byte|done].
Qed.

Lemma item_star s w : matches (42 :: s) w <-> cat (star (leaf_lang any_char_set)) (matches s) w.
Proof.
  split.
  - inversion 1; subst; [|set_solver]. eexists _, _. split; [done|]. split; [by apply star_any|done].
  - intros (u & v & -> & Hu%star_any & Hv). by constructor.
Qed.

Lemma item_escape c s w : matches (92 :: c :: s) w <-> cat (leaf_lang (fun x => x =? c)) (matches s) w.
Proof.
  rewrite cat_leaf. split.
  - inversion 1; subst; [|set_solver]. eexists _, _. split; [done|]. split; [lia|done].
  - intros (x & v & -> & Hc & Hv). assert (x = c) as -> by lia. by constructor.
Qed.

Lemma item_self c s w : c ∉ [63; 42; 91; 92] -> matches (c :: s) w <-> cat (leaf_lang (fun x => x =? c)) (matches s) w.
Proof.
  intros Hn. rewrite cat_leaf. split.
  - inversion 1; subst; try (exfalso; apply Hn; set_solver). eexists _, _. split; [done|]. split; [lia|done].
  - intros (x & v & -> & Hc & Hv). assert (x = c) as -> by lia. by constructor.
Qed.

Lemma item_class s set p w : (forall s', s <> 94 :: s') -> parse_class true (fun _ => false) s = Val (set, p) ->
  matches (91 :: s) w <-> cat (leaf_lang set) (matches p) w.
Proof.
  intros Hs Hp. rewrite cat_leaf. split.
  - inversion 1 as [| | |s0 p0 ranges c w0 _ Hc Hin Hm|s0 p0 ranges c w0 Hc Hb Hin Hm| |]; subst; [| by destruct (Hs s0)|set_solver].
    destruct (parse_class_complete _ _ _ _ Hc (fun _ => false)) as (set' & He & Hx & _). rewrite Hp in He. injection He as -> ->.
    eexists _, _. split; [done|]. split; [|done]. apply Hx. by right.
  - intros (c & v & -> & Hc & Hv). pose proof (parse_class_sound (length s) true (fun _ => false) s ltac:(lia)) as H. rewrite Hp in H. destruct H as (ranges & H).
    destruct (parse_class_complete _ _ _ _ H (fun _ => false)) as (set' & He & Hx & _). rewrite Hp in He. injection He as ->.
    apply (match_class s p ranges); try done. apply Hx in Hc as [?|?]; done.
Qed.

Lemma item_not_class s set p w : parse_class true (fun _ => false) s = Val (set, p) ->
  matches (91 :: 94 :: s) w <-> cat (leaf_lang (fun x => any_char_set x && negb (set x))) (matches p) w.
Proof.
  intros Hp. rewrite cat_leaf. split.
  - inversion 1 as [| | |s0 p0 ranges c w0 Hs Hc Hin Hm|s0 p0 ranges c w0 Hc Hb Hin Hm| |]; subst; [by destruct (Hs s)| |set_solver].
    destruct (parse_class_complete _ _ _ _ Hc (fun _ => false)) as (set' & He & Hx & _). rewrite Hp in He. injection He as -> ->.
    eexists _, _. split; [done|]. split; [|done]. rewrite andb_true_iff, any_byte, negb_true_iff, <- not_true_iff_false, Hx. naive_solver.
  - intros (c & v & -> & Hc & Hv). pose proof (parse_class_sound (length s) true (fun _ => false) s ltac:(lia)) as H. rewrite Hp in H. destruct H as (ranges & H).
    destruct (parse_class_complete _ _ _ _ H (fun _ => false)) as (set' & He & Hx & _). rewrite Hp in He. injection He as ->.
    rewrite andb_true_iff, any_byte, negb_true_iff, <- not_true_iff_false, Hx in Hc. apply (match_not_class s p ranges); naive_solver.
Qed.

Lemma no_class s m : parse_class true (fun _ => false) s = Signal m -> forall w, ~ matches (91 :: 94 :: s) w /\ ((forall s', s <> 94 :: s') -> ~ matches (91 :: s) w).
Proof.
  intros Hp w. assert (Hno : forall p ranges, ~ class_at true s p ranges).
  { intros p ranges Hc. destruct (parse_class_complete _ _ _ _ Hc (fun _ => false)) as (set' & He & _). congruence. }
  split; [|intros Hs]; inversion 1; subst; try (by eapply Hno); set_solver.
Qed.

(** ** parse-glob-pattern *)

Lemma cat_assoc D E F w : cat (cat D E) F w <-> cat D (cat E F) w.
Proof.
  split.
  - intros (? & f & -> & (d & e & -> & Hd & He) & Hf). exists d, (e ++ f). rewrite app_assoc. split; [done|]. split; [done|]. by exists e, f.
  - intros (d & ? & -> & Hd & (e & f & -> & He & Hf)). exists (d ++ e), f. rewrite app_assoc. split; [done|]. split; [by exists d, e|done].
Qed.
Lemma cat_iff D E E' w : (forall v, E v <-> E' v) -> cat D E w <-> cat D E' w.
Proof. intros H. split; intros (u & v & -> & Hu & Hv); exists u, v; (split; [done|]); (split; [done|]); by apply H. Qed.

(** What a step of the parser does to the node. *)
Definition extends (st : store) (own : nat -> Prop) (st' : store) (node' : regex) (D : list Z -> Prop) : Prop :=
  (next st <= next st')%nat /\ (forall p, ~ own p -> (p < next st)%nat -> agree st st' p) /\
  exists own', good st' own' node' D /\ (forall p, own' p -> own p \/ (next st <= p)%nat).

Lemma append_tail st own node D st1 ownt tail Dt : good st own node D -> good st1 ownt tail Dt -> (next st <= next st1)%nat ->
  (forall p, (p < next st)%nat -> agree st st1 p) -> (forall p, ownt p -> (next st <= p)%nat) ->
  let '(st2, node') := make_concatenation st1 node tail in extends st own st2 node' (cat D Dt).
Proof.
  intros G Gt Hn Ha Ho. assert (G1 : good st1 own node D).
  { apply (good_frame st); try done. intros p Hp. apply Ha. gd G. }
  pose proof (concatenation_good st1 own node D ownt tail Dt G1 Gt) as H. destruct (make_concatenation st1 node tail) as [st2 node'].
  destruct H as (G2 & Hn2 & Ha2). { intros p Hp Hp'. pose proof (Ho p Hp'). pose proof (g_next _ _ _ _ G p Hp). lia. }
  split; [lia|]. split.
  - intros p Hp Hl. destruct (Ha p Hl) as [A1 A2]. destruct (Ha2 p Hp) as [B1 B2]. split; congruence.
  - exists (fun p => own p \/ ownt p). split; [done|]. intros p [?|?]; [by left|right; by apply Ho].
Qed.

Lemma append_leaf_ok st own node D set : good st own node D ->
  let '(st2, node') := append_leaf st node (Reads set) in extends st own st2 node' (cat D (leaf_lang set)).
Proof.
  intros G. unfold append_leaf. pose proof (leaf_good st set) as H. destruct (make_leaf st (Reads set)) as [st1 tail]. destruct H as (G1 & Hn & Ha).
  apply (append_tail st own node D st1 (fun p => p = next st) tail); try done; [lia| |].
  - intros p Hp. apply Ha. lia.
  - by intros p ->.
Qed.

Definition parsed (st : store) (own : nat -> Prop) (D : list Z -> Prop) (s : list Z) (o : outcome (store * regex)) : Prop :=
  match o with
  | Val (st', node') => extends st own st' node' (cat D (matches s))
  | Signal _ => forall w, ~ matches s w
  | _ => False
  end.

Lemma extends_trans st own st1 D1 (own1 : nat -> Prop) st2 node2 D2 : (next st <= next st1)%nat -> (forall p, ~ own p -> (p < next st)%nat -> agree st st1 p) ->
  (forall p, own1 p -> own p \/ (next st <= p)%nat) -> extends st1 own1 st2 node2 D1 -> (forall w, D2 w <-> D1 w) -> extends st own st2 node2 D2.
Proof.
  intros Hn Ha Ho (Hn1 & Ha1 & own2 & G & Ho2) HD. split; [lia|]. split.
  - intros p Hp Hl. destruct (Ha p Hp Hl) as [A1 A2]. destruct (Ha1 p) as [B1 B2]; [|lia|split; congruence].
    intros [?|?]%Ho; [done|lia].
  - exists own2. split; [by apply (good_iff _ _ _ D1)|]. intros p [?|?]%Ho2; [by apply Ho|right; lia].
Qed.

Lemma parsed_item st own D Dt st1 node1 s s' (rest : regex -> store -> outcome (store * regex)) :
  extends st own st1 node1 (cat D Dt) -> (forall w, matches s w <-> cat Dt (matches s') w) ->
  (forall own1, good st1 own1 node1 (cat D Dt) -> parsed st1 own1 (cat D Dt) s' (rest node1 st1)) -> parsed st own D s (rest node1 st1).
Proof.
  intros (Hn & Ha & own1 & G & Ho) Hs Hp. specialize (Hp own1 G). destruct (rest node1 st1) as [[st2 node2]|m| |]; try done; cbn in *.
  - eapply extends_trans; [done|done|done|done|]. intros w. rewrite cat_assoc. by apply cat_iff.
  - intros w (u & v & -> & Hu & Hv)%Hs. by apply (Hp v).
Qed.

Lemma append_star st own node D set : good st own node D ->
  forall st1 leaf st2 tail st3 node3, make_leaf st (Reads set) = (st1, leaf) -> make_closure st1 leaf = (st2, tail) -> make_concatenation st2 node tail = (st3, node3) ->
  extends st own st3 node3 (cat D (star (leaf_lang set))).
Proof.
  intros G st1 leaf st2 tail st3 node3 E1 E2 E3. pose proof (leaf_good st set) as H. rewrite E1 in H. destruct H as (G1 & Hn & Ha).
  pose proof (closure_good _ _ _ _ G1) as H. rewrite E2 in H. destruct H as (G2 & Hn2 & Ha2).
  pose proof (append_tail st own node D st2 (fun p => p = next st) tail (star (leaf_lang set))) as H. rewrite E3 in H. apply H; try done; [lia| |].
  - intros p Hp. destruct (Ha p) as [A1 A2]; [lia|]. destruct (Ha2 p) as [B1 B2]; [lia|]. split; congruence.
  - by intros p ->.
Qed.

Lemma parse_loop_ok : forall fuel st own node D s, (length s <= fuel)%nat -> good st own node D -> parsed st own D s (parse_loop fuel st node s).
Proof.
  induction fuel as [|fuel IH]; intros st own node D s Hf G.
  all: destruct s as [|char s]; [cbn; split; [lia|]; split; [done|]; exists own; (split; [|by left]); apply (good_iff _ _ _ D); [done|]; intros w; split;
    [intros (u & v & -> & Hu & Hv); inversion Hv; subst; by rewrite app_nil_r|intros Hw; exists w, []; rewrite app_nil_r; split; [done|]; split; [done|constructor]]|].
  { cbn in Hf. lia. }
  cbn in Hf. cbn [parse_loop]. unfold c_question, c_star, c_open, c_backslash, c_caret.
  destruct (char =? 63) eqn:H1.
  { assert (char = 63) as -> by lia. pose proof (append_leaf_ok st own node D any_char_set G) as He. destruct (append_leaf _ _ _) as [st1 node1].
    apply (parsed_item st own D _ st1 node1 (63 :: s) s (fun n st => parse_loop fuel st n s) He (item_any s)). intros own1 G1. apply IH; [lia|done]. }
  destruct (char =? 42) eqn:H2.
  { assert (char = 42) as -> by lia. destruct (make_leaf st (Reads any_char_set)) as [st1 leaf] eqn:E1. destruct (make_closure st1 leaf) as [st2 tail] eqn:E2.
    destruct (make_concatenation st2 node tail) as [st3 node3] eqn:E3. pose proof (append_star _ _ _ _ _ G _ _ _ _ _ _ E1 E2 E3) as He.
    apply (parsed_item st own D _ st3 node3 (42 :: s) s (fun n st => parse_loop fuel st n s) He (item_star s)). intros own1 G1. apply IH; [lia|done]. }
  destruct (char =? 91) eqn:H3.
  { assert (char = 91) as -> by lia.
    assert (Hcl : forall (s0 : list Z) (f : (Z -> bool) -> Z -> bool), (length s0 <= fuel)%nat ->
      (forall set p, parse_class true (fun _ => false) s0 = Val (set, p) -> forall w, matches (91 :: s) w <-> cat (leaf_lang (f set)) (matches p) w) ->
      (forall m, parse_class true (fun _ => false) s0 = Signal m -> forall w, ~ matches (91 :: s) w) ->
      parsed st own D (91 :: s) (obind (parse_class true (fun _ => false) s0) (fun '(set, s) =>
        let '(st, node) := append_leaf st node (Reads (f set)) in parse_loop fuel st node s))).
    { intros s0 f Hl Hv Hsig. pose proof (parse_class_sound (length s0) true (fun _ => false) s0 ltac:(lia)) as Hso.
      destruct (parse_class true (fun _ => false) s0) as [[set p]|m| |] eqn:Ep; try done; cbn [obind]; [|cbn; by apply (Hsig m)].
      destruct Hso as (ranges & Hc). destruct (parse_class_complete _ _ _ _ Hc (fun _ => false)) as (set' & Ep' & _ & Hlen).
      pose proof (append_leaf_ok st own node D (f set) G) as He. destruct (append_leaf _ _ _) as [st1 node1].
      apply (parsed_item st own D _ st1 node1 (91 :: s) p (fun n st => parse_loop fuel st n p) He); [by apply Hv|]. intros own1 G1. apply IH; [lia|done]. }
    destruct s as [|c s].
    - apply (Hcl [] (fun set => set)); [cbn; lia|done|]. intros m Hm w. by apply (no_class [] m).
    - destruct (c =? 94) eqn:Hc.
      + assert (c = 94) as -> by lia. apply (Hcl s (fun set x => any_char_set x && negb (set x))); [cbn in Hf; lia| |].
        * intros set p Hp w. by apply item_not_class.
        * intros m Hm w. by apply (no_class s m).
      + apply (Hcl (c :: s) (fun set => set)); [cbn in *; lia| |].
        * intros set p Hp w. apply item_class; [|done]. intros s' [= -> _]. lia.
        * intros m Hm w. apply (no_class (c :: s) m Hm w). intros s' [= -> _]. lia. }
  destruct (char =? 92) eqn:H4.
  { assert (char = 92) as -> by lia. destruct s as [|c s].
    - cbn. intros w. inversion 1; subst. set_solver.
    - pose proof (append_leaf_ok st own node D (fun x => x =? c) G) as He. destruct (append_leaf _ _ _) as [st1 node1].
      apply (parsed_item st own D _ st1 node1 (92 :: c :: s) s (fun n st => parse_loop fuel st n s) He (item_escape c s)). intros own1 G1. apply IH; [cbn in Hf; lia|done]. }
  pose proof (append_leaf_ok st own node D (fun x => x =? char) G) as He. destruct (append_leaf _ _ _) as [st1 node1].
  apply (parsed_item st own D _ st1 node1 (char :: s) s (fun n st => parse_loop fuel st n s) He).
  - intros w. apply item_self. rewrite !not_elem_of_cons. split_and!; try lia. apply not_elem_of_nil.
  - intros own1 G1. apply IH; [lia|done].
Qed.
