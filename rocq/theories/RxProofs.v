From stdpp Require Import sets.
From Verif Require Import Base GlobSpec GlobModel GlobProofs GlobProofs2 GlobProofs3 GlobProofs4 RxSpec RxModel.
From Coq Require Import ZArith ZifyBool ZifyNat.
Local Open Scope Z_scope.

(** With enough fuel. *)
Definition ev (f : step) (s : list Z) (o : outcome (rx * list Z)) : Prop := exists n, forall fuel, (n <= fuel)%nat -> parse fuel f s = o.

Lemma ev_done f s o : (forall fuel, parse (S fuel) f s = o) -> ev f s o.
Proof. intros H. exists 1%nat. intros [|fuel] Hf; [lia|apply H]. Qed.

Lemma ev_step f s f1 s1 x r o (k : nat -> rx -> list Z -> outcome (rx * list Z)) :
  (forall fuel, parse (S fuel) f s = obind (parse fuel f1 s1) (fun '(x, r) => k fuel x r)) ->
  ev f1 s1 (Val (x, r)) -> (exists n, forall fuel, (n <= fuel)%nat -> k fuel x r = o) -> ev f s o.
Proof.
  intros Hs [n1 H1] [n2 H2]. exists (S (max n1 n2)). intros [|fuel] Hf; [lia|]. rewrite Hs, H1 by lia. cbn [obind]. apply H2. lia.
Qed.

Definition starts_ok (s : list Z) : Prop := match s with c :: _ => c ∉ [42; 43; 63] | [] => True end.
Definition stops (s : list Z) : Prop := match s with c :: _ => c = 41 \/ c = 124 | [] => True end.
Definition head_ok (s : list Z) : Prop := match s with c :: _ => c ∉ [42; 43; 63; 41; 124] | [] => False end.

Definition R3 s x : Prop := forall rest, ev Regexp3 (s ++ rest) (Val (x, rest)).
Definition R2 s x : Prop := forall rest, starts_ok rest -> ev Regexp2 (s ++ rest) (Val (x, rest)).
Definition R1 s x : Prop := forall rest o, starts_ok rest -> ev (Loop1 x) rest o -> ev Regexp1 (s ++ rest) o.
Definition R0 s x : Prop := forall rest o, stops rest -> ev (Loop0 x) rest o -> ev Regexp0 (s ++ rest) o.

Lemma stops_ok s : stops s -> starts_ok s.
Proof. destruct s as [|c s]; [done|]. cbn. intros [-> | ->]; set_solver. Qed.

Lemma loop1_stop x s : stops s -> ev (Loop1 x) s (Val (x, s)).
Proof.
  intros H. apply ev_done. intros fuel. cbn [parse]. destruct s as [|c s]; [done|]. cbn in H. by replace (negb (c =? 124) && negb (c =? 41)) with false by lia.
Qed.

Lemma r32 s x : R3 s x -> R2 s x.
Proof.
  intros H rest Hr. eapply ev_step; [intros fuel; reflexivity|apply H|]. exists O. intros fuel _. destruct rest as [|c rest]; [done|]. cbn in Hr.
  rewrite !not_elem_of_cons in Hr. replace (c =? 42) with false by lia. replace (c =? 43) with false by lia. by replace (c =? 63) with false by lia.
Qed.

Lemma r21 s x : R2 s x -> R1 s x.
Proof. intros H rest o Hr [n Ho]. eapply ev_step; [intros fuel; reflexivity|by apply H|]. by exists n. Qed.

Lemma r10 s x : R1 s x -> R0 s x.
Proof.
  intros H rest o Hr [n Ho]. eapply ev_step; [intros fuel; reflexivity|apply H; [by apply stops_ok|by apply loop1_stop]|]. by exists n.
Qed.

Lemma r_paren s x : R0 s x -> R3 (40 :: s ++ [41]) x.
Proof.
  intros H rest. cbn. rewrite <- app_assoc. cbn. eapply ev_step; [intros fuel; reflexivity| |].
  - apply H; [by left|]. apply ev_done. intros fuel. reflexivity.
  - exists O. intros fuel _. reflexivity.
Qed.

Lemma r_alt s1 x1 s2 x2 : R0 s1 x1 -> R1 s2 x2 -> R0 (s1 ++ 124 :: s2) (Union x1 x2).
Proof.
  intros H1 H2 rest o Hr [n Ho]. rewrite <- app_assoc. apply H1; [by right|]. cbn. eapply ev_step; [intros fuel; reflexivity| |].
  - apply H2; [by apply stops_ok|by apply loop1_stop].
  - by exists n.
Qed.

Lemma r_seq s1 x1 s2 x2 : head_ok s2 -> R1 s1 x1 -> R2 s2 x2 -> R1 (s1 ++ s2) (Concatenation x1 x2).
Proof.
  intros Hh H1 H2 rest o Hr [n Ho]. rewrite <- app_assoc. destruct s2 as [|c s2]; [done|]. cbn in Hh. rewrite !not_elem_of_cons in Hh.
  apply H1; [cbn; rewrite !not_elem_of_cons; split_and!; try lia; apply not_elem_of_nil|]. specialize (H2 rest Hr). cbn in *. eapply ev_step.
  - intros fuel. cbn [parse]. replace (negb (c =? 124) && negb (c =? 41)) with true by lia. reflexivity.
  - exact H2.
  - by exists n.
Qed.

Definition post (c : Z) (x : rx) : rx := if c =? 42 then Closure x else if c =? 43 then Concatenation x (Closure x) else Union Epsilon x.
Lemma r_post s x c : c ∈ [42; 43; 63] -> R3 s x -> R2 (s ++ [c]) (post c x).
Proof.
  intros Hc H rest Hr. rewrite <- app_assoc. cbn. eapply ev_step; [intros fuel; reflexivity|apply H|]. exists O. intros fuel _. unfold post.
  rewrite !elem_of_cons in Hc. destruct Hc as [-> |[-> |[-> |[]%elem_of_nil]]]; reflexivity.
Qed.

(** ** Classes *)

Definition class_fold (items : list item) (set : Z -> bool) : Z -> bool :=
  fold_left (fun set i => match i with One c => fun x => set x || (x =? c) | Range a b => fun x => set x || ((a <=? x) && (x <=? b)) end) items set.

Lemma parse_class_one first set c s : (first = true \/ c <> 93) -> match s with d :: _ => d <> 45 | [] => True end ->
  parse_class first set (c :: s) = parse_class false (fun x => set x || (x =? c)) s.
Proof.
  intros Hf Hs. cbn [parse_class]. replace ((c =? c_close) && negb first) with false by (unfold c_close; destruct Hf; [subst; lia|lia]).
  destruct s as [|d [|e s]]; [done|done|]. unfold c_dash. by replace (d =? 45) with false by lia.
Qed.

Lemma parse_items rest : forall items (first : bool) set, Forall (fun i => item_first i <> 93) (if first then tail items else items) -> no_dash items -> (first = true -> items <> []) ->
  parse_class first set (concat (map item_text items) ++ 93 :: rest) = Val (class_fold items set, rest).
Proof.
  induction items as [|i items IH]; intros first set Hr Hd Hf.
  - cbn. destruct first; [by destruct Hf|done].
  - assert (Hi : first = true \/ item_first i <> 93). { destruct first; [by left|]. apply Forall_cons in Hr as [? _]. by right. }
    assert (Hr' : Forall (fun i => item_first i <> 93) items). { destruct first; [done|]. by apply Forall_cons in Hr as [_ ?]. }
    destruct i as [c|a b]; cbn [map concat item_text app item_first] in *.
    + rewrite parse_class_one; [|done|].
      * rewrite IH; [done|done|by destruct items; [|destruct Hd]|done].
      * destruct items as [|[c'|a' b'] items]; cbn; [done|by destruct Hd..].
    + rewrite parse_class_range by done. by rewrite IH.
Qed.

Lemma in_items_cons x i items : in_items x (i :: items) <-> in_item x i \/ in_items x items.
Proof.
  unfold in_items. split.
  - intros (j & [->|H]%elem_of_cons & Hj); [by left|]. right. by exists j.
  - intros [H|(j & H & Hj)]; [exists i|exists j]; (split; [|done]); [by left|by right].
Qed.

Lemma class_fold_true : forall items set x, class_fold items set x = true <-> set x = true \/ in_items x items.
Proof.
  induction items as [|i items IH]; intros set x; cbn.
  - split; [by left|]. intros [?|(? & []%elem_of_nil & _)]. done.
  - unfold class_fold in IH. rewrite IH, in_items_cons. destruct i; cbn; rewrite orb_true_iff, ?andb_true_iff, ?Z.leb_le, ?Z.eqb_eq; tauto.
Qed.

(** ** Expressions *)

Fixpoint node_of (e : re) : rx :=
  match e with
  | Char c => Symbol_set (fun x => x =? c)
  | Dot => Symbol_set dot_set
  | Class complement items =>
      let set := class_fold items (fun _ => false) in
      Symbol_set (if complement then (fun x => any_char_set x && negb (set x)) else set)
  | Alt e1 e2 => Union (node_of e1) (node_of e2)
  | Seq e1 e2 => Concatenation (node_of e1) (node_of e2)
  | Star e => Closure (node_of e)
  | Plus e => Concatenation (node_of e) (Closure (node_of e))
  | Opt e => Union Epsilon (node_of e)
  end.

Lemma r_char c : R3 (written 3 (Char c)) (node_of (Char c)).
Proof.
  intros rest. apply ev_done. intros fuel. cbn [written node_of]. destruct (decide (c ∈ special)) as [Hs|Hs]; cbn; [done|].
  unfold special in Hs. rewrite !not_elem_of_cons in Hs. destruct Hs as (? & ? & ? & ? & ? & ? & ? & ? & ? & _).
  replace (c =? 40) with false by lia. replace (c =? 92) with false by lia. replace (c =? 46) with false by lia. by replace (c =? 91) with false by lia.
Qed.

Lemma r_dot : R3 (written 3 Dot) (node_of Dot).
Proof. intros rest. apply ev_done. done. Qed.

Lemma r_class complement items : writable (Class complement items) -> R3 (written 3 (Class complement items)) (node_of (Class complement items)).
Proof.
  intros (Hn & Hr & Hd & Hh) rest. apply ev_done. intros fuel. cbn [written node_of].
  pose proof (parse_items rest items true (fun _ => false) Hr Hd (fun _ => Hn)) as Hp.
  cbn [app]. rewrite <- !app_assoc. cbn [app]. destruct complement; cbn [app].
  - cbn [parse]. cbn [Z.eqb Pos.eqb andb]. unfold c_caret. cbn [Z.eqb Pos.eqb]. by rewrite Hp.
  - destruct items as [|i items]; [done|]. specialize (Hh eq_refl i eq_refl). destruct i as [a|a b]; cbn [map concat app item_text item_first] in *; cbn [parse]; cbn [Z.eqb Pos.eqb andb];
      unfold c_caret; replace (a =? 94) with false by lia; by rewrite Hp.
Qed.

Lemma head_written : forall e k, head_ok (written k e).
Proof.
  assert (Hp : forall b s, head_ok s -> head_ok (paren b s)) by (intros [] s H; [cbn; set_solver|done]).
  assert (Ha : forall s s', head_ok s -> head_ok (s ++ s')) by (by intros [|c s] s' H).
  induction e as [c| |complement items|e1 IH1 e2 IH2|e1 IH1 e2 IH2|e IH|e IH|e IH]; intros k; cbn [written]; try (apply Hp, Ha; auto).
  - destruct (decide (c ∈ special)) as [Hs|Hs]; cbn; [set_solver|]. unfold special in Hs. set_solver.
  - cbn. set_solver.
  - cbn. set_solver.
Qed.

Definition all_levels (w : nat -> list Z) x : Prop := R0 (w 0%nat) x /\ R1 (w 1%nat) x /\ R2 (w 2%nat) x /\ R3 (w 3%nat) x.

Lemma parsed_all : forall e, writable e -> all_levels (fun k => written k e) (node_of e).
Proof.
  assert (Hatom : forall s x, R3 s x -> all_levels (fun _ => s) x).
  { intros s x H. pose proof (r32 _ _ H) as H2. pose proof (r21 _ _ H2) as H1. pose proof (r10 _ _ H1) as H0. done. }
  assert (Hpost : forall s x, R2 s x -> all_levels (fun k => paren (2 <? k)%nat s) x).
  { intros s x H. pose proof (r21 _ _ H) as H1. pose proof (r10 _ _ H1) as H0. split_and!; try done. by apply r_paren. }
  induction e as [c| |complement items|e1 IH1 e2 IH2|e1 IH1 e2 IH2|e IH|e IH|e IH]; intros Hw.
  - apply (Hatom (written 3 (Char c))), r_char.
  - apply (Hatom [46]), r_dot.
  - apply (Hatom (written 3 (Class complement items))), r_class, Hw.
  - destruct Hw as [W1 W2]. destruct (IH1 W1) as (A0 & _). destruct (IH2 W2) as (_ & B1 & _). pose proof (r_alt _ _ _ _ A0 B1) as H0.
    pose proof (r_paren _ _ H0) as H3. pose proof (r32 _ _ H3) as H2. pose proof (r21 _ _ H2) as H1. done.
  - destruct Hw as [W1 W2]. destruct (IH1 W1) as (_ & A1 & _). destruct (IH2 W2) as (_ & _ & B2 & _).
    pose proof (r_seq _ _ _ _ (head_written e2 2) A1 B2) as H1. pose proof (r10 _ _ H1) as H0. pose proof (r_paren _ _ H0) as H3. pose proof (r32 _ _ H3) as H2. done.
  - destruct (IH Hw) as (_ & _ & _ & A3). apply (Hpost _ (post 42 (node_of e))), r_post; [set_solver|done].
  - destruct (IH Hw) as (_ & _ & _ & A3). apply (Hpost _ (post 43 (node_of e))), r_post; [set_solver|done].
  - destruct (IH Hw) as (_ & _ & _ & A3). apply (Hpost _ (post 63 (node_of e))), r_post; [set_solver|done].
Qed.

Lemma star_same e : (forall w, denotes (node_of e) w <-> re_matches e w) -> forall w, denotes (Closure (node_of e)) w <-> re_matches (Star e) w.
Proof.
  intros IH w. split.
  - intros H. remember (Closure (node_of e)) as c eqn:Hc. induction H; try done; injection Hc as ->; constructor; [by apply IH|auto].
  - intros H. remember (Star e) as c eqn:Hc. induction H; try done; injection Hc as ->; constructor; [by apply IH|auto].
Qed.

Lemma node_matches : forall e w, denotes (node_of e) w <-> re_matches e w.
Proof.
  induction e as [c| |complement items|e1 IH1 e2 IH2|e1 IH1 e2 IH2|e IH|e IH|e IH]; intros w; cbn [node_of].
  - split; inversion 1; subst; [|constructor; lia]. assert (c0 = c) as -> by lia. constructor.
  - split; inversion 1; subst; constructor; unfold dot_set in *; rewrite ?andb_true_iff, ?any_byte in *; [tauto|lia|split; [done|lia]].
  - set (set := class_fold items (fun _ => false)). assert (Hset : forall x, set x = true <-> in_items x items).
    { intros x. unfold set. rewrite class_fold_true. naive_solver. }
    split.
    + inversion 1 as [|s c Hc| | | | |]; subst. destruct complement; constructor.
      * apply andb_true_iff in Hc as [Hc _]. by apply any_byte.
      * apply andb_true_iff in Hc as [_ Hc]. rewrite <- Hset. destruct (set c); done.
      * by apply Hset.
    + inversion 1; subst; constructor; [by apply Hset|]. apply andb_true_iff. split; [by apply any_byte|]. rewrite <- Hset in *. by destruct (set c).
  - split; inversion 1; subst; [apply m_alt1|apply m_alt2|apply den_union1|apply den_union2]; (by apply IH1 || by apply IH2).
  - split; inversion 1; subst; constructor; (by apply IH1 || by apply IH2).
  - by apply star_same.
  - split; inversion 1; subst; constructor; (by apply IH || by apply (star_same e IH)).
  - split; inversion 1 as [| |? ? ? He|? ? ? He| | |] || inversion 1; subst.
    + inversion He; subst. apply m_opt_nil.
    + apply m_opt. by apply IH.
    + apply den_union1. constructor.
    + apply den_union2. by apply IH.
Qed.

(** ** The parser returns *)

Lemma parse_class_returns : forall n s first set, (length s <= n)%nat ->
  match parse_class first set s with Val (_, r) => (length r <= length s)%nat | Signal _ => True | _ => False end.
Proof.
  induction n as [|n IH]; intros s first set Hn; (destruct s as [|c s]; [done|]); cbn in Hn; [lia|]. cbn [parse_class].
  destruct ((c =? c_close) && negb first); [cbn; lia|].
  assert (H1 : match parse_class false (fun x => set x || (x =? c)) s with Val (_, r) => (length r <= length (c :: s))%nat | Signal _ => True | _ => False end).
  { pose proof (IH s false (fun x => set x || (x =? c)) ltac:(lia)) as H. destruct (parse_class _ _ s) as [[? r]| | |]; try done. cbn. lia. }
  destruct s as [|d [|e s]]; [exact H1|exact H1|]. destruct (d =? c_dash); [|exact H1]. cbn in Hn.
  pose proof (IH s false (fun x => set x || ((c <=? x) && (x <=? e))) ltac:(lia)) as H. destruct (parse_class _ _ s) as [[? r]| | |]; try done. cbn. lia.
Qed.

Definition cost (f : step) : nat := match f with Regexp0 => 4 | Loop0 _ => 1 | Regexp1 => 3 | Loop1 _ => 3 | Regexp2 => 2 | Regexp3 => 1 end.
Definition uses (f : step) : nat := match f with Loop0 _ | Loop1 _ => 0 | _ => 1 end.

Lemma parse_returns : forall fuel f s, (6 * length s + cost f <= fuel)%nat ->
  match parse fuel f s with Val (_, r) => (length r + uses f <= length s)%nat | Signal _ => True | _ => False end.
Proof.
  induction fuel as [|fuel IH]; intros f s Hf; [destruct f; cbn in Hf; lia|].
  destruct f as [|node| |node| |]; cbn [cost uses] in *; cbn [parse].
  - pose proof (IH Regexp1 s ltac:(cbn; lia)) as H. destruct (parse fuel Regexp1 s) as [[x r]| | |]; try done. cbn [obind uses] in *.
    pose proof (IH (Loop0 x) r ltac:(cbn; lia)) as H2. destruct (parse fuel _ r) as [[? ?]| | |]; try done. cbn in H2. lia.
  - destruct s as [|c s]; [cbn; lia|]. destruct (c =? 124); [|cbn; lia]. cbn [length] in *.
    pose proof (IH Regexp1 s ltac:(cbn; lia)) as H. destruct (parse fuel Regexp1 s) as [[x r]| | |]; try done. cbn [obind uses] in *.
    pose proof (IH (Loop0 (Union node x)) r ltac:(cbn; lia)) as H2. destruct (parse fuel _ r) as [[? ?]| | |]; try done. cbn in H2. lia.
  - pose proof (IH Regexp2 s ltac:(cbn; lia)) as H. destruct (parse fuel Regexp2 s) as [[x r]| | |]; try done. cbn [obind uses] in *.
    pose proof (IH (Loop1 x) r ltac:(cbn; lia)) as H2. destruct (parse fuel _ r) as [[? ?]| | |]; try done. cbn in H2. lia.
  - destruct s as [|c s]; [cbn; lia|]. destruct (negb (c =? 124) && negb (c =? 41)); [|cbn; lia]. 
    pose proof (IH Regexp2 (c :: s) ltac:(cbn [cost]; lia)) as H. destruct (parse fuel Regexp2 (c :: s)) as [[x r]| | |]; try done. cbn [obind uses] in *.
    pose proof (IH (Loop1 (Concatenation node x)) r ltac:(cbn [cost]; lia)) as H2. destruct (parse fuel _ r) as [[? ?]| | |]; try done. cbn [uses] in H2. lia.
  - pose proof (IH Regexp3 s ltac:(cbn; lia)) as H. destruct (parse fuel Regexp3 s) as [[x r]| | |]; try done. cbn [obind uses] in *.
    destruct r as [|c r]; [done|]. cbn [length] in H. destruct (c =? 42); [lia|]. destruct (c =? 43); [lia|]. destruct (c =? 63); [lia|]. cbn [length]. lia.
  - destruct s as [|c s]; [done|]. cbn [length] in *. destruct (c =? 40).
    + pose proof (IH Regexp0 s ltac:(cbn; lia)) as H. destruct (parse fuel Regexp0 s) as [[x r]| | |]; try done. cbn [obind uses] in *.
      destruct r as [|d r]; [done|]. cbn [length] in H. destruct (d =? 41); [lia|done].
    + destruct ((c =? 92) && negb (Nat.eqb (length s) 0)) eqn:Hb.
      * destruct s as [|d s]; [cbn in Hb; lia|]. cbn. lia.
      * destruct (c =? 46); [lia|]. destruct (c =? 91); [|lia].
        assert (Hk : forall s' (b : bool), (length s' <= length s)%nat ->
          match obind (parse_class true (fun _ => false) s') (fun '(set, s) => Val (Symbol_set (if b then (fun x => any_char_set x && negb (set x)) else set), s)) with
          | Val (_, r) => (length r + 1 <= S (length s))%nat | Signal _ => True | _ => False end).
        { intros s' b Hs. pose proof (parse_class_returns _ s' true (fun _ => false) ltac:(reflexivity)) as H.
          destruct (parse_class _ _ s') as [[? r]| | |]; try done. cbn. lia. }
        destruct s as [|d s]; [apply (Hk [] false); cbn; lia|]. destruct (d =? c_caret); [apply (Hk s true)|apply (Hk (d :: s) false)]; cbn; lia.
Qed.

Lemma parse_more : forall fuel f s o, parse fuel f s = o -> o <> NoFuel -> parse (S fuel) f s = o.
Proof.
  assert (Hb : forall fuel f s (k k' : rx * list Z -> outcome (rx * list Z)) o,
    (forall f s o, parse fuel f s = o -> o <> NoFuel -> parse (S fuel) f s = o) ->
    (forall x o, k x = o -> o <> NoFuel -> k' x = o) ->
    obind (parse fuel f s) k = o -> o <> NoFuel -> obind (parse (S fuel) f s) k' = o).
  { intros fuel f s k k' o IH Hk H Ho. destruct (parse fuel f s) as [x|m| |] eqn:Hp; cbn [obind] in H; [| | |congruence];
      rewrite (IH _ _ _ Hp) by done; cbn [obind]; [by apply Hk|done|done]. }
  induction fuel as [|fuel IH]; intros f s o H Ho; [cbn in H; congruence|].
  remember (S fuel) as n eqn:Hn. rewrite Hn in H. cbn [parse] in H. cbn [parse]. subst n.
  destruct f as [|node| |node| |].
  - revert H Ho. apply Hb; [apply IH|]. intros [x r] o'. apply IH.
  - destruct s as [|c s]; [done|]. destruct (c =? 124); [|done]. revert H Ho. apply Hb; [apply IH|]. intros [x r] o'. apply IH.
  - revert H Ho. apply Hb; [apply IH|]. intros [x r] o'. apply IH.
  - destruct s as [|c s]; [done|]. destruct (negb (c =? 124) && negb (c =? 41)); [|done]. revert H Ho. apply Hb; [apply IH|]. intros [x r] o'. apply IH.
  - revert H Ho. apply Hb; [apply IH|]. by intros [x r] o'.
  - destruct s as [|c s]; [done|]. destruct (c =? 40); [|done]. revert H Ho. apply Hb; [apply IH|]. by intros [x r] o'.
Qed.

Lemma parse_enough fuel n f s o : parse n f s = o -> o <> NoFuel -> (n <= fuel)%nat -> parse fuel f s = o.
Proof.
  intros H Ho Hf. induction Hf as [|fuel Hf IH]; [done|]. by apply parse_more.
Qed.

Lemma parse_regexp_returns s : match parse_regular_expression s with Val _ | Signal _ => True | _ => False end.
Proof.
  unfold parse_regular_expression. pose proof (parse_returns (6 * length s + 4) Regexp0 s ltac:(cbn [cost]; lia)) as H.
  destruct (parse (6 * length s + 4) Regexp0 s) as [[x [|]]|m| |]; done.
Qed.

Lemma parse_written e : writable e -> parse_regular_expression (written 0 e) = Val (node_of e).
Proof.
  intros Hw. destruct (parsed_all e Hw) as (H0 & _). destruct (H0 [] (Val (node_of e, []))) as [n Hn]; [done|apply ev_done; done|].
  rewrite app_nil_r in Hn. set (s := written 0 e) in *. unfold parse_regular_expression.
  pose proof (parse_returns (6 * length s + 4) Regexp0 s ltac:(cbn [cost]; lia)) as H.
  assert (Hp : parse (6 * length s + 4) Regexp0 s = Val (node_of e, [])).
  { destruct (parse (6 * length s + 4) Regexp0 s) as [[x r]|m| |] eqn:Hq; try done;
      apply (parse_enough (Nat.max n (6 * length s + 4))) in Hq; try done; try lia; rewrite Hn in Hq by lia; congruence. }
  by rewrite Hp.
Qed.
