From Verif Require Import Base GlobModel GlobSpec.
From Coq Require Import ZArith ZifyBool ZifyNat.
Local Open Scope Z_scope.

(** ** Lists of positions *)

Lemma mem_true x l : mem x l = true <-> x ∈ l.
Proof.
  unfold mem. rewrite existsb_exists. setoid_rewrite <- elem_of_list_In. split.
  - by intros (y & Hy & ->%Nat.eqb_eq).
  - intros H. exists x. by rewrite Nat.eqb_refl.
Qed.

Lemma elem_filter {A} (f : A -> bool) x l : x ∈ List.filter f l <-> x ∈ l /\ f x = true.
Proof. by rewrite !elem_of_list_In, filter_In. Qed.

Lemma elem_union x a b : x ∈ union_positions a b <-> x ∈ a \/ x ∈ b.
Proof.
  unfold union_positions. rewrite elem_of_app.
  assert (x ∈ rev (List.filter (fun x => negb (mem x b)) a) <-> x ∈ a /\ x ∉ b) as ->.
  { rewrite !elem_of_list_In, <- in_rev, filter_In, <- !elem_of_list_In. rewrite negb_true_iff, <- not_true_iff_false, mem_true. done. }
  destruct (decide (x ∈ b)); naive_solver.
Qed.

Lemma NoDup_filter_ {A} (f : A -> bool) l : base.NoDup l -> base.NoDup (List.filter f l).
Proof. rewrite !NoDup_ListNoDup. apply List.NoDup_filter. Qed.

Lemma NoDup_union a b : base.NoDup a -> base.NoDup b -> base.NoDup (union_positions a b).
Proof.
  intros Ha Hb. unfold union_positions. apply NoDup_app. split_and!; [| |done].
  - apply NoDup_ListNoDup, NoDup_rev, NoDup_ListNoDup. by apply NoDup_filter_.
  - intros x Hx. rewrite elem_of_list_In, <- in_rev, filter_In in Hx. destruct Hx as [_ Hx].
    rewrite negb_true_iff, <- not_true_iff_false, mem_true in Hx. done.
Qed.

Lemma equal_sets_elem a b : equal_sets a b = true -> base.NoDup a -> forall x, x ∈ b <-> x ∈ a.
Proof.
  unfold equal_sets. rewrite andb_true_iff, Nat.eqb_eq, forallb_forall. intros [Hl Hs] Ha x.
  assert (Hinc : List.incl a b). { intros y Hy. apply elem_of_list_In, mem_true. by apply Hs. }
  rewrite !elem_of_list_In. split; [|apply Hinc]. apply (NoDup_length_incl (l := a)); [by apply NoDup_ListNoDup|lia|done].
Qed.

(** ** What a position leads to *)

Fixpoint reads (st : store) (ls : list nat) (p : nat) (w : list Z) : Prop :=
  match w with
  | [] => False
  | c :: w => (exists set, kind_of st p = Reads set /\ set c = true) /\
      ((w = [] /\ p ∈ ls) \/ exists q, q ∈ follow st p /\ reads st ls q w)
  end.

Definition lang (st : store) (r : regex) (w : list Z) : Prop :=
  (nullable r = true /\ w = []) \/ exists p, p ∈ firsts r /\ reads st (lasts r) p w.

Record good (st : store) (own : nat -> Prop) (r : regex) (D : list Z -> Prop) : Prop := {
  g_first : forall p, p ∈ firsts r -> own p;
  g_last : forall p, p ∈ lasts r -> own p;
  g_follow : forall p q, own p -> q ∈ follow st p -> own q;
  g_next : forall p, own p -> (p < next st)%nat;
  g_kind : forall p, own p -> kind_of st p <> Accept;
  g_dfirst : base.NoDup (firsts r);
  g_dlast : base.NoDup (lasts r);
  g_dfollow : forall p, own p -> base.NoDup (follow st p);
  g_lang : forall w, D w <-> lang st r w
}.

Definition agree (st st' : store) (p : nat) : Prop := follow st' p = follow st p /\ kind_of st' p = kind_of st p.

Lemma reads_agree st st' (own : nat -> Prop) ls ls' :
  (forall p q, own p -> q ∈ follow st p -> own q) -> (forall p, own p -> agree st st' p) -> (forall p, own p -> p ∈ ls' <-> p ∈ ls) ->
  forall w p, own p -> reads st' ls' p w <-> reads st ls p w.
Proof.
  intros Hc Ha Hls. induction w as [|c w IH]; intros p Hp; [done|]. cbn. destruct (Ha p Hp) as [-> ->]. rewrite (Hls p Hp).
  split; intros [? [?|(q & Hq & ?)]]; (split; [done|]); [by left| |by left|]; right; exists q; (split; [done|]); by apply (IH q (Hc p q Hp Hq)).
Qed.

Lemma good_frame st st' own r D : good st own r D -> (next st <= next st')%nat -> (forall p, own p -> agree st st' p) -> good st' own r D.
Proof.
  intros [] Hn Ha. split; try done.
  - intros p q Hp. destruct (Ha p Hp) as [-> _]. by apply g_follow0.
  - intros p Hp. pose proof (g_next0 p Hp). lia.
  - intros p Hp. destruct (Ha p Hp) as [_ ->]. by apply g_kind0.
  - intros p Hp. destruct (Ha p Hp) as [-> _]. by apply g_dfollow0.
  - intros w. rewrite g_lang0. unfold lang.
    assert (HA : forall p, own p -> reads st' (lasts r) p w <-> reads st (lasts r) p w) by (by apply reads_agree).
    split; (intros [?|(p & Hp & H)]; [by left|]); right; exists p; (split; [done|]); apply HA; auto.
Qed.

Lemma good_iff st own r D D' : good st own r D -> (forall w, D' w <-> D w) -> good st own r D'.
Proof. intros [] H. split; try done. intros w. by rewrite H. Qed.

Lemma fold_follow (g : list nat -> list nat) : forall ls st, base.NoDup ls ->
  let st' := fold_left (fun st node => set_follow st node (g (follow st node))) ls st in
  next st' = next st /\ (forall p, kind_of st' p = kind_of st p) /\
  (forall p, p ∈ ls -> follow st' p = g (follow st p)) /\ (forall p, p ∉ ls -> follow st' p = follow st p).
Proof.
  induction ls as [|n ls IH]; intros st Hd; cbn; [split_and!; try done; by intros p ?%elem_of_nil|].
  apply NoDup_cons in Hd as [Hn Hd]. destruct (IH (set_follow st n (g (follow st n))) Hd) as (I1 & I2 & I3 & I4).
  split_and!; [done|done| |].
  - intros p [->|Hp]%elem_of_cons; [rewrite I4 by done; cbn; by rewrite decide_True by done|]. rewrite I3 by done. cbn.
    rewrite decide_False by (intros ->; done). done.
  - intros p Hp. rewrite not_elem_of_cons in Hp. destruct Hp. rewrite I4 by done. cbn. by rewrite decide_False by done.
Qed.

Ltac gd H := solve [ eapply (g_first _ _ _ _ H); done | eapply (g_last _ _ _ _ H); done | eapply (g_next _ _ _ _ H); done
  | eapply (g_kind _ _ _ _ H); done | apply (g_dfirst _ _ _ _ H) | apply (g_dlast _ _ _ _ H) | eapply (g_dfollow _ _ _ _ H); done
  | apply (g_follow _ _ _ _ H) | apply (g_first _ _ _ _ H) | apply (g_last _ _ _ _ H)
  | eapply (g_dfollow _ _ _ _ H); eapply (g_last _ _ _ _ H); done ].

(** ** Leaves *)

Definition leaf_lang (set : Z -> bool) (w : list Z) : Prop := exists c, w = [c] /\ set c = true.

Lemma leaf_good st set : let '(st', r) := make_leaf st (Reads set) in
  good st' (fun p => p = next st) r (leaf_lang set) /\ next st' = S (next st) /\ (forall p, p <> next st -> agree st st' p).
Proof.
  cbn. split; [|split; [done|]].
  2:{ intros p Hp. split; cbn; by rewrite decide_False by done. }
  split; cbn.
  - by intros p ->%elem_of_list_singleton.
  - by intros p ->%elem_of_list_singleton.
  - intros p q ->. rewrite decide_True by done. by intros ?%elem_of_nil.
  - intros p ->. lia.
  - intros p ->. by rewrite decide_True by done.
  - apply NoDup_singleton.
  - apply NoDup_singleton.
  - intros p ->. rewrite decide_True by done. constructor.
  - intros w. unfold lang, leaf_lang. cbn [nullable firsts lasts]. split.
    + intros (c & -> & Hc). right. exists (next st). split; [by left|]. cbn. rewrite decide_True by done.
      split; [by exists set|]. left. split; [done|by left].
    + intros [[? ?]|(p & ->%elem_of_list_singleton & H)]; [done|]. destruct w as [|c w]; [done|]. cbn in H. rewrite !decide_True in H by done.
      destruct H as [(s & [= <-] & Hs) [[-> _]|(q & []%elem_of_nil & _)]]. by exists c.
Qed.

(** ** Concatenation *)

Definition cat (D E : list Z -> Prop) (w : list Z) : Prop := exists u v, w = u ++ v /\ D u /\ E v.

Lemma concatenation_good st ownh h Dh ownt t Dt : good st ownh h Dh -> good st ownt t Dt -> (forall p, ownh p -> ownt p -> False) ->
  let '(st', r) := make_concatenation st h t in
  good st' (fun p => ownh p \/ ownt p) r (cat Dh Dt) /\ next st' = next st /\ (forall p, ~ ownh p -> agree st st' p).
Proof.
  intros Gh Gt Hdis. unfold make_concatenation. destruct (fold_follow (fun f => f ++ firsts t) (lasts h) st (g_dlast _ _ _ _ Gh)) as (F1 & F2 & F3 & F4).
  set (st' := fold_left _ _ _) in *. set (r := Regex _ _ _).
  assert (Hlast : forall p, p ∈ lasts r <-> p ∈ lasts t \/ p ∈ lasts h /\ nullable t = true).
  { intros p. cbn. destruct (nullable t); [rewrite elem_of_app|]; naive_solver. }
  assert (Hfirst : forall p, p ∈ firsts r <-> p ∈ firsts h \/ p ∈ firsts t /\ nullable h = true).
  { intros p. cbn. destruct (nullable h); [rewrite elem_of_app|]; naive_solver. }
  assert (HA : forall w p, ownt p -> reads st' (lasts r) p w <-> reads st (lasts t) p w).
  { apply reads_agree.
    - gd Gt.
    - intros p Hp. split; [apply F4|apply F2]. intros Hl. apply (Hdis p); [gd Gh|done].
    - intros p Hp. rewrite Hlast. split; [|by left]. intros [?|[Hl _]]; [done|]. exfalso. apply (Hdis p); [gd Gh|done]. }
  assert (HB : forall w p, ownh p -> reads st' (lasts r) p w <-> exists w1 w2, w = w1 ++ w2 /\ reads st (lasts h) p w1 /\ lang st t w2).
  { induction w as [|c w IH]; intros p Hp.
    { cbn. split; [done|]. intros (w1 & w2 & Hw & Hr & _). by destruct w1. }
    cbn [reads]. rewrite F2. split.
    - intros [Hk [[-> Hl]|(q & Hq & Hr)]].
      + exists [c], []. split; [done|]. apply Hlast in Hl as [Hl|[Hl Hn]]; [exfalso; apply (Hdis p); [done|gd Gt]|].
        split; [|by left]. cbn. split; [done|]. by left.
      + assert (q ∈ follow st p \/ (p ∈ lasts h /\ q ∈ firsts t)) as [Hq'|[Hl Hq']].
        { destruct (decide (p ∈ lasts h)) as [Hl|Hl]; [rewrite F3, elem_of_app in Hq by done; naive_solver|rewrite F4 in Hq by done; by left]. }
        * apply IH in Hr as (w1 & w2 & -> & Hr & Ht); [|by apply (g_follow _ _ _ _ Gh p)]. exists (c :: w1), w2. split; [done|]. split; [|done].
          cbn. split; [done|]. right. by exists q.
        * exists [c], w. split; [done|]. split; [cbn; split; [done|by left]|]. right. exists q. split; [done|]. apply HA; [gd Gt|done].
    - intros (w1 & w2 & Hw & Hr & Ht). destruct w1 as [|c' w1]; [done|]. injection Hw as <- ->. cbn in Hr. destruct Hr as [Hk Hr]. split; [done|].
      destruct Hr as [[-> Hl]|(q & Hq & Hr)].
      + cbn. destruct Ht as [[Hn ->]|(q & Hq & Hr)].
        * left. split; [done|]. apply Hlast. by right.
        * right. exists q. split; [rewrite F3 by done; apply elem_of_app; by right|]. apply HA; [gd Gt|done].
      + right. exists q. split.
        * destruct (decide (p ∈ lasts h)) as [Hl|Hl]; [rewrite F3 by done; apply elem_of_app; by left|by rewrite F4].
        * apply IH; [by apply (g_follow _ _ _ _ Gh p)|]. by exists w1, w2. }
  split; [|split; [done|]].
  2:{ intros p Hp. split; [apply F4|apply F2]. intros Hl. apply Hp. gd Gh. }
  split.
  - intros p [Hp|[Hp _]]%Hfirst; [left; gd Gh|right; gd Gt].
  - intros p [Hp|[Hp _]]%Hlast; [right; gd Gt|left; gd Gh].
  - intros p q Hp Hq. destruct (decide (p ∈ lasts h)) as [Hl|Hl].
    + rewrite F3 in Hq by done. apply elem_of_app in Hq as [Hq|Hq]; [|right; gd Gt]. left. apply (g_follow _ _ _ _ Gh p); [gd Gh|done].
    + rewrite F4 in Hq by done. destruct Hp as [Hp|Hp]; [left; by apply (g_follow _ _ _ _ Gh p)|right; by apply (g_follow _ _ _ _ Gt p)].
  - intros p [Hp|Hp]; rewrite F1; [gd Gh|gd Gt].
  - intros p [Hp|Hp]; rewrite F2; [gd Gh|gd Gt].
  - cbn. destruct (nullable h); [|gd Gh]. apply NoDup_app. split_and!; [gd Gh| |gd Gt].
    intros x Hx Hx'. apply (Hdis x); [gd Gh|gd Gt].
  - cbn. destruct (nullable t); [|gd Gt]. apply NoDup_app. split_and!; [gd Gh| |gd Gt].
    intros x Hx Hx'. apply (Hdis x); [gd Gh|gd Gt].
  - intros p Hp. destruct (decide (p ∈ lasts h)) as [Hl|Hl].
    + rewrite F3 by done. apply NoDup_app. assert (ownh p) as Hp' by (gd Gh). split_and!; [gd Gh| |gd Gt].
      intros x Hx Hx'. apply (Hdis x); [by apply (g_follow _ _ _ _ Gh p)|gd Gt].
    + rewrite F4 by done. destruct Hp; [gd Gh|gd Gt].
  - intros w. unfold cat. unfold lang at 1. split.
    + intros (u & v & -> & Hu%(g_lang _ _ _ _ Gh) & Hv%(g_lang _ _ _ _ Gt)). destruct Hu as [[Hn ->]|(p & Hp & Hr)].
      * cbn. destruct Hv as [[Hn' ->]|(p & Hp & Hr)]; [left; split; [by rewrite Hn, Hn'|done]|]. right. exists p. split; [apply Hfirst; by right|].
        apply HA; [gd Gt|done].
      * right. exists p. split; [apply Hfirst; by left|]. apply HB; [gd Gh|]. by exists u, v.
    + intros [[Hn ->]|(p & [Hp|[Hp Hn]]%Hfirst & Hr)].
      * cbn in Hn. apply andb_true_iff in Hn as [? ?]. exists [], []. split; [done|]. split; [apply Gh; by left|apply Gt; by left].
      * apply HB in Hr as (w1 & w2 & -> & Hr & Ht); [|gd Gh]. exists w1, w2. split; [done|]. split; [|by apply (g_lang _ _ _ _ Gt)]. apply Gh. right. by exists p.
      * apply HA in Hr; [|gd Gt]. exists [], w. split; [done|]. split; [apply Gh; by left|]. apply Gt. right. by exists p.
Qed.

(** ** Union *)

Lemma union_good st own1 r1 D1 own2 r2 D2 : good st own1 r1 D1 -> good st own2 r2 D2 -> (forall p, own1 p -> own2 p -> False) ->
  good st (fun p => own1 p \/ own2 p) (make_union r1 r2) (fun w => D1 w \/ D2 w).
Proof.
  intros G1 G2 Hdis. set (r := make_union r1 r2).
  assert (HA : forall w p, own1 p -> reads st (lasts r) p w <-> reads st (lasts r1) p w).
  { apply reads_agree; [gd G1|done|]. intros p Hp. cbn. rewrite elem_of_app. split; [|by left]. intros [?|Hl]; [done|]. exfalso. apply (Hdis p); [done|gd G2]. }
  assert (HB : forall w p, own2 p -> reads st (lasts r) p w <-> reads st (lasts r2) p w).
  { apply reads_agree; [gd G2|done|]. intros p Hp. cbn. rewrite elem_of_app. split; [|by right]. intros [Hl|?]; [|done]. exfalso. apply (Hdis p); [gd G1|done]. }
  split.
  - cbn. intros p [Hp|Hp]%elem_of_app; [left; gd G1|right; gd G2].
  - cbn. intros p [Hp|Hp]%elem_of_app; [left; gd G1|right; gd G2].
  - intros p q [Hp|Hp] Hq; [left; by apply (g_follow _ _ _ _ G1 p)|right; by apply (g_follow _ _ _ _ G2 p)].
  - intros p [Hp|Hp]; [gd G1|gd G2].
  - intros p [Hp|Hp]; [gd G1|gd G2].
  - cbn. apply NoDup_app. split_and!; [gd G1| |gd G2]. intros x Hx Hx'. apply (Hdis x); [gd G1|gd G2].
  - cbn. apply NoDup_app. split_and!; [gd G1| |gd G2]. intros x Hx Hx'. apply (Hdis x); [gd G1|gd G2].
  - intros p [Hp|Hp]; [gd G1|gd G2].
  - intros w. rewrite (g_lang _ _ _ _ G1), (g_lang _ _ _ _ G2). unfold lang. split.
    + intros [[[Hn ->]|(p & Hp & Hr)]|[[Hn ->]|(p & Hp & Hr)]].
      * left. cbn. by rewrite Hn.
      * right. exists p. split; [cbn; apply elem_of_app; by left|]. apply HA; [gd G1|done].
      * left. cbn. by rewrite Hn, orb_true_r.
      * right. exists p. split; [cbn; apply elem_of_app; by right|]. apply HB; [gd G2|done].
    + intros [[Hn ->]|(p & Hp & Hr)].
      * cbn in Hn. apply orb_true_iff in Hn as [?|?]; [left|right]; by left.
      * cbn in Hp. apply elem_of_app in Hp as [Hp|Hp].
        -- left. right. exists p. split; [done|]. apply HA; [gd G1|done].
        -- right. right. exists p. split; [done|]. apply HB; [gd G2|done].
Qed.

(** ** Closure *)

Inductive star (D : list Z -> Prop) : list Z -> Prop :=
| star_nil : star D []
| star_app v w : D v -> star D w -> star D (v ++ w).

Lemma star_inv D w : star D w -> w = [] \/ exists v u, w = v ++ u /\ v <> [] /\ D v /\ star D u.
Proof.
  induction 1 as [|v w Hv Hw IH]; [by left|]. destruct v as [|c v]; [exact IH|]. right. by exists (c :: v), w.
Qed.

Lemma closure_good st own r0 D : good st own r0 D ->
  let '(st', r) := make_closure st r0 in
  good st' own r (star D) /\ next st' = next st /\ (forall p, ~ own p -> agree st st' p).
Proof.
  intros G. unfold make_closure. destruct (fold_follow (fun f => union_positions f (firsts r0)) (lasts r0) st (g_dlast _ _ _ _ G)) as (F1 & F2 & F3 & F4).
  set (st' := fold_left _ _ _) in *. set (r := Regex _ _ _).
  assert (Hfol : forall p q, q ∈ follow st' p <-> q ∈ follow st p \/ p ∈ lasts r0 /\ q ∈ firsts r0).
  { intros p q. destruct (decide (p ∈ lasts r0)) as [Hl|Hl]; [rewrite F3, elem_union by done|rewrite F4 by done]; naive_solver. }
  assert (HC : forall w p, own p -> reads st' (lasts r) p w <-> exists w1 w2, w = w1 ++ w2 /\ reads st (lasts r0) p w1 /\ star D w2).
  { induction w as [|c w IH]; intros p Hp.
    { cbn. split; [done|]. intros (w1 & w2 & Hw & Hr & _). by destruct w1. }
    cbn [reads]. rewrite F2. split.
    - intros [Hk [[-> Hl]|(q & [Hq|[Hl Hq]]%Hfol & Hr)]].
      + exists [c], []. split; [done|]. split; [|constructor]. cbn. split; [done|]. by left.
      + apply IH in Hr as (w1 & w2 & -> & Hr & Ht); [|by apply (g_follow _ _ _ _ G p)]. exists (c :: w1), w2. split; [done|]. split; [|done].
        cbn. split; [done|]. right. by exists q.
      + apply IH in Hr as (w1 & w2 & -> & Hr & Ht); [|gd G]. exists [c], (w1 ++ w2). split; [done|]. split; [cbn; split; [done|by left]|].
        constructor; [|done]. apply G. right. by exists q.
    - intros (w1 & w2 & Hw & Hr & Ht). destruct w1 as [|c' w1]; [done|]. injection Hw as <- ->. cbn in Hr. destruct Hr as [Hk Hr]. split; [done|].
      destruct Hr as [[-> Hl]|(q & Hq & Hr)].
      + cbn in *. destruct (star_inv _ _ Ht) as [->|(v & u & -> & Hv & HD & Hu)]; [by left|].
        apply (g_lang _ _ _ _ G) in HD as [[_ ->]|(q & Hq & Hr)]; [done|]. right. exists q. split; [apply Hfol; by right|].
        apply IH; [gd G|]. by exists v, u.
      + right. exists q. split; [apply Hfol; by left|]. apply IH; [by apply (g_follow _ _ _ _ G p)|]. by exists w1, w2. }
  split; [|split; [done|]].
  2:{ intros p Hp. split; [apply F4|apply F2]. intros Hl. apply Hp. gd G. }
  split.
  - gd G.
  - gd G.
  - intros p q Hp [Hq|[_ Hq]]%Hfol; [by apply (g_follow _ _ _ _ G p)|gd G].
  - intros p Hp. rewrite F1. gd G.
  - intros p Hp. rewrite F2. gd G.
  - gd G.
  - gd G.
  - intros p Hp. destruct (decide (p ∈ lasts r0)) as [Hl|Hl]; [rewrite F3 by done; apply NoDup_union; gd G|rewrite F4 by done; gd G].
  - intros w. unfold lang. split.
    + intros Hs. destruct (star_inv _ _ Hs) as [->|(v & u & -> & Hv & HD & Hu)]; [by left|].
      apply (g_lang _ _ _ _ G) in HD as [[_ ->]|(q & Hq & Hr)]; [done|]. right. exists q. split; [done|]. apply HC; [gd G|]. by exists v, u.
    + intros [[_ ->]|(p & Hp & Hr)]; [constructor|]. apply HC in Hr as (w1 & w2 & -> & Hr & Hs); [|gd G].
      constructor; [|done]. apply G. right. by exists p.
Qed.
