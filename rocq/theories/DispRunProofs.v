(** The invariant of a dispatch engine, and running it. *)
From stdpp Require Import list_numbers.
From Verif Require Import Base ClassModel ClassSpec ClassProofs TypeModel TypeSpec TypeProofs
  DispModel DispSpec DispProofs DispSortProofs DispTermProofs DispUniformProofs DispClassProofs DispEngineProofs.
From Coq Require Import ZifyBool ZifyNat.
Local Open Scope outcome_scope.
Local Open Scope nat_scope.

Section gf.
Context (W : world) (HW : wf_world W) (g : gfun) (PG : plain_gf W g).
Local Notation n := (g_nreq g).
Local Notation MS := (g_methods g).
Local Notation rem := (rem W g).
Local Notation uniform := (uniform W g).
Local Notation okr := (okr W g).
Local Notation region := (list obj -> Prop).

(** The methods that apply, as the engine sees them, and their terminal. *)
Definition term (a : list obj) : outcome (option terminal * list warning) :=
  compute_terminal W g (rem (seq 0 n) a) a.

Fixpoint Inv (R : region) (S : list nat) (e : engine) : Prop :=
  match e with
  | EAbsent => uniform R S
  | EInapplicable => forall a, R a -> rem (seq 0 n) a = []
  | ETerminal t => forall a, R a -> exists ws, term a = Val (Some t, ws)
  | EByClass i f => i < n /\ uniform R S /\
      forall c, f c = EAbsent \/ Inv (fun a => R a /\ class_of W (ag a i) = c) (i :: S) (f c)
  | EBySingletonClass i f => i < n /\ (forall a, R a -> exists d, ag a i = OClass d) /\
      forall d, Inv (fun a => R a /\ ag a i = OClass d) (i :: S) (f d)
  | EIfType i t e1 e2 => i < n /\ wf_ty W t /\
      Inv (fun a => R a /\ instb W (ag a i) t = true) (i :: S) e1 /\
      Inv (fun a => R a /\ instb W (ag a i) t = false) (i :: S) e2
  | ETypecheck i t e1 => i < n /\ wf_ty W t /\
      Inv (fun a => R a /\ instb W (ag a i) t = true) (i :: S) e1 /\
      forall a, R a -> instb W (ag a i) t = false -> rem (seq 0 n) a = []
  | ESingleton i vo keys index f d => i < n /\ index < length keys /\
      (forall k, k ∈ keys -> simple_obj W k /\
         forall a, R a -> key_hit W vo k (ag a i) = true <-> same_object W (ag a i) k) /\
      (forall j k, keys !! j = Some k -> Inv (fun a => R a /\ key_hit W vo k (ag a i) = true) (i :: S) (f j)) /\
      Inv (fun a => R a /\ forall k, k ∈ keys -> key_hit W vo k (ag a i) = false) (i :: S) d
  end.

Lemma Inv_mono e : forall (R R' : region) S, (forall a, R' a -> R a) -> Inv R S e -> Inv R' S e.
Proof.
  induction e as [| |t|i f IH|i f IH|i t e1 IH1 e2 IH2|i t e1 IH|i vo keys index f IH d IHd]; cbn [Inv]; intros R R' S HR.
  - by apply uniform_mono.
  - auto.
  - auto.
  - intros (Hi & Hu & H). split; [done|]. split; [by eapply uniform_mono|]. intros c. destruct (H c) as [?|Hc]; [by left|].
    right. eapply IH; [|exact Hc]. cbn. intros a [? ?]. auto.
  - intros (Hi & Hc & H). split; [done|]. split; [auto|]. intros d. eapply IH; [|apply H]. cbn. intros a [? ?]. auto.
  - intros (Hi & Ht & H1 & H2). split; [done|]. split; [done|].
    split; [eapply IH1; [|exact H1]|eapply IH2; [|exact H2]]; cbn; intros a [? ?]; auto.
  - intros (Hi & Ht & H1 & H2). split; [done|]. split; [done|]. split; [|auto]. eapply IH; [|exact H1]. cbn; intros a [? ?]; auto.
  - intros (Hi & Hx & Hk & H1 & H2). split; [done|]. split; [done|]. split; [|split].
    + intros k Hkk. destruct (Hk k Hkk) as [? ?]. split; [done|]. auto.
    + intros j k Hj. eapply IH; [|apply (H1 j k Hj)]. cbn; intros a [? ?]; auto.
    + eapply IHd; [|exact H2]. cbn; intros a [? ?]; auto.
Qed.
Lemma Inv_ext e : forall (R : region) S S', (forall i, i ∈ S <-> i ∈ S') -> Inv R S e -> Inv R S' e.
Proof.
  induction e as [| |t|i f IH|i f IH|i t e1 IH1 e2 IH2|i t e1 IH|i vo keys index f IH d IHd]; cbn [Inv]; intros R S S' HS;
    try assert (HS' : forall j, j ∈ i :: S <-> j ∈ i :: S') by (intros j; rewrite !elem_of_cons, HS; done).
  - by apply uniform_ext.
  - done.
  - done.
  - intros (Hi & Hu & H). split; [done|]. split; [by eapply uniform_ext|]. intros c. destruct (H c) as [?|Hc]; [by left|].
    right. by eapply IH.
  - intros (Hi & Hc & H). split; [done|]. split; [auto|]. intros d. by eapply IH.
  - intros (Hi & Ht & H1 & H2). split; [done|]. split; [done|]. split; eauto.
  - intros (Hi & Ht & H1 & H2). split; [done|]. split; [done|]. split; eauto.
  - intros (Hi & Hx & Hk & H1 & H2). split; [done|]. split; [done|]. split; [done|]. split; eauto.
Qed.

(** ** Looking for a singleton *)

Lemma singleton_loop_ok vo keys x : forall fuel i, i < length keys ->
  exists r, singleton_loop fuel W vo keys i x = Val r /\
    match r with
    | Some j => exists k, keys !! j = Some k /\ key_hit W vo k x = true
    | None => forall j, j < fuel -> forall k, keys !! ((i + j) mod length keys) = Some k -> key_hit W vo k x = false
    end.
Proof.
  induction fuel as [|fuel IH]; intros i Hi; cbn [singleton_loop].
  - exists None. split; [done|]. lia.
  - destruct (lookup_lt_is_Some_2 keys i Hi) as [k Hk]. unfold vread. rewrite Hk. cbn [obind].
    destruct (key_hit W vo k x) eqn:E; [exists (Some i); eauto|].
    set (i' := if S i =? length keys then 0 else S i).
    assert (Hi' : i' < length keys) by (subst i'; destruct (Nat.eqb_spec (S i) (length keys)); lia).
    destruct (IH i' Hi') as (r & -> & Hr). exists r. split; [done|]. destruct r as [j|]; [done|].
    intros [|j] Hj k' Hk'.
    + rewrite Nat.add_0_r, Nat.mod_small in Hk' by done. congruence.
    + apply (Hr j); [lia|]. rewrite <- Hk'. f_equal. subst i'. destruct (Nat.eqb_spec (S i) (length keys)) as [El|El].
      * replace (i + S j) with (0 + j + 1 * length keys) by lia. by rewrite Nat.mod_add by lia.
      * f_equal. lia.
Qed.
Lemma singleton_lookup_ok vo keys index x : index < length keys ->
  exists r, singleton_lookup W vo keys index x = Val r /\
    match r with
    | Some j => exists k, keys !! j = Some k /\ key_hit W vo k x = true
    | None => forall k, k ∈ keys -> key_hit W vo k x = false
    end.
Proof.
  intros Hi. destruct (singleton_loop_ok vo keys x (length keys) index Hi) as (r & Hr & H). exists r. split; [done|].
  destruct r as [j|]; [done|]. intros k [p Hp]%elem_of_list_lookup.
  assert (Hl : p < length keys) by (by eapply lookup_lt_Some).
  destruct (decide (index <= p)).
  - apply (H (p - index)); [lia|]. replace (index + (p - index)) with p by lia. by rewrite Nat.mod_small.
  - apply (H (p + length keys - index)); [lia|].
    replace (index + (p + length keys - index)) with (p + 1 * length keys) by lia. by rewrite Nat.mod_add, Nat.mod_small by lia.
Qed.
Lemma singleton_lookup_hit vo keys j k x : keys !! j = Some k -> key_hit W vo k x = true ->
  singleton_lookup W vo keys j x = Val (Some j).
Proof.
  intros Hk Hh. unfold singleton_lookup. destruct (length keys) as [|l] eqn:E.
  - apply nil_length_inv in E as ->. done.
  - cbn [singleton_loop]. unfold vread. rewrite Hk. cbn [obind]. by rewrite Hh.
Qed.
Lemma singleton_lookup_miss vo keys j x : j < length keys -> (forall k, k ∈ keys -> key_hit W vo k x = false) ->
  singleton_lookup W vo keys j x = Val None.
Proof.
  intros Hj H. destruct (singleton_lookup_ok vo keys j x Hj) as ([p|] & -> & Hr); [|done].
  destruct Hr as (k & Hk & Hh). rewrite H in Hh; [done|]. by eapply elem_of_list_lookup_2.
Qed.

(** ** Running *)

Definition lands (a : list obj) (r : landing) : Prop :=
  match r with
  | Hit t => exists ws, term a = Val (Some t, ws)
  | Inapplicable => rem (seq 0 n) a = []
  | Miss => True
  end.

Lemma okr_and R P : okr R -> okr (fun a => R a /\ P a).
Proof. intros H a [? _]. auto. Qed.

Lemma fupdate_eq {A} (f : nat -> A) k v : fupdate f k v k = v.
Proof. unfold fupdate. by rewrite Nat.eqb_refl. Qed.
Lemma fupdate_ne {A} (f : nat -> A) k v j : j <> k -> fupdate f k v j = f j.
Proof. intros H. unfold fupdate. destruct (Nat.eqb_spec j k); [done|done]. Qed.

Lemma run_engine_ok a e : forall R S, okr R -> R a -> Inv R S e ->
  exists r e', run_engine W a e = Val (r, e') /\ Inv R S e' /\ lands a r /\ (e = EAbsent -> e' = EAbsent) /\
    exists e'', run_engine W a e' = Val (r, e'').
Proof.
  induction e as [| |t|i f IH|i f IH|i t e1 IH1 e2 IH2|i t e1 IH|i vo keys index f IH d IHd]; cbn [Inv]; intros R S Hok Ha HI.
  - exists Miss, EAbsent. cbn. eauto 10.
  - exists Inapplicable, EInapplicable. cbn. eauto 10.
  - exists (Hit t), (ETerminal t). cbn. split; [done|]. split; [done|]. split; [auto|]. split; [done|]. eauto.
  - destruct HI as (Hi & Hu & Hf). cbn [run_engine]. rewrite (arg_at_ok W g a i) by auto. cbn [obind].
    set (c := class_of W (ag a i)).
    set (R' := fun a => R a /\ class_of W (ag a i) = c).
    assert (Hok' : okr R') by (intros a' [? ?]; auto).
    destruct (Hf c) as [E|Hc].
    + rewrite E. cbn [run_engine obind]. eexists _, _. split; [reflexivity|].
      split.
      { cbn [Inv]. split; [done|]. split; [done|]. intros c'. unfold fupdate. destruct (c' =? c); auto. }
      split; [done|]. split; [done|]. cbn [run_engine]. rewrite (arg_at_ok W g a i) by auto. cbn [obind]. fold c.
      rewrite fupdate_eq. cbn. eauto.
    + destruct (IH c R' (i :: S) Hok' (conj Ha eq_refl) Hc) as (r & e' & -> & He' & Hl & Habs & e'' & Hr).
      cbn [obind]. eexists _, _. split; [reflexivity|]. split; [|split; [done|split; [done|]]].
      * cbn [Inv]. split; [done|]. split; [done|]. intros c'. destruct (decide (c' = c)) as [->|Hne].
        -- right. rewrite fupdate_eq. done.
        -- rewrite fupdate_ne by done. apply Hf.
      * cbn [run_engine]. rewrite (arg_at_ok W g a i) by auto. cbn [obind]. fold c. rewrite fupdate_eq, Hr. cbn. eauto.
  - destruct HI as (Hi & Hd & Hf). cbn [run_engine]. rewrite (arg_at_ok W g a i) by auto. cbn [obind].
    destruct (Hd a Ha) as [d E]. rewrite E.
    set (R' := fun a => R a /\ ag a i = OClass d).
    assert (Hok' : okr R') by (intros a' [? ?]; auto).
    destruct (IH d R' (i :: S) Hok' (conj Ha E) (Hf d)) as (r & e' & -> & He' & Hl & Habs & e'' & Hr).
    cbn [obind]. eexists _, _. split; [reflexivity|]. split; [|split; [done|split; [done|]]].
    + cbn [Inv]. split; [done|]. split; [done|]. intros d'. destruct (decide (d' = d)) as [->|Hne].
      * rewrite fupdate_eq. done.
      * rewrite fupdate_ne by done. apply Hf.
    + cbn [run_engine]. rewrite (arg_at_ok W g a i) by auto. cbn [obind]. rewrite E, fupdate_eq, Hr. cbn. eauto.
  - destruct HI as (Hi & Ht & H1 & H2). cbn [run_engine]. rewrite (arg_at_ok W g a i) by auto. cbn [obind].
    rewrite (instance_b W HW) by (auto; by apply (ag_wf W g); auto). cbn [obind].
    destruct (instb W (ag a i) t) eqn:E.
    + edestruct (IH1 _ (i :: S) (okr_and R _ Hok) (conj Ha E) H1) as (r & e' & -> & He' & Hl & Habs & e'' & Hr).
      cbn [obind]. eexists _, _. split; [reflexivity|]. split; [|split; [done|split; [done|]]].
      * cbn [Inv]. auto.
      * cbn [run_engine]. rewrite (arg_at_ok W g a i) by auto. cbn [obind].
        rewrite (instance_b W HW) by (auto; by apply (ag_wf W g); auto). cbn [obind]. rewrite E, Hr. cbn. eauto.
    + edestruct (IH2 _ (i :: S) (okr_and R _ Hok) (conj Ha E) H2) as (r & e' & -> & He' & Hl & Habs & e'' & Hr).
      cbn [obind]. eexists _, _. split; [reflexivity|]. split; [|split; [done|split; [done|]]].
      * cbn [Inv]. auto.
      * cbn [run_engine]. rewrite (arg_at_ok W g a i) by auto. cbn [obind].
        rewrite (instance_b W HW) by (auto; by apply (ag_wf W g); auto). cbn [obind]. rewrite E, Hr. cbn. eauto.
  - destruct HI as (Hi & Ht & H1 & H2). cbn [run_engine]. rewrite (arg_at_ok W g a i) by auto. cbn [obind].
    rewrite (instance_b W HW) by (auto; by apply (ag_wf W g); auto). cbn [obind].
    destruct (instb W (ag a i) t) eqn:E.
    + edestruct (IH _ (i :: S) (okr_and R _ Hok) (conj Ha E) H1) as (r & e' & -> & He' & Hl & Habs & e'' & Hr).
      cbn [obind]. eexists _, _. split; [reflexivity|]. split; [|split; [done|split; [done|]]].
      * cbn [Inv]. auto.
      * cbn [run_engine]. rewrite (arg_at_ok W g a i) by auto. cbn [obind].
        rewrite (instance_b W HW) by (auto; by apply (ag_wf W g); auto). cbn [obind]. rewrite E, Hr. cbn. eauto.
    + eexists _, _. split; [reflexivity|]. split; [cbn [Inv]; auto|]. split; [cbn; auto|]. split; [done|].
      cbn [run_engine]. rewrite (arg_at_ok W g a i) by auto. cbn [obind].
      rewrite (instance_b W HW) by (auto; by apply (ag_wf W g); auto). cbn [obind]. rewrite E. eauto.
  - destruct HI as (Hi & Hx & Hk & H1 & H2). cbn [run_engine]. rewrite (arg_at_ok W g a i) by auto. cbn [obind].
    destruct (singleton_lookup_ok vo keys index (ag a i) Hx) as ([j|] & -> & Hr); cbn [obind].
    + destruct Hr as (k & Hkj & Hh).
      edestruct (IH j _ (i :: S) (okr_and R _ Hok) (conj Ha Hh) (H1 j k Hkj)) as (r & e' & -> & He' & Hl & Habs & e'' & Hr).
      cbn [obind]. eexists _, _. split; [reflexivity|]. split; [|split; [done|split; [done|]]].
      * cbn [Inv]. split; [done|]. split; [by eapply lookup_lt_Some|]. split; [done|]. split; [|done].
        intros j' k' Hj'. destruct (decide (j' = j)) as [->|Hne].
        -- rewrite fupdate_eq. assert (k' = k) as -> by congruence. done.
        -- rewrite fupdate_ne by done. by apply H1.
      * cbn [run_engine]. rewrite (arg_at_ok W g a i) by auto. cbn [obind].
        rewrite (singleton_lookup_hit vo keys j k) by done. cbn [obind]. rewrite fupdate_eq, Hr. cbn. eauto.
    + edestruct (IHd _ (i :: S) (okr_and R _ Hok) (conj Ha Hr) H2) as (r & e' & -> & He' & Hl & Habs & e'' & Hr').
      cbn [obind]. eexists _, _. split; [reflexivity|]. split; [|split; [done|split; [done|]]].
      * cbn [Inv]. auto.
      * cbn [run_engine]. rewrite (arg_at_ok W g a i) by auto. cbn [obind].
        rewrite singleton_lookup_miss by done. cbn [obind]. rewrite Hr'. cbn. eauto.
Qed.
End gf.
