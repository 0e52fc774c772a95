(** Properties of byte vectors (C63). *)
From Coq Require Import ZifyBool ZifyNat ZifyN Lia.
From Verif Require Import Base IntModel IntProofs NumStrModel NumStrSpec NumStrProofs ByteModel ByteSpec ByteProofs.
Local Open Scope Z_scope.
Local Open Scope outcome_scope.

(** *** byte-vector-fill *)
(** The bytes from start to end, and also the one at end, become the value. *)
Theorem C63_fill_partial v value start stop : Z.of_nat (length v) < 2 ^ 60 -> 0 <= start <= stop -> stop < Z.of_nat (length v) ->
  exists v', byte_vector_fill v value start (Some stop) = Val v' /\ changed v v' start (stop + 1) (fun _ => Some (value mod 256)).
Proof. apply fill_spec. Qed.
Print Assumptions C63_fill_partial.

Theorem C63_fill_error v value start stop : let n := Z.of_nat (length v) in
  start < 0 \/ n < default n stop \/ default n stop < start -> exists msg, byte_vector_fill v value start stop = Signal msg.
Proof. apply fill_error. Qed.
Print Assumptions C63_fill_error.

(** The documentation says that end is the index before which to stop: for every vector and every range this does not
    hold of a byte that the call should have left alone ... *)
Theorem C63_fill_refuted v value start stop : Z.of_nat (length v) < 2 ^ 60 -> 0 <= start <= stop -> stop < Z.of_nat (length v) ->
  v !! Z.to_nat stop <> Some (value mod 256) ->
  exists v', byte_vector_fill v value start (Some stop) = Val v' /\ ~ changed v v' start stop (fun _ => Some (value mod 256)).
Proof.
  intros Hl Hs Hst Hne. destruct (fill_spec v value start stop Hl Hs Hst) as (v' & E & _ & C). exists v'. split; [done|].
  intros [_ C']. apply Hne. specialize (C stop ltac:(lia)). specialize (C' stop ltac:(lia)).
  rewrite bool_decide_true in C by lia. rewrite bool_decide_false in C' by lia. congruence.
Qed.
Print Assumptions C63_fill_refuted.

(** ... and filling up to the end, which is the default, always writes behind the vector. *)
Theorem C63_fill_overrun_refuted v value start : Z.of_nat (length v) < 2 ^ 60 -> 0 <= start <= Z.of_nat (length v) ->
  byte_vector_fill v value start None = UB /\ byte_vector_fill v value start (Some (Z.of_nat (length v))) = UB.
Proof. intros H1 H2. pose proof (fill_overrun v value start H1 H2) as E. split; exact E. Qed.
Print Assumptions C63_fill_overrun_refuted.

(** *** copy-bytes *)
Theorem C63_copy same dst ds src ss n : Z.of_nat (length dst) < 2 ^ 60 -> Z.of_nat (length src) < 2 ^ 60 ->
  inside dst ds n -> inside src ss n -> (same = true -> src = dst /\ (ds + n <= ss \/ ss + n <= ds)) ->
  exists dst', copy_bytes same dst ds src ss n = Val dst' /\ changed dst dst' ds (ds + n) (fun i => src !! Z.to_nat (i - ds + ss)).
Proof. apply copy_spec. Qed.
Print Assumptions C63_copy.

Theorem C63_copy_error same dst ds src ss n : ~ (inside dst ds n /\ inside src ss n) ->
  exists msg, copy_bytes same dst ds src ss n = Signal msg.
Proof. apply copy_error. Qed.
Print Assumptions C63_copy_error.

(** Within one vector, overlapping ranges are copied by memcpy, which is undefined. *)
Theorem C63_copy_overlap_refuted dst ds ss n : Z.of_nat (length dst) < 2 ^ 60 ->
  inside dst ds n -> inside dst ss n -> ds < ss + n -> ss < ds + n -> copy_bytes true dst ds dst ss n = UB.
Proof. apply copy_overlap. Qed.
Print Assumptions C63_copy_overlap_refuted.

(** The method on any two sequences, unless the target range lies ahead of an overlapping source range. *)
Theorem C63_copy_general same dst ds src ss n : inside dst ds n -> inside src ss n ->
  (same = true -> src = dst /\ (ds <= ss \/ ss + n <= ds)) ->
  exists dst', copy_bytes_general same dst ds src ss n = Val dst' /\ changed dst dst' ds (ds + n) (fun i => src !! Z.to_nat (i - ds + ss)).
Proof.
  intros Hd Hs Hsame. pose proof Hd as (D1 & D2 & D3). apply copy_loop_spec; [done|done|done|lia|lia|].
  split; [done|]. intros i Hi. rewrite bool_decide_false by lia. done.
Qed.
Print Assumptions C63_copy_general.

(** If it does, what has just been stored is copied again. *)
Theorem C63_copy_smear_refuted : exists dst ds ss n dst', inside dst ds n /\ inside dst ss n /\
  copy_bytes_general true dst ds dst ss n = Val dst' /\ ~ changed dst dst' ds (ds + n) (fun i => dst !! Z.to_nat (i - ds + ss)).
Proof.
  exists [1; 2; 3; 4], 1, 0, 3, [1; 1; 1; 1]. split; [unfold inside; cbn; lia|]. split; [unfold inside; cbn; lia|].
  split; [reflexivity|]. intros [_ C]. specialize (C 2 ltac:(cbn; lia)). discriminate C.
Qed.
Print Assumptions C63_copy_smear_refuted.

(** *** hexstring and from-hexstring *)
Theorem C63_hexstring data : Forall byte data -> exists s, hexstring data = Val s /\ hex_of lower_hex s data.
Proof. apply hexstring_spec. Qed.
Print Assumptions C63_hexstring.

Theorem C63_from_hexstring s bs : hex_of any_hex s bs -> from_hexstring s = Val bs.
Proof. apply from_hexstring_spec. Qed.
Print Assumptions C63_from_hexstring.

Theorem C63_roundtrip data : Forall byte data -> (do s <- hexstring data ; from_hexstring s) = Val data.
Proof. intros H. destruct (hexstring_spec data H) as (s & -> & Hs). cbn [obind]. apply from_hexstring_spec, lower_any, Hs. Qed.
Print Assumptions C63_roundtrip.

Theorem C63_odd s : Nat.odd (length s) = true -> from_hexstring s = Signal "String size must be multiple of 2.".
Proof.
  intros H. unfold from_hexstring. apply Nat.odd_spec in H as [m H]. rewrite H.
  replace (Z.of_nat (2 * m + 1)) with (1 + 2 * Z.of_nat m) by lia. by rewrite Z.odd_add_mul_2.
Qed.
Print Assumptions C63_odd.

(** On any string whatever nothing is read or written out of bounds. *)
Theorem C63_never_ub s : from_hexstring s <> UB /\ from_hexstring s <> NoFuel.
Proof.
  unfold from_hexstring. destruct (Z.odd (Z.of_nat (length s))) eqn:E; [done|].
  apply (from_hex_never_ub (S (length s)) s [] [] (Nat.div (length s) 2)); [lia|done|].
  rewrite <- Z.negb_even in E. apply negb_false_iff, Z.even_spec in E as [m E].
  replace (length s) with (Z.to_nat m * 2)%nat at 2 by lia. rewrite Nat.div_mul by done. lia.
Qed.
Print Assumptions C63_never_ub.

(** A string with characters that are no digits can be taken for bytes instead of being refused. *)
Theorem C63_not_hex_refuted : exists s bs, from_hexstring s = Val bs /\ Forall byte bs /\ forall bs', ~ hex_of any_hex s bs'.
Proof.
  exists [58; 58], [170]. split; [reflexivity|]. split; [repeat constructor; unfold byte; lia|]. intros bs' H. inversion H; subst.
  unfold any_hex, lower_hex in *. lia.
Qed.
Print Assumptions C63_not_hex_refuted.

(** *** Examples *)
Example C63_ex_fill : byte_vector_fill [1; 2; 3; 4; 5] 9 1 (Some 3) = Val [1; 9; 9; 9; 5]. Proof. reflexivity. Qed.
Example C63_ex_copy : copy_bytes false [1; 2; 3; 4] 1 [7; 8; 9] 1 2 = Val [1; 8; 9; 4]. Proof. reflexivity. Qed.
Example C63_ex_copy_error : copy_bytes false [1; 2; 3; 4] 3 [7; 8; 9] 1 2 = Signal "SRC-START DST-START AND N OUTSIDE OF SRC AND DST". Proof. reflexivity. Qed.
Example C63_ex_general : copy_bytes_general true [1; 2; 3; 4] 0 [1; 2; 3; 4] 1 3 = Val [2; 3; 4; 4]. Proof. reflexivity. Qed.
Example C63_ex_hex : hexstring [222; 173; 0; 15] = Val (codes "dead000f"). Proof. reflexivity. Qed.
Example C63_ex_from : from_hexstring (codes "DEad000F") = Val [222; 173; 0; 15]. Proof. reflexivity. Qed.
Example C63_ex_from_bad : from_hexstring (codes "~~") = Signal "not of type <byte>". Proof. reflexivity. Qed.
