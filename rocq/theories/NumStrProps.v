(** Integer/string conversion: theorems for C16. *)
From Coq Require Import ZifyBool ZifyNat ZifyN Lia.
From Verif Require Import Base IntModel NumStrModel NumStrSpec NumStrProofs.
Local Open Scope Z_scope.

(** *** C16: what integer-to-string prints *)
(** A minus sign for a negative number, then fill up to the width, then the digits of its absolute
    value without superfluous zeros. *)
Theorem C16_print n base size fill lower :
  fits n -> 2 <= base <= 36 ->
  exists ds k, integer_to_string n base size fill lower =
      Val ((if bool_decide (n < 0) then [45] else []) ++
           replicate k (if lower then char_lower fill else fill) ++ ds) /\
    numeral base ds (Z.abs n) /\
    (n = 0 -> ds = [48]) /\ (n <> 0 -> exists c ds', ds = c :: ds' /\ c <> 48) /\
    let w := (if bool_decide (n < 0) then 1 else 0) + Z.of_nat (length ds) in
    Z.of_nat k = Z.max 0 (size - w).
Proof. apply print_spec. Qed.

(** The result is at least [size] long. *)
Theorem C16_width n base size fill lower s :
  fits n -> 2 <= base <= 36 -> integer_to_string n base size fill lower = Val s ->
  size <= Z.of_nat (length s).
Proof.
  intros Hn Hb Hs. destruct (print_spec n base size fill lower Hn Hb) as (ds & k & E & _ & _ & _ & Hk).
  cbv zeta in Hk. rewrite Hs in E. injection E as ->. rewrite !app_length, replicate_length.
  destruct (bool_decide (n < 0)); cbn [length]; lia.
Qed.

(** *** C16: what string-to-integer reads *)
(** Blanks, an optional sign, then the longest string of digits of the base: its value and the
    position after it, or an overflow error if the value is not an <integer>. *)
Theorem C16_parse pre ws sgn s ds v rest base stop default :
  2 <= base <= 36 -> Forall blank ws -> sign_of sgn s -> numeral base ds v -> ds <> [] ->
  let str := pre ++ ws ++ sgn ++ ds ++ rest in
  let next := Z.of_nat (length pre + length ws + length sgn + length ds) in
  let last := match stop with Some e => e | None => Z.of_nat (length str) end in
  next <= last <= Z.of_nat (length str) ->
  (forall c rest', rest = c :: rest' -> next < last -> forall d, digit_of c d -> base <= d) ->
  string_to_integer str base (Z.of_nat (length pre)) stop default =
  if bool_decide (- 2 ^ 61 <= v * s < 2 ^ 61) then Val (v * s, next) else Signal "overflow"%string.
Proof. apply parse_spec. Qed.
(** No digits: the default, or an error. *)
Theorem C16_parse_none pre ws sgn s rest base stop default :
  2 <= base <= 36 -> Forall blank ws -> sign_of sgn s ->
  let str := pre ++ ws ++ sgn ++ rest in
  let next := Z.of_nat (length pre + length ws + length sgn) in
  let last := match stop with Some e => e | None => Z.of_nat (length str) end in
  next <= last <= Z.of_nat (length str) -> (pre = [] \/ (length pre < length str)%nat) ->
  (forall c rest', rest = c :: rest' -> next < last ->
     (forall d, digit_of c d -> base <= d) /\ (sgn = [] -> ~ blank c /\ c <> 43 /\ c <> 45)) ->
  string_to_integer str base (Z.of_nat (length pre)) stop default =
  match default with Some d => Val (d, Z.of_nat (length pre)) | None => Signal "no integer found"%string end.
Proof. apply parse_none_spec. Qed.

(** *** C16: the round trip *)
(** Whatever the width and case, with the default fill character '0'. *)
Theorem C16_round_trip n base size lower :
  fits n -> 2 <= base <= 36 ->
  exists s, integer_to_string n base size 48 lower = Val s /\
    string_to_integer s base 0 None None = Val (n, Z.of_nat (length s)).
Proof.
  intros Hn Hb. destruct (print_spec n base size 48 lower Hn Hb) as (ds & k & E & Hnum & H0 & H1 & _).
  rewrite E. eexists. split; [reflexivity|].
  assert (Hf : body lower 48 = 48).
  { unfold body, char_lower. destruct lower; [|done]. by rewrite bool_decide_false by lia. }
  rewrite Hf. set (sgn := if bool_decide (n < 0) then [45] else []).
  assert (Hsgn : sign_of sgn (if bool_decide (n < 0) then -1 else 1)).
  { unfold sgn, sign_of. case_bool_decide; tauto. }
  assert (Hne : replicate k 48 ++ ds <> []).
  { destruct (decide (n = 0)) as [Hz|Hnz]; [rewrite (H0 Hz)|destruct (H1 Hnz) as (c & ds' & -> & _)];
      by destruct (replicate k 48). }
  pose proof (parse_spec [] [] sgn _ (replicate k 48 ++ ds) (Z.abs n) [] base None None Hb ltac:(constructor) Hsgn
    ltac:(apply numeral_zeros; [lia|done]) Hne) as Hp.
  cbv zeta in Hp. cbn [app length] in Hp. rewrite !app_nil_r in Hp. change (Z.of_nat 0) with 0 in Hp.
  rewrite Hp; [|rewrite !app_length; lia|done].
  assert (En : Z.abs n * (if bool_decide (n < 0) then -1 else 1) = n) by (clear; case_bool_decide; lia).
  rewrite En. rewrite bool_decide_true by (apply Hn). do 2 f_equal. rewrite !app_length. lia.
Qed.

Example conversions :
  integer_to_string (- 2 ^ 61) 16 0 48 false = Val (codes "-2000000000000000") /\
  integer_to_string (-255) 16 8 48 true = Val (codes "-00000ff") /\
  integer_to_string 0 10 0 48 false = Val (codes "0") /\
  string_to_integer (codes "  -00000ffz") 16 0 None None = Val (-255, 10) /\
  string_to_integer (codes "2305843009213693952") 10 0 None None = Signal "overflow"%string /\
  string_to_integer (codes "-2305843009213693952") 10 0 None None = Val (- 2 ^ 61, 20) /\
  string_to_integer (codes "x5") 10 0 None (Some 7) = Val (7, 0).
Proof. vm_compute. by repeat split. Qed.

(** With a blank as the fill character the sign is separated from the digits, and a negative
    number cannot be read back. *)
Theorem C16_fill_refuted :
  exists n base size fill s, fits n /\ 2 <= base <= 36 /\ blank fill /\
    integer_to_string n base size fill false = Val s /\
    string_to_integer s base 0 None None = Signal "no integer found"%string.
Proof.
  exists (-5), 10, 4, 32, (codes "-  5"). split; [unfold fits; lia|]. split; [lia|]. split; [by left|].
  split; vm_compute; reflexivity.
Qed.

Print Assumptions C16_print.
Print Assumptions C16_width.
Print Assumptions C16_parse.
Print Assumptions C16_parse_none.
Print Assumptions C16_round_trip.
Print Assumptions C16_fill_refuted.
