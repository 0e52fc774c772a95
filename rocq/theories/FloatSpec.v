(** What floating-point literals denote (C58): the decimal number they spell, by the Dylan Reference Manual
    (Lexical Grammar: Numbers). *)
From Verif Require Import Base LexSpec LitModel LitSpec.
From Coq Require Import ZArith QArith.
Local Open Scope Z_scope.

(** A literal in parts: a sign, the digits before the point, those after it (if there is a point), and an
    exponent: its marker, sign and digits. *)
Record float_parts := FloatParts {
  f_sign : list Z; f_whole : list Z; f_fraction : option (list Z); f_exponent : option (Z * list Z * list Z) }.

Definition spelled (p : float_parts) : list Z :=
  f_sign p ++ f_whole p ++ (match f_fraction p with Some ds => 46 :: ds | None => [] end)
  ++ (match f_exponent p with Some (m, sg, ds) => m :: sg ++ ds | None => [] end).

(** The markers: e, s, d, x in either case. *)
Definition markers : list (Z * float_class) :=
  [(101, FDefault); (69, FDefault); (115, FSingle); (83, FSingle); (100, FDouble); (68, FDouble); (120, FExtended); (88, FExtended)].
Definition signs : list (list Z) := [[]; [43]; [45]].

Definition mantissa_digits (p : float_parts) : list Z := f_whole p ++ default [] (f_fraction p).

(** Some digit, and a point or an exponent. *)
Definition well_formed (p : float_parts) : Prop :=
  In (f_sign p) signs /\ Forall (is_digit 10) (mantissa_digits p) /\ mantissa_digits p <> [] /\
  (f_fraction p <> None \/ f_exponent p <> None) /\
  match f_exponent p with
  | Some (m, sg, ds) => In m (map fst markers) /\ In sg signs /\ Forall (is_digit 10) ds /\ ds <> []
  | None => True
  end.

Definition sign_of (sg : list Z) : Z := match sg with [45] => -1 | _ => 1 end.
Definition exponent_of (p : float_parts) : Z := match f_exponent p with Some (_, sg, ds) => sign_of sg * number 10 ds | None => 0 end.
Definition minus_exponent (p : float_parts) : bool := match f_exponent p with Some (_, [45], _) => true | _ => false end.
Definition kind_is (p : float_parts) (k : float_class) : Prop :=
  match f_exponent p with Some (m, _, _) => In (m, k) markers | None => k = FDefault end.

Definition ten_to (e : Z) : Q := Qpower (10 # 1) e.

(** sign, digits, with the point before the digits of the fraction, times ten to the exponent *)
Definition float_value (p : float_parts) : Q :=
  (inject_Z (sign_of (f_sign p) * number 10 (mantissa_digits p))
   * ten_to (exponent_of p - Z.of_nat (length (default [] (f_fraction p)))))%Q.

(** The value that the expression atof is left with denotes. *)
Definition decimal_value (d : decimal) : Q :=
  (inject_Z (d_sign d * d_mantissa d) / inject_Z (d_scale d) * ten_to (if d_up d then d_power d else - d_power d))%Q.

(** A character that can go on neither with a number nor with a name. *)
Definition ends_word (c : Z) : bool := ends_number c && negb (existsb (Z.eqb c) [33; 38; 42; 60; 61; 62; 124; 94; 36; 37; 64; 43; 126; 63; 45]).
Definition then_ends_word (post : list Z) : Prop := match post with [] => True | c :: _ => ends_word c = true end.
