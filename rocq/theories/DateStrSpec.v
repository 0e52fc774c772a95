(** Specification of printed dates. *)
From Verif Require Import Base DateModel DateSpec DateStrModel.
Local Open Scope Z_scope.

(** The decimal numeral of [v] with exactly [n] digits. *)
Fixpoint digits (n : nat) (v : Z) : list Z :=
  match n with O => [] | S n => digits n (v / 10) ++ [48 + v mod 10] end.

(** "YYYY-MM-DDThh:mm:ss", a fraction of [k] digits with value [f] (none if [k] is 0), and "+hh:mm"
    or "-hh:mm". *)
Definition iso_text (d : date) (k : nat) (f : Z) : list Z :=
  digits 4 (date_year d) ++ [45] ++ digits 2 (date_month d) ++ [45] ++ digits 2 (date_day d) ++ [84] ++
  digits 2 (date_hours d) ++ [58] ++ digits 2 (date_minutes d) ++ [58] ++ digits 2 (date_seconds d) ++
  (if bool_decide (k = 0%nat) then [] else [46] ++ digits k f) ++
  [if bool_decide (date_zone d < 0) then 45 else 43] ++
  digits 2 (Z.abs (date_zone d) / 60) ++ [58] ++ digits 2 (Z.abs (date_zone d) mod 60).

(** Parts of a format string: a literal character other than %, and directives. *)
Inductive part := Literal (c : Z) | PYear | PMonth | PMonthName | PDay | PDaySpace | PHours | PHoursSpace
  | PMinutes | PSeconds | PNewline | PPercent | PZone | PZoneColon.
Definition part_text (p : part) : list Z :=
  match p with
  | Literal c => [c]
  | PYear => [37; 89] | PMonth => [37; 109] | PMonthName => [37; 98]
  | PDay => [37; 100] | PDaySpace => [37; 101] | PHours => [37; 72] | PHoursSpace => [37; 107]
  | PMinutes => [37; 77] | PSeconds => [37; 83] | PNewline => [37; 110] | PPercent => [37; 37]
  | PZone => [37; 122] | PZoneColon => [37; 58; 122]
  end.
Definition good_part (p : part) : Prop := match p with Literal c => c <> 37 | _ => True end.
Definition is_zone_part (p : part) : bool := match p with PZone | PZoneColon => true | _ => false end.
Definition format_of (ps : list part) : list Z := concat (map part_text ps).
(** Every field from the year to the seconds is printed. *)
Definition prints_all (ps : list part) : Prop :=
  PYear ∈ ps /\ (PMonth ∈ ps \/ PMonthName ∈ ps) /\ (PDay ∈ ps \/ PDaySpace ∈ ps) /\
  (PHours ∈ ps \/ PHoursSpace ∈ ps) /\ PMinutes ∈ ps /\ PSeconds ∈ ps.

(** What a part prints. *)
(** Two characters, the first a blank if the number has one digit. *)
Definition blank2 (v : Z) : list Z := if bool_decide (v < 10) then [32; 48 + v] else digits 2 v.

Definition sign_char (z : Z) : Z := if bool_decide (z < 0) then 45 else 43.
Definition part_out (d : date) (p : part) : text :=
  match p with
  | Literal c => [c]
  | PYear => digits 4 (date_year d) | PMonth => digits 2 (date_month d)
  | PMonthName => default [] (short_month_names !! Z.to_nat (date_month d - 1))
  | PDay => digits 2 (date_day d) | PDaySpace => blank2 (date_day d)
  | PHours => digits 2 (date_hours d) | PHoursSpace => blank2 (date_hours d)
  | PMinutes => digits 2 (date_minutes d) | PSeconds => digits 2 (date_seconds d)
  | PNewline => [10] | PPercent => [37]
  | PZone => sign_char (date_zone d) :: digits 2 (Z.abs (date_zone d) / 60) ++ digits 2 (Z.abs (date_zone d) mod 60)
  | PZoneColon => sign_char (date_zone d) :: digits 2 (Z.abs (date_zone d) / 60) ++ [58] ++ digits 2 (Z.abs (date_zone d) mod 60)
  end.


(** The texts a strict reader of ISO 8601 may accept, and what they say.  A zone: *)
Inductive iso_zone : list Z -> Z -> Prop :=
| zone_Z : iso_zone [90] 0
| zone_z : iso_zone [122] 0
| zone_plus h m : 0 <= h < 100 -> 0 <= m < 100 -> iso_zone (43 :: digits 2 h ++ 58 :: digits 2 m) (60 * h + m)
| zone_minus h m : 0 <= h < 100 -> 0 <= m < 100 -> iso_zone (45 :: digits 2 h ++ 58 :: digits 2 m) (- (60 * h + m)).
(** Seconds and microseconds, which may be left out; a fraction has at most six digits. *)
Inductive iso_seconds : list Z -> Z -> Z -> Prop :=
| no_seconds : iso_seconds [] 0 0
| whole_seconds s : 0 <= s < 100 -> iso_seconds (58 :: digits 2 s) s 0
| fraction_seconds s k f : 0 <= s < 100 -> (k <= 6)%nat -> 0 <= f < 10 ^ Z.of_nat k ->
    iso_seconds (58 :: digits 2 s ++ 46 :: digits k f) s (f * 10 ^ (6 - Z.of_nat k)).
(** The whole: a year, a month, a day, or all with a time. *)
Inductive iso_strict : list Z -> date -> Prop :=
| iso_y y : 0 <= y < 10000 -> iso_strict (digits 4 y) (Date y 1 1 0 0 0 0 0)
| iso_ym y m : 0 <= y < 10000 -> 0 <= m < 100 ->
    iso_strict (digits 4 y ++ 45 :: digits 2 m) (Date y m 1 0 0 0 0 0)
| iso_ymd y m d : 0 <= y < 10000 -> 0 <= m < 100 -> 0 <= d < 100 ->
    iso_strict (digits 4 y ++ 45 :: digits 2 m ++ 45 :: digits 2 d) (Date y m d 0 0 0 0 0)
| iso_full y m d t h mi st s us zt z :
    0 <= y < 10000 -> 0 <= m < 100 -> 0 <= d < 100 -> t = 84 \/ t = 116 ->
    0 <= h < 100 -> 0 <= mi < 100 -> iso_seconds st s us -> iso_zone zt z ->
    iso_strict (digits 4 y ++ 45 :: digits 2 m ++ 45 :: digits 2 d ++ t :: digits 2 h ++ 58 :: digits 2 mi ++ st ++ zt)
      (Date y m d h mi s us z).
