(** Specification of the calendar. *)
From Verif Require Import Base DateModel.
Local Open Scope Z_scope.

(** The Gregorian calendar. *)
Definition gregorian_leap (y : Z) : Prop := (4 | y) /\ (~ (100 | y) \/ (400 | y)).
Inductive month_length (y : Z) : Z -> Z -> Prop :=
| ml_31 m : m = 1 \/ m = 3 \/ m = 5 \/ m = 7 \/ m = 8 \/ m = 10 \/ m = 12 -> month_length y m 31
| ml_30 m : m = 4 \/ m = 6 \/ m = 9 \/ m = 11 -> month_length y m 30
| ml_29 : gregorian_leap y -> month_length y 2 29
| ml_28 : ~ gregorian_leap y -> month_length y 2 28.

Definition ymd : Type := Z * Z * Z.
Definition valid_ymd (x : ymd) : Prop :=
  let '(y, m, d) := x in exists n, month_length y m n /\ 1 <= d <= n.

(** The day after. *)
Inductive next_day : ymd -> ymd -> Prop :=
| next_in_month y m d n : month_length y m n -> 1 <= d < n -> next_day (y, m, d) (y, m, d + 1)
| next_month y m n : month_length y m n -> m < 12 -> next_day (y, m, n) (y, m + 1, 1)
| next_year y : next_day (y, 12, 31) (y + 1, 1, 1).

(** Days are numbered from 1 January 1900, forwards and backwards. *)
Inductive day_is : Z -> ymd -> Prop :=
| day_epoch : day_is 0 (1900, 1, 1)
| day_succ n x x' : day_is n x -> next_day x x' -> day_is (n + 1) x'
| day_pred n x x' : day_is (n + 1) x' -> next_day x x' -> day_is n x.

(** Fields a clock can show (the year is not limited). *)
Definition valid_date (d : date) : Prop :=
  valid_ymd (date_year d, date_month d, date_day d) /\
  0 <= date_hours d < 24 /\ 0 <= date_minutes d < 60 /\ 0 <= date_seconds d < 60 /\
  0 <= date_microseconds d < 1000000.
(** The dates that make accepts. *)
Definition makeable (d : date) : Prop :=
  valid_date d /\ 1800 <= date_year d < 2200 /\ -1440 <= date_zone d <= 1440.

(** The instant of a date: seconds and microseconds since 1900 in universal time. *)
Definition second_of (d : date) (s : Z) : Prop :=
  exists n, day_is n (date_year d, date_month d, date_day d) /\
    s = n * 86400 + date_hours d * 3600 + date_minutes d * 60 + date_seconds d - date_zone d * 60.
Definition instant_of (d : date) (i : Z) : Prop :=
  exists s, second_of d s /\ i = s * 1000000 + date_microseconds d.

(** The length of a day/time duration in microseconds. *)
Definition dur_length (x : duration) : Z :=
  (dur_days x * 86400 + dur_seconds x) * 1000000 + dur_microseconds x.
(** A day/time duration; its months are 0. *)
Definition day_time (x : duration) : Prop := dur_class x = DayTime /\ dur_months x = 0.
(** A year/month duration. *)
Definition year_month (x : duration) : Prop :=
  dur_class x = YearMonth /\ dur_days x = 0 /\ dur_seconds x = 0 /\ dur_microseconds x = 0.

(** All fields have the same sign and are in range: then the length determines the fields. *)
Definition canonical (x : duration) : Prop :=
  - 1000000 < dur_microseconds x < 1000000 /\ - 86400 < dur_seconds x < 86400 /\
  ((0 <= dur_days x /\ 0 <= dur_seconds x /\ 0 <= dur_microseconds x) \/
   (dur_days x <= 0 /\ dur_seconds x <= 0 /\ dur_microseconds x <= 0)).
