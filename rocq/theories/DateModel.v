(** Model of dates and durations: sources/system/date.dylan and sources/system/durations.dylan.
    Simplifications: fields are mathematical integers (no <integer> overflow); the cached universal
    slots (date.dylan:10-11, 101-113) are recomputed instead of remembered; the operating system's
    clock is not modelled; conditions raised by error/cerror/signal are the outcome [Signal]. *)
From Verif Require Import Base NumStrModel.
Local Open Scope Z_scope.
Local Open Scope outcome_scope.

(** date.dylan:9-21 <date>. *)
Record date := Date {
  date_year : Z; date_month : Z; date_day : Z;
  date_hours : Z; date_minutes : Z; date_seconds : Z; date_microseconds : Z;
  date_zone : Z }.

(** date.dylan:217-231 $month-days. *)
Definition month_days : list Z := [0; 31; 28; 31; 30; 31; 30; 31; 31; 30; 31; 30; 31; 0].

(** date.dylan:233-236 leap-year?. *)
Definition leap_year (year : Z) : bool :=
  bool_decide (year mod 4 = 0) && (bool_decide (year mod 100 <> 0) || bool_decide (year mod 400 = 0)).

(** element on a simple vector checks its index. *)
Definition checked_element {A} (l : list A) (i : Z) : outcome A :=
  if bool_decide (0 <= i) then
    match l !! Z.to_nat i with Some x => Val x | None => Signal "element-range-error"%string end
  else Signal "element-range-error"%string.

(** date.dylan:238-240 days-in-month. *)
Definition days_in_month (year month : Z) : outcome Z :=
  do d <- checked_element month_days month;
  Val (d + if leap_year year && bool_decide (month = 2) then 1 else 0).

(** copy-sequence and reduce1(\+, _): copy-sequence checks its bounds, reduce1 signals on an empty
    sequence. *)
Definition sum1 (l : list Z) : outcome Z :=
  match l with [] => Signal "empty sequence"%string | x :: l => Val (fold_left Z.add l x) end.
Definition copy_from (l : list Z) (start : Z) : outcome (list Z) :=
  if bool_decide (0 <= start <= Z.of_nat (length l)) then Val (drop (Z.to_nat start) l)
  else Signal "subscript-error"%string.
Definition copy_to (l : list Z) (endp : Z) : outcome (list Z) :=
  if bool_decide (0 <= endp <= Z.of_nat (length l)) then Val (take (Z.to_nat endp) l)
  else Signal "subscript-error"%string.

(** date.dylan:242-271 days-since-1900. *)
Definition days_since_1900 (year month day : Z) : outcome Z :=
  if bool_decide (year < 1900) then
    do dim <- days_in_month year month;
    do rest <- copy_from month_days (month + 1);
    do sum <- sum1 rest;
    Val ((day - 1 - dim
          - (if leap_year year && bool_decide (month < 2) then 1 else 0)
          - sum - 365 * (1899 - year))
         - Z.quot (1899 - year) 4 + Z.quot (1899 - year) 100 - Z.quot (1899 + 100 - year) 400)
  else
    do before <- copy_to month_days month;
    do sum <- sum1 before;
    Val (day + (if leap_year year && bool_decide (month > 2) then 0 else -1)
         + sum + 365 * (year - 1900)
         + Z.quot (year - 1901) 4 - Z.quot (year - 1901) 100 + Z.quot (year - 1901 + 300) 400).

(** date.dylan:273-292 compute-universal-time; date-universal-date, date-universal-time
    (101-113, 208-215). *)
Definition compute_universal_time (year month day hours minutes seconds zone : Z) : outcome (Z * Z) :=
  let ut := seconds + 60 * (minutes + 60 * hours) in
  do ud <- days_since_1900 year month day;
  let tzs := 60 * zone in
  let ut := ut - tzs mod 86400 in
  let ud := ud - tzs / 86400 in
  if bool_decide (-1 < ut) && bool_decide (ut < 86400) then Val (ud, ut)
  else Val (ud + ut / 86400, ut mod 86400).
Definition universal (d : date) : outcome (Z * Z) :=
  compute_universal_time (date_year d) (date_month d) (date_day d)
    (date_hours d) (date_minutes d) (date_seconds d) (date_zone d).

(** date.dylan:55-99 initialize: each bad field is a cerror. *)
Definition make_date (year month day hours minutes seconds microseconds zone : Z) : outcome date :=
  if negb (bool_decide (1800 <= year < 2200)) then Signal "year"%string
  else if negb (bool_decide (1 <= month <= 12)) then Signal "month"%string
  else
    do dim <- days_in_month year month;
    if negb (bool_decide (1 <= day <= dim)) then Signal "day of the month"%string
    else if negb (bool_decide (0 <= hours < 24)) then Signal "hour of the day"%string
    else if negb (bool_decide (0 <= minutes < 60)) then Signal "minutes"%string
    else if negb (bool_decide (0 <= seconds < 60)) then Signal "seconds"%string
    else if negb (bool_decide (0 <= microseconds < 1000000)) then Signal "microseconds"%string
    else if negb (bool_decide (-1440 <= zone <= 1440)) then Signal "time zone offset"%string
    else Val (Date year month day hours minutes seconds microseconds zone).

(** date.dylan:317-322 clone-date. *)
Definition clone_date (d : date) : outcome date :=
  make_date (date_year d) (date_month d) (date_day d) (date_hours d) (date_minutes d)
    (date_seconds d) (date_microseconds d) (date_zone d).

(** date.dylan:134-156, one "unless in range, carry" step of canonicalize-date: new value and carry. *)
Definition carry (v base : Z) : Z * Z :=
  if bool_decide (-1 < v) && bool_decide (v < base) then (v, 0) else (v mod base, v / base).

(** date.dylan:158-166 the first while loop of canonicalize-date. *)
Fixpoint days_down (fuel : nat) (year month day : Z) : outcome (Z * Z * Z) :=
  do dim <- days_in_month year month;
  if bool_decide (day > dim) then
    match fuel with
    | O => NoFuel
    | S fuel =>
        if bool_decide (month = 12) then days_down fuel (year + 1) 1 (day - dim)
        else days_down fuel year (month + 1) (day - dim)
    end
  else Val (year, month, day).
(** date.dylan:167-175 the second while loop. *)
Fixpoint days_up (fuel : nat) (year month day : Z) : outcome (Z * Z * Z) :=
  if bool_decide (day < 1) then
    match fuel with
    | O => NoFuel
    | S fuel =>
        let '(year, month) := if bool_decide (month = 1) then (year - 1, 12) else (year, month - 1) in
        do dim <- days_in_month year month;
        days_up fuel year month (day + dim)
    end
  else Val (year, month, day).

(** date.dylan:133-177 canonicalize-date. *)
Definition canonicalize_date (d : date) : outcome date :=
  let '(us, c) := carry (date_microseconds d) 1000000 in
  let '(sec, c) := carry (date_seconds d + c) 60 in
  let '(mi, c) := carry (date_minutes d + c) 60 in
  let '(h, c) := carry (date_hours d + c) 24 in
  let day := date_day d + c in
  do ' (y, m, day) <- days_down (Z.to_nat day) (date_year d) (date_month d) day;
  do ' (y, m, day) <- days_up (Z.to_nat (1 - day)) y m day;
  Val (Date y m day h mi sec us (date_zone d)).

(** date.dylan:117-128 date-time-zone-offset-setter. *)
Definition set_zone (d : date) (zone : Z) : outcome date :=
  let change := zone - date_zone d in
  do d' <- canonicalize_date
    (Date (date_year d) (date_month d) (date_day d) (date_hours d + change / 60)
       (date_minutes d + change mod 60) (date_seconds d) (date_microseconds d) (date_zone d));
  Val (Date (date_year d') (date_month d') (date_day d') (date_hours d') (date_minutes d')
         (date_seconds d') (date_microseconds d') zone).

(** date.dylan:186-195 date-day-of-week: 0 is Sunday. *)
Definition day_of_week (d : date) : outcome Z :=
  do days <- days_since_1900 (date_year d) (date_month d) (date_day d);
  Val ((days + 1) mod 7).

(** date.dylan:197-206 = and < on dates. *)
Definition date_equal (x y : date) : outcome bool :=
  do ' (xd, xt) <- universal x;
  do ' (yd, yt) <- universal y;
  Val (bool_decide (xd = yd) && bool_decide (xt = yt)).
Definition date_less (x y : date) : outcome bool :=
  do ' (xd, xt) <- universal x;
  do ' (yd, yt) <- universal y;
  Val (bool_decide (xd < yd) || (bool_decide (xd = yd) && bool_decide (xt < yt))).

(** *** Durations *)
Inductive duration_class := YearMonth | DayTime.
(** durations.dylan:16-27 <duration>. *)
Record duration := Duration {
  dur_class : duration_class;
  dur_months : Z; dur_days : Z; dur_seconds : Z; dur_microseconds : Z }.

(** durations.dylan:105-136 canonicalize-duration.  negative?(a) = negative?(b). *)
Definition same_negative (a b : Z) : bool := eqb (bool_decide (a < 0)) (bool_decide (b < 0)).
Definition canonicalize_duration (d : duration) : duration :=
  let us := dur_microseconds d in
  let '(us, sec) :=
    if bool_decide (-1000000 < us) && bool_decide (us < 1000000) then (us, dur_seconds d)
    else (us mod 1000000, dur_seconds d + us / 1000000) in
  let '(sec, days) :=
    if bool_decide (-86400 < sec) && bool_decide (sec < 86400) then (sec, dur_days d)
    else (sec mod 86400, dur_days d + sec / 86400) in
  let '(days, sec) :=
    if same_negative sec days || bool_decide (sec = 0) || bool_decide (days = 0) then (days, sec)
    else if bool_decide (sec < 0) then (days - 1, sec + 86400) else (days + 1, sec - 86400) in
  let '(sec, us) :=
    if same_negative us sec || bool_decide (us = 0) || bool_decide (sec = 0) then (sec, us)
    else if bool_decide (us < 0) then (sec - 1, us + 1000000) else (sec + 1, us - 1000000) in
  Duration (dur_class d) (dur_months d) days sec us.

(** durations.dylan:41-84 make and initialize. *)
Definition make_year_month (years months : Z) : duration := Duration YearMonth (12 * years + months) 0 0 0.
Definition make_day_time (days hours minutes seconds microseconds : Z) : duration :=
  canonicalize_duration (Duration DayTime 0 days (seconds + 60 * (minutes + 60 * hours)) microseconds).

(** durations.dylan:90-100 clone-duration. *)
Definition clone_duration (d : duration) : duration :=
  match dur_class d with
  | YearMonth => make_year_month 0 (dur_months d)
  | DayTime => make_day_time (dur_days d) 0 0 (dur_seconds d) (dur_microseconds d)
  end.

(** durations.dylan:203-214 decode-duration. *)
Definition decode_year_month (d : duration) : Z * Z := (Z.quot (dur_months d) 12, Z.rem (dur_months d) 12).
Definition decode_day_time (d : duration) : Z * Z * Z * Z * Z :=
  let minutes := Z.quot (dur_seconds d) 60 in
  (dur_days d, Z.quot minutes 60, Z.rem minutes 60, Z.rem (dur_seconds d) 60, dur_microseconds d).

(** durations.dylan:216-235 = and <. *)
Definition duration_equal (x y : duration) : bool :=
  bool_decide (dur_months x = dur_months y) && bool_decide (dur_days x = dur_days y)
  && bool_decide (dur_seconds x = dur_seconds y) && bool_decide (dur_microseconds x = dur_microseconds y).
Definition duration_less (x y : duration) : outcome bool :=
  match dur_class x, dur_class y with
  | YearMonth, YearMonth => Val (bool_decide (dur_months x < dur_months y))
  | DayTime, DayTime =>
      Val (bool_decide (dur_days x < dur_days y)
           || (bool_decide (dur_days x = dur_days y)
               && (bool_decide (dur_seconds x < dur_seconds y)
                   || (bool_decide (dur_seconds x = dur_seconds y)
                       && bool_decide (dur_microseconds x < dur_microseconds y)))))
  | _, _ => Signal "no applicable method"%string
  end.

(** durations.dylan:296-334 +, - on durations. *)
Definition same_class (x y : duration) : bool :=
  match dur_class x, dur_class y with
  | YearMonth, YearMonth | DayTime, DayTime => true
  | _, _ => false
  end.
Definition add_durations (x y : duration) : outcome duration :=
  if same_class x y then
    let n := clone_duration x in
    Val (canonicalize_duration
      (Duration (dur_class n) (dur_months n + dur_months y) (dur_days n + dur_days y)
         (dur_seconds n + dur_seconds y) (dur_microseconds n + dur_microseconds y)))
  else Signal "no applicable method"%string.
Definition subtract_durations (x y : duration) : outcome duration :=
  if same_class x y then
    let n := clone_duration x in
    Val (canonicalize_duration
      (Duration (dur_class n) (dur_months n - dur_months y) (dur_days n - dur_days y)
         (dur_seconds n - dur_seconds y) (dur_microseconds n - dur_microseconds y)))
  else Signal "no applicable method"%string.

(** durations.dylan:336-352 * by an integer (round of an integer product is the product). *)
Definition scale_duration (x : duration) (y : Z) : duration :=
  let n := clone_duration x in
  canonicalize_duration
    (Duration (dur_class n) (y * dur_months n) (y * dur_days n) (y * dur_seconds n) (y * dur_microseconds n)).

(** round/ on integers: to the nearest, ties to even (the integer of C13). *)
Definition round_div (a b : Z) : outcome Z :=
  if bool_decide (b = 0) then Signal "division-by-zero"%string
  else
    let q := a / b in let r := a mod b in
    Val (if bool_decide (2 * Z.abs r < Z.abs b) then q
         else if bool_decide (2 * Z.abs r > Z.abs b) then q + 1
         else if Z.even q then q else q + 1).
(** durations.dylan:354-361 / by an integer. *)
Definition divide_duration (x : duration) (y : Z) : outcome duration :=
  let n := clone_duration x in
  do mo <- round_div (dur_months n) y;
  do da <- round_div (dur_days n) y;
  do se <- round_div (dur_seconds n) y;
  do us <- round_div (dur_microseconds n) y;
  Val (canonicalize_duration (Duration (dur_class n) mo da se us)).

(** durations.dylan:241-259 canonicalize-date-month-year.  What the program does with the proceedable
    <date-arithmetic-invalid-day> (150-182): no handler takes it, a handler invokes the
    use-last-valid-day restart, or a handler returns (return-allowed? is true). *)
Inductive invalid_day := Decline | UseLast | Return.
Definition canonicalize_month_year (action : invalid_day) (d : date) : outcome date :=
  let month := date_month d - 1 in
  let '(m, y) :=
    if bool_decide (-1 < month) && bool_decide (month < 12) then (date_month d, date_year d)
    else (month mod 12 + 1, date_year d + month / 12) in
  do dim <- days_in_month y m;
  if bool_decide (date_day d <= dim) then
    Val (Date y m (date_day d) (date_hours d) (date_minutes d) (date_seconds d) (date_microseconds d) (date_zone d))
  else match action with
  | UseLast => Val (Date y m dim (date_hours d) (date_minutes d) (date_seconds d) (date_microseconds d) (date_zone d))
  | Return => Val (Date y m (date_day d) (date_hours d) (date_minutes d) (date_seconds d) (date_microseconds d) (date_zone d))
  | Decline => Signal "date-arithmetic-invalid-day"%string
  end.

(** durations.dylan:261-294 date + duration, date - duration, date - date. *)
Definition add_to_date (action : invalid_day) (x : date) (y : duration) : outcome date :=
  do n <- clone_date x;
  do n <- canonicalize_month_year action
    (Date (date_year n) (date_month n + dur_months y) (date_day n) (date_hours n) (date_minutes n)
       (date_seconds n) (date_microseconds n) (date_zone n));
  canonicalize_date
    (Date (date_year n) (date_month n) (date_day n + dur_days y) (date_hours n) (date_minutes n)
       (date_seconds n + dur_seconds y) (date_microseconds n + dur_microseconds y) (date_zone n)).
Definition subtract_from_date (action : invalid_day) (x : date) (y : duration) : outcome date :=
  do n <- clone_date x;
  do n <- canonicalize_month_year action
    (Date (date_year n) (date_month n - dur_months y) (date_day n) (date_hours n) (date_minutes n)
       (date_seconds n) (date_microseconds n) (date_zone n));
  canonicalize_date
    (Date (date_year n) (date_month n) (date_day n - dur_days y) (date_hours n) (date_minutes n)
       (date_seconds n - dur_seconds y) (date_microseconds n - dur_microseconds y) (date_zone n)).
Definition subtract_dates (x y : date) : outcome duration :=
  do ' (xd, xt) <- universal x;
  do ' (yd, yt) <- universal y;
  Val (make_day_time (xd - yd) 0 0 (xt - yt) (date_microseconds x - date_microseconds y)).
