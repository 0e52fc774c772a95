(** Model of date printing and parsing, sources/system/date.dylan:325-654.  Strings are lists of
    character codes.  Output streams are the text written, input streams the text not yet read. *)
From Verif Require Import Base NumStrModel DateModel.
Local Open Scope Z_scope.
Local Open Scope outcome_scope.

Definition text : Type := list Z.

(** date.dylan:325-339, 179-190 the names, indexed by day of the week (0 is Sunday) and month - 1. *)
Definition short_day_names : list text :=
  map codes ["Sun"; "Mon"; "Tue"; "Wed"; "Thu"; "Fri"; "Sat"]%string.
Definition day_names : list text :=
  map codes ["Sunday"; "Monday"; "Tuesday"; "Wednesday"; "Thursday"; "Friday"; "Saturday"]%string.
Definition short_month_names : list text :=
  map codes ["Jan"; "Feb"; "Mar"; "Apr"; "May"; "Jun"; "Jul"; "Aug"; "Sep"; "Oct"; "Nov"; "Dec"]%string.
Definition month_names : list text :=
  map codes ["January"; "February"; "March"; "April"; "May"; "June";
             "July"; "August"; "September"; "October"; "November"; "December"]%string.

(** integer-to-string with its default keywords. *)
Definition print_integer (i : Z) : outcome text := integer_to_string i 10 0 48 false.

(** date.dylan:349-352 the local method wrap. *)
Definition wrap (pad : Z) (i : Z) : outcome text :=
  do s <- print_integer i; Val (if bool_decide (i < 10) then pad :: s else s).

(** date.dylan:353-360 the local method format-integer: the last [length] digits. *)
Fixpoint format_integer (length : nat) (i : Z) : text :=
  match length with
  | O => []
  | S length => format_integer length (i / 10) ++ [48 + i mod 10]
  end.

(** date.dylan:372-399 one directive. *)
Definition format_directive (d : date) (use_dots : bool) (c : Z) : outcome text :=
  if bool_decide (c = 89) (* Y *) then print_integer (date_year d)
  else if bool_decide (c = 121) (* y *) then Val (format_integer 2 (date_year d))
  else if bool_decide (c = 72) (* H *) then wrap 48 (date_hours d)
  else if bool_decide (c = 107) (* k *) then wrap 32 (date_hours d)
  else if bool_decide (c = 77) (* M *) then wrap 48 (date_minutes d)
  else if bool_decide (c = 83) (* S *) then wrap 48 (date_seconds d)
  else if bool_decide (c = 102) (* f *) then Val (format_integer 6 (date_microseconds d))
  else if bool_decide (c = 70) (* F *) then
    do r <- round_div (date_microseconds d) 1000; Val (format_integer 3 r)
  else if bool_decide (c = 84) (* T *) then
    do h <- wrap 48 (date_hours d); do m <- wrap 48 (date_minutes d); do s <- wrap 48 (date_seconds d);
    Val (h ++ [58] ++ m ++ [58] ++ s)
  else if bool_decide (c = 109) (* m *) then wrap 48 (date_month d)
  else if bool_decide (c = 100) (* d *) then wrap 48 (date_day d)
  else if bool_decide (c = 101) (* e *) then wrap 32 (date_day d)
  else if bool_decide (c = 65) (* A *) then do w <- day_of_week d; checked_element day_names w
  else if bool_decide (c = 97) (* a *) then do w <- day_of_week d; checked_element short_day_names w
  else if bool_decide (c = 66) (* B *) then checked_element month_names (date_month d - 1)
  else if bool_decide (c = 98) (* b *) then checked_element short_month_names (date_month d - 1)
  else if bool_decide (c = 122) (* z *) then
    do h <- wrap 48 (Z.abs (date_zone d) / 60);
    do m <- wrap 48 (Z.abs (date_zone d) mod 60);
    Val ([if bool_decide (date_zone d < 0) then 45 else 43] ++ h ++ (if use_dots then [58] else []) ++ m)
  else if bool_decide (c = 110) (* n *) then Val [10]
  else if bool_decide (c = 37) (* % *) then Val [37]
  else Val [c].

(** date.dylan:366-405 the loop of format-date over the format string. *)
Fixpoint format_loop (d : date) (fmt : text) (format use_dots : bool) (out : text) : outcome text :=
  match fmt with
  | [] => Val out
  | c :: fmt =>
      if bool_decide (c = 37) && negb format then format_loop d fmt true use_dots out
      else if bool_decide (c = 58) && format then format_loop d fmt format true out
      else if format then
        do t <- format_directive d use_dots c; format_loop d fmt false false (out ++ t)
      else format_loop d fmt format use_dots (out ++ [c])
  end.
(** date.dylan:343-407 format-date. *)
Definition format_date (fmt : text) (d : date) : outcome text := format_loop d fmt false false [].
(** date.dylan:419-422 as-iso8601-string (the precision: argument is not used). *)
Definition as_iso8601_string (d : date) : outcome text := format_date (codes "%Y-%m-%dT%H:%M:%S%:z") d.
(** date.dylan:409-417. *)
Definition as_rfc822_string (d : date) : outcome text := format_date (codes "%a, %d %b %y %H:%M:%S %z") d.
Definition as_rfc1123_string (d : date) : outcome text := format_date (codes "%a, %d %b %Y %H:%M:%S %z") d.

(** *** parse-date-string *)

(** io/streams/sequence-stream.dylan:182-209 read: the elements and the rest of the stream. *)
Definition read (s : text) (n : nat) : outcome (text * text) :=
  if bool_decide (n <= length s)%nat then Val (take n s, drop n s) else Signal "incomplete-read"%string.
(** string-to-integer with its default keywords; the position is not used. *)
Definition parse_integer (s : text) : outcome Z :=
  do ' (v, _) <- string_to_integer s 10 0 None None; Val v.
Definition read_number (s : text) (n : nat) : outcome (Z * text) :=
  do ' (t, s) <- read s n; do v <- parse_integer t; Val (v, s).

(** date.dylan:432-443 the local method parse-month; [i] is the index of the first name. *)
Fixpoint parse_month (names : list text) (i : Z) (s : text) : outcome (Z * text) :=
  match names with
  | [] => Signal "type-error"%string  (* the block's value #f is not an <integer> *)
  | n :: names =>
      do ' (t, s') <- read s (length n);
      if bool_decide (n = t) then Val (i + 1, s') else parse_month names (i + 1) s
  end.

(** The slot setters, date.dylan:12-18. *)
Definition set_year v (d : date) := Date v (date_month d) (date_day d) (date_hours d) (date_minutes d) (date_seconds d) (date_microseconds d) (date_zone d).
Definition set_month v (d : date) := Date (date_year d) v (date_day d) (date_hours d) (date_minutes d) (date_seconds d) (date_microseconds d) (date_zone d).
Definition set_day v (d : date) := Date (date_year d) (date_month d) v (date_hours d) (date_minutes d) (date_seconds d) (date_microseconds d) (date_zone d).
Definition set_hours v (d : date) := Date (date_year d) (date_month d) (date_day d) v (date_minutes d) (date_seconds d) (date_microseconds d) (date_zone d).
Definition set_minutes v (d : date) := Date (date_year d) (date_month d) (date_day d) (date_hours d) v (date_seconds d) (date_microseconds d) (date_zone d).
Definition set_seconds v (d : date) := Date (date_year d) (date_month d) (date_day d) (date_hours d) (date_minutes d) v (date_microseconds d) (date_zone d).

(** date.dylan:451-476 one directive: the new date and the rest of the text. *)
Definition parse_directive (d : date) (use_dots : bool) (c : Z) (s : text) : outcome (date * text) :=
  if bool_decide (c = 89) (* Y *) then do ' (v, s) <- read_number s 4; Val (set_year v d, s)
  else if bool_decide (c = 121) (* y *) then
    do ' (v, s) <- read_number s 2; Val (set_year ((if bool_decide (v > 70) then 1900 else 2000) + v) d, s)
  else if bool_decide (c = 72) || bool_decide (c = 107) (* H k *) then
    do ' (v, s) <- read_number s 2; Val (set_hours v d, s)
  else if bool_decide (c = 77) (* M *) then do ' (v, s) <- read_number s 2; Val (set_minutes v d, s)
  else if bool_decide (c = 83) (* S *) then do ' (v, s) <- read_number s 2; Val (set_seconds v d, s)
  else if bool_decide (c = 109) (* m *) then do ' (v, s) <- read_number s 2; Val (set_month v d, s)
  else if bool_decide (c = 100) || bool_decide (c = 101) (* d e *) then
    do ' (v, s) <- read_number s 2; Val (set_day v d, s)
  else if bool_decide (c = 66) (* B *) then do ' (v, s) <- parse_month month_names 0 s; Val (set_month v d, s)
  else if bool_decide (c = 98) (* b *) then do ' (v, s) <- parse_month short_month_names 0 s; Val (set_month v d, s)
  else if bool_decide (c = 122) (* z *) then
    do ' (sign, s) <- read s 1;
    do ' (hours, s) <- read s 2;
    do ' (_, s) <- (if use_dots then read s 1 else Val ([], s));
    do ' (minutes, s) <- read s 2;
    do sg <- parse_integer (sign ++ [49]);
    do h <- parse_integer hours;
    do m <- parse_integer minutes;
    do d <- set_zone d (sg * h * 60 + m);
    Val (d, s)
  else if bool_decide (c = 110) || bool_decide (c = 37) (* n % *) then
    do ' (_, s) <- read s 1; Val (d, s)
  else Val (d, s).

(** date.dylan:445-482 the loop of parse-date-string. *)
Fixpoint parse_loop (d : date) (fmt : text) (format use_dots : bool) (s : text) : outcome date :=
  match fmt with
  | [] => Val d
  | c :: fmt =>
      if bool_decide (c = 37) && negb format then parse_loop d fmt true use_dots s
      else if bool_decide (c = 58) && format then parse_loop d fmt format true s
      else if format then
        do ' (d, s) <- parse_directive d use_dots c s; parse_loop d fmt false false s
      else do ' (_, s) <- read s 1; parse_loop d fmt format use_dots s
  end.
(** date.dylan:424-484 parse-date-string. *)
Definition parse_date_string (s fmt : text) : outcome date :=
  do d <- make_date 1970 1 1 0 0 0 0 0;
  parse_loop d fmt false false s.

(** *** ISO 8601 *)
(** The text not yet read stands for the index idx. *)

(** date.dylan:542-553 read-integer (533-541 next). *)
Fixpoint read_integer (n : nat) (value : Z) (s : text) : outcome (Z * text) :=
  match n with
  | O => Val (value, s)
  | S n =>
      match s with
      | [] => Signal "malformed: end of string reached"%string
      | c :: s =>
          if bool_decide (c < 48) || bool_decide (c > 57) then Signal "malformed: unexpected character"%string
          else read_integer n (10 * value + c - 48) s
      end
  end.
(** date.dylan:530-532 peek. *)
Definition peek_is (s : text) (c : Z) : bool := match s with x :: _ => bool_decide (x = c) | [] => false end.
(** date.dylan:554-560 maybe-skip. *)
Definition maybe_skip (strict : bool) (c : Z) (s : text) : outcome text :=
  if peek_is s c then Val (tail s)
  else if strict then Signal "malformed: character expected"%string else Val s.
(** date.dylan:561-567 zone?, which may skip a space. *)
Definition is_zone (strict : bool) (s : text) : bool * text :=
  let s := if negb strict && peek_is s 32 then tail s else s in
  (peek_is s 90 || peek_is s 122 || peek_is s 43 || peek_is s 45, s).
(** date.dylan:603-614 the fraction: digits up to the zone; microseconds, precision and the rest. *)
Fixpoint read_fraction (fuel : nat) (strict : bool) (us precision : Z) (s : text) : outcome (Z * Z * text) :=
  let '(z, s) := is_zone strict s in
  if z then Val (us, precision, s)
  else match fuel with
    | O => NoFuel
    | S fuel =>
        match s with
        | [] => Signal "malformed: end of string reached"%string
        | c :: s =>
            if bool_decide (c < 48) || bool_decide (c > 57) then Signal "malformed: unexpected character"%string
            else if bool_decide (precision + 1 > 6) then Signal "malformed: too many digits"%string
            else read_fraction fuel strict (10 * us + c - 48) (precision + 1) s
        end
    end.

(** date.dylan:618-635 the zone and the end. *)
Definition split_zone (strict : bool) (s : text) : outcome Z :=
  let '(z, s) := is_zone strict s in
  if negb z then Signal "malformed: time zone required"%string
  else match s with
    | [] => Signal "malformed: end of string reached"%string
    | tzi :: s =>
        do ' (zone, s) <-
          (if bool_decide (tzi = 122) || bool_decide (tzi = 90) then Val (0, s)
           else
             do ' (h, s) <- read_integer 2 0 s;
             do s <- maybe_skip strict 58 s;
             do ' (m, s) <- read_integer 2 0 s;
             Val (60 * h + m, s));
        let zone := if bool_decide (tzi = 45) then 0 - zone else zone in
        match s with [] => Val zone | _ => Signal "malformed: too many characters"%string end
    end.

(** date.dylan:595-635 the time. *)
Definition split_time (strict : bool) (s : text) : outcome (Z * Z * Z * Z * Z) :=
  do ' (hours, s) <- read_integer 2 0 s;
  do s <- maybe_skip strict 58 s;
  do ' (minutes, s) <- read_integer 2 0 s;
  let '(z, s) := is_zone strict s in
  do ' (seconds, us, s) <-
    (if z then Val (0, 0, s)
     else
       do s <- maybe_skip strict 58 s;
       do ' (seconds, s) <- read_integer 2 0 s;
       if peek_is s 46 then
         do ' (us, precision, s) <- read_fraction (S (length s)) strict 0 0 (tail s);
         Val (seconds, us * 10 ^ (6 - precision), s)
       else Val (seconds, 0, s));
  do zone <- split_zone strict s;
  Val (hours, minutes, seconds, us, zone).

(** date.dylan:520-654 split-iso8601-string and parse-iso8601-string. *)
Definition parse_iso8601_string (strict : bool) (s : text) : outcome date :=
  do ' (year, s) <- read_integer 4 0 s;
  match s with
  | [] => make_date year 1 1 0 0 0 0 0
  | _ =>
    do s <- maybe_skip strict 45 s;
    do ' (month, s) <- read_integer 2 0 s;
    match s with
    | [] => make_date year month 1 0 0 0 0 0
    | _ =>
      do s <- maybe_skip strict 45 s;
      do ' (day, s) <- read_integer 2 0 s;
      match s with
      | [] => make_date year month day 0 0 0 0 0
      | c :: s =>
          if bool_decide (c = 84) || bool_decide (c = 116) || (negb strict && bool_decide (c = 32)) then
            do ' (hours, minutes, seconds, us, zone) <- split_time strict s;
            make_date year month day hours minutes seconds us zone
          else Signal "malformed: date and time must be separated"%string
      end
    end
  end.
