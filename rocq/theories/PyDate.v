(** Python's [datetime.date] / [datetime.datetime] / dateutil [relativedelta], as far as the code uses them.
    These model CPython's library, not a file of /repo. *)
From Verif Require Import Base.

(** A date is represented by its proleptic Gregorian ordinal ([date.toordinal()]): 0001-01-01 is 1. *)
Definition date := Z.
(** CPython datetime: date.min, as an ordinal *)
Definition min_date : date := 1.
(** CPython datetime: date.max, as an ordinal *)
Definition max_date : date := 3652059.
(** CPython datetime: the range of date objects *)
Definition date_ok (d : date) : Prop := min_date <= d <= max_date.

(** CPython datetime: calendar.isleap *)
Definition is_leap (y : Z) : bool :=
  (y mod 4 =? 0) && (negb (y mod 100 =? 0) || (y mod 400 =? 0)).

(** CPython [_days_before_year]. *)
Definition days_before_year (y : Z) : Z :=
  let y := y - 1 in y * 365 + y / 4 - y / 100 + y / 400.

(** CPython [_days_in_month]. *)
Definition dim_l (leap : bool) (m : Z) : Z :=
  match m with
  | 2 => if leap then 29 else 28
  | 4 | 6 | 9 | 11 => 30
  | _ => 31
  end.
(** CPython datetime: _days_in_month *)
Definition days_in_month (y m : Z) : Z := dim_l (is_leap y) m.

(** CPython datetime: the table _DAYS_BEFORE_MONTH *)
Definition days_before_month_tbl (m : Z) : Z :=
  match m with
  | 1 => 0 | 2 => 31 | 3 => 59 | 4 => 90 | 5 => 120 | 6 => 151 | 7 => 181
  | 8 => 212 | 9 => 243 | 10 => 273 | 11 => 304 | 12 => 334 | _ => 0
  end.

(** CPython [_days_before_month]. *)
Definition days_before_month_l (leap : bool) (m : Z) : Z :=
  days_before_month_tbl m + (if (2 <? m) && leap then 1 else 0).
(** CPython datetime: _days_before_month *)
Definition days_before_month (y m : Z) : Z := days_before_month_l (is_leap y) m.

(** CPython [_ymd2ord]. *)
Definition ymd2ord (y m d : Z) : Z := days_before_year y + days_before_month y m + d.

(** [date(y, m, d)]: ValueError outside years 1..9999, months 1..12, days of the month. *)
Definition ymd_ok (y m d : Z) : bool :=
  (1 <=? y) && (y <=? 9999) && (1 <=? m) && (m <=? 12) && (1 <=? d) && (d <=? days_in_month y m).
(** CPython datetime: date(y, m, d), ValueError out of range *)
Definition mk_date (y m d : Z) : res date :=
  if ymd_ok y m d then Ok (ymd2ord y m d) else Err ValueError.

(** CPython [_ord2ymd]: year part; returns the year and the 0-based day of the year. *)
Definition ord2yd (o : Z) : Z * Z :=
  let n := o - 1 in
  let n400 := n / 146097 in let n := n mod 146097 in
  let n100 := n / 36524 in let n := n mod 36524 in
  let n4 := n / 1461 in let n := n mod 1461 in
  let n1 := n / 365 in let n := n mod 365 in
  let y := n400 * 400 + 1 + n100 * 100 + n4 * 4 + n1 in
  if (n1 =? 4) || (n100 =? 4) then (y - 1, 365) else (y, n).

(** CPython [_ord2ymd]: month part; [n] is the 0-based day of the year. *)
Definition yday2md (leap : bool) (n : Z) : Z * Z :=
  let m := (n + 50) / 32 in
  let p := days_before_month_l leap m in
  if n <? p then
    let m := m - 1 in
    let p := days_before_month_l leap m in (m, n - p + 1)
  else (m, n - p + 1).

(** CPython datetime: date.year *)
Definition year (d : date) : Z := fst (ord2yd d).
(** CPython datetime: tm_yday - 1 *)
Definition yday (d : date) : Z := snd (ord2yd d).       (* 0-based *)
Definition month (d : date) : Z := fst (yday2md (is_leap (year d)) (yday d)).
(** CPython datetime: date.day *)
Definition day (d : date) : Z := snd (yday2md (is_leap (year d)) (yday d)).

(** [date.weekday()]: Monday is 0. *)
Definition weekday (d : date) : Z := (d + 6) mod 7.

(** [date + timedelta(days=n)]: OverflowError out of range. *)
Definition add_days (d : date) (n : Z) : res date :=
  if (min_date <=? d + n) && (d + n <=? max_date) then Ok (d + n) else Err OverflowError.

(** [date + relativedelta(months=n)] (also years, as 12 months, and negative n): dateutil moves to the target month
    and clamps the day; a year outside 1..9999 raises ValueError. *)
Definition add_months (d : date) (n : Z) : res date :=
  let t := year d * 12 + (month d - 1) + n in
  let y := t / 12 in
  let m := t mod 12 + 1 in
  mk_date y m (Z.min (day d) (days_in_month y m)).

(** A datetime: day and microseconds since midnight (no time zone, as everywhere in the code). *)
Definition us_per_day : Z := 86400000000.
(** CPython datetime: a naive datetime: its date and the microseconds since midnight *)
Record datetime := DT { dt_date : date; dt_us : Z }.
(** CPython datetime: the range of datetime objects *)
Definition datetime_ok (t : datetime) : Prop := date_ok (dt_date t) /\ 0 <= dt_us t < us_per_day.
(** Microseconds since ordinal 0; differences are [timedelta]s. *)
Definition dt_abs (t : datetime) : Z := dt_date t * us_per_day + dt_us t.

(** The code accepts both: a plain date or a datetime. *)
Inductive moment := Day (d : date) | Stamp (t : datetime).
(** CPython datetime: the range of either *)
Definition moment_ok (m : moment) : Prop :=
  match m with Day d => date_ok d | Stamp t => datetime_ok t end.
(** [datetime.combine(d, time(0))] for a date, the datetime itself otherwise. *)
Definition to_datetime (m : moment) : datetime :=
  match m with Day d => DT d 0 | Stamp t => t end.
