(** Model of fixedIncome/src/scheduling_tools/day_count_calculator.py with Python's floats (DayCount.v is the same program
    over exact numbers). *)
From Verif Require Import Base PyDate DayCount Float.
Open Scope Z_scope.

(** day_count_calculator.py 99-105 *)
Definition f_act_over_360 (s e : date) : res f64 := fdiv (of_int (e - s)) (of_int 360).
(** day_count_calculator.py 107-113 *)
Definition f_act_over_365 (s e : date) : res f64 := fdiv (of_int (e - s)) (of_int 365).
(** day_count_calculator.py 115-121; 365.25 = 1461 * 2^-2 *)
Definition f_act_over_365_25 (s e : date) : res f64 := fdiv (of_int (e - s)) (flit 1461 (-2)).
(** day_count_calculator.py 124-169: the day count is an int *)
Definition f_30_over_360 (s e : date) : res f64 := fdiv (of_int (days_30_360 s e)) (of_int 360).
(** day_count_calculator.py 171-197 *)
Definition f_act_over_act (s e : date) : res f64 :=
  do s_eoy <- mk_date (year s) 12 31;
  do s_eoly <- mk_date (year s - 1) 12 31;
  do e_eoy <- mk_date (year e) 12 31;
  do e_eoly <- mk_date (year e - 1) 12 31;
  if year s =? year e then int_div (e - s) (e_eoy - e_eoly)
  else
    let whole := year e - year s in
    do start_res <- int_div (s_eoy - s) (s_eoy - s_eoly);
    do end_res <- int_div (e - e_eoly) (e_eoy - e_eoly);
    Ok (fadd (fadd (of_int (whole - 1)) start_res) end_res).

(** timedelta.total_seconds(): (days * 86400 + seconds) * 10**6 + microseconds) / 10**6, an int division *)
Definition f_seconds (us : Z) : res f64 := int_div us 1000000.

(** day_count_calculator.py 18-56 *)
Definition f_include_datetimes (f : date -> date -> res f64) (s e : moment) : res f64 :=
  match s, e with
  | Day s, Day e => f s e
  | _, _ =>
    let start_outer := match s with Stamp t => dt_date t | Day d => d end in
    do end_outer <- match e with Stamp t => add_days (dt_date t) 1 | Day d => Ok d end;
    do start_inner <- match s with Stamp t => add_days (dt_date t) 1 | Day d => Ok d end;
    let end_inner := match e with Stamp t => dt_date t | Day d => d end in
    let start_dt := to_datetime s in
    let end_dt := to_datetime e in
    do inner <- f start_inner end_inner;
    do outer <- f start_outer end_outer;
    let diff := fsub outer inner in
    do start_secs <- f_seconds (dt_abs (DT start_inner 0) - dt_abs start_dt);
    do start_width <- f_seconds ((start_inner - start_outer) * us_per_day);
    do end_secs <- f_seconds (dt_abs end_dt - dt_abs (DT end_inner 0));
    do end_width <- f_seconds ((end_outer - end_inner) * us_per_day);
    do scaling <- fdiv (fadd start_secs end_secs) (fadd start_width end_width);
    Ok (fadd inner (fmul diff scaling))
  end.

(** day_count_calculator.py 59-94 *)
Definition f_compute_accrual_length (s e : moment) (c : dcc) : res f64 :=
  if negb (check_dates s e) then Err ValueError
  else match c with
       | ACT360 => f_include_datetimes f_act_over_360 s e
       | ACT365 => f_include_datetimes f_act_over_365 s e
       | ACT365_25 => f_include_datetimes f_act_over_365_25 s e
       | THIRTY360 => f_include_datetimes f_30_over_360 s e
       | ACTACT => f_include_datetimes f_act_over_act s e
       end.
(** day_count_calculator.py 11-16: SECONDS_PER_YEAR = 365.25 * 86400 = 31557600.0 *)
Definition f_time_fraction_in_years (us : Z) : res f64 := do s <- f_seconds us; fdiv s (fmul (flit 1461 (-2)) (of_int 86400)).
