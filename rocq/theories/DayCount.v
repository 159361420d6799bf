(** Model of fixedIncome/src/scheduling_tools/day_count_calculator.py.
    Floats are exact rationals. *)
From Verif Require Import Base PyDate.
Open Scope Z_scope.

(** schedule_enumerations.py 17-22 *)
Inductive dcc := ACT360 | ACT365 | ACT365_25 | ACTACT | THIRTY360.

(** day_count_calculator.py 99-105 *)
Definition dcc_act_over_360 (s e : date) : res Q := Ok (inject_Z (e - s) / inject_Z 360)%Q.
(** day_count_calculator.py 107-113 *)
Definition dcc_act_over_365 (s e : date) : res Q := Ok (inject_Z (e - s) / inject_Z 365)%Q.
(** day_count_calculator.py 115-121; 365.25 = 1461/4 *)
Definition dcc_act_over_365_25 (s e : date) : res Q := Ok (inject_Z (e - s) / (1461 # 4))%Q.

(** day_count_calculator.py 124-169: the adjusted day count (numerator over 360). *)
Definition days_30_360 (s e : date) : Z :=
  let start_feb := (month s =? 2) && (day s =? 28) in
  let end_feb := (month e =? 2) && (day e =? 28) in
  let end_day := if start_feb && end_feb then 30 else day e in
  let start_day := if start_feb then 30 else day s in
  let end_day := if (end_day =? 31) && ((start_day =? 31) || (start_day =? 30)) then 30 else end_day in
  let start_day := if start_day =? 31 then 30 else start_day in
  360 * (year e - year s) + 30 * (month e - month s) + (end_day - start_day).
(** day_count_calculator.py 124-169 *)
Definition dcc_30_over_360 (s e : date) : res Q := Ok (inject_Z (days_30_360 s e) / inject_Z 360)%Q.

(** day_count_calculator.py 171-197.  [date(year-1,12,31)] raises ValueError in year 1. *)
Definition dcc_act_over_act (s e : date) : res Q :=
  do s_eoy <- mk_date (year s) 12 31;
  do s_eoly <- mk_date (year s - 1) 12 31;
  do e_eoy <- mk_date (year e) 12 31;
  do e_eoly <- mk_date (year e - 1) 12 31;
  if year s =? year e then Ok (inject_Z (e - s) / inject_Z (e_eoy - e_eoly))%Q
  else
    let whole := year e - year s in
    let start_res := (inject_Z (s_eoy - s) / inject_Z (s_eoy - s_eoly))%Q in
    let end_res := (inject_Z (e - e_eoly) / inject_Z (e_eoy - e_eoly))%Q in
    Ok (inject_Z (whole - 1) + start_res + end_res)%Q.

(** timedelta.total_seconds() of a microsecond difference *)
Definition seconds (us : Z) : Q := (inject_Z us / inject_Z 1000000)%Q.

(** day_count_calculator.py 18-56: the wrapper allowing datetimes. *)
Definition include_datetimes (f : date -> date -> res Q) (s e : moment) : res Q :=
  match s, e with
  | Day s, Day e => f s e
  | _, _ =>
    let start_outer := match s with Stamp t => dt_date t | Day d => d end in
    do end_outer <- match e with Stamp t => add_days (dt_date t) 1 | Day d => Ok d end;
    do start_inner <- match s with Stamp t => add_days (dt_date t) 1 | Day d => Ok d end;
    let end_inner := match e with Stamp t => dt_date t | Day d => d end in
    let start_dt := to_datetime s in
    let end_dt := to_datetime e in
    do inner <- f start_inner end_inner;
    do outer <- f start_outer end_outer;
    let diff := (outer - inner)%Q in
    let start_secs := seconds (dt_abs (DT start_inner 0) - dt_abs start_dt) in
    let start_width := seconds ((start_inner - start_outer) * us_per_day) in
    let end_secs := seconds (dt_abs end_dt - dt_abs (DT end_inner 0)) in
    let end_width := seconds ((end_outer - end_inner) * us_per_day) in
    let scaling := ((start_secs + end_secs) / (start_width + end_width))%Q in
    Ok (inner + diff * scaling)%Q
  end.

(** day_count_calculator.py 201-205 *)
Definition check_dates (s e : moment) : bool :=
  dt_abs (to_datetime s) <=? dt_abs (to_datetime e).

(** day_count_calculator.py 59-94 *)
Definition compute_accrual_length (s e : moment) (c : dcc) : res Q :=
  if negb (check_dates s e) then Err ValueError
  else match c with
       | ACT360 => include_datetimes dcc_act_over_360 s e
       | ACT365 => include_datetimes dcc_act_over_365 s e
       | ACT365_25 => include_datetimes dcc_act_over_365_25 s e
       | THIRTY360 => include_datetimes dcc_30_over_360 s e
       | ACTACT => include_datetimes dcc_act_over_act s e
       end.
