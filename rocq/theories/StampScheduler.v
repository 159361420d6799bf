(** Model of fixedIncome/src/scheduling_tools/scheduler.py for callers that pass datetimes (a datetime is a date in Python).
    "date_obj not in holidays" (scheduler.py 102): the set holds dates, and CPython never finds a datetime equal to a date,
    so no datetime is in it; the set is still generated, and may raise. *)
From Verif Require Import Base PyDate Holidays Scheduler.

(** datetime + timedelta(days=k): the time of day stays *)
Definition stamp_days (t : datetime) (k : Z) : res datetime := do d <- add_days (dt_date t) k; Ok (DT d (dt_us t)).

(** scheduler.py 96-106 *)
Definition stamp_business (t : datetime) (cal : calendar) : res bool :=
  let d := dt_date t in
  let is_weekday := negb (weekday d =? SATURDAY) && negb (weekday d =? SUNDAY) in
  do _ <- generate_all_holidays (year d) (year d) cal;
  let not_holiday := true in
  Ok (not_holiday && is_weekday).

(** scheduler.py 43-44, 70-72, 91-92: one turn of the loops *)
Definition stamp_step (k : Z) (cal : calendar) (t : datetime) : ctl datetime (res datetime) :=
  match stamp_business t cal with
  | Err e => Stop (Err e)
  | Ok true => Stop (Ok t)
  | Ok false => match stamp_days t k with Ok t' => Go t' | Err e => Stop (Err e) end
  end.
(** scheduler.py 43-44, 70-72, 91-92: the while loop *)
Definition stamp_seek (k : Z) (cal : calendar) (t : datetime) : res datetime := loop date_fuel (stamp_step k cal) t.
(** scheduler.py 54-73 *)
Definition stamp_add_single (t : datetime) (cal : calendar) : res datetime :=
  do b <- stamp_business t cal;
  if negb b then Err ValueError
  else do t1 <- stamp_days t 1; stamp_seek 1 cal t1.
(** scheduler.py 76-93 *)
Definition stamp_subtract_single (t : datetime) (cal : calendar) : res datetime :=
  do b <- stamp_business t cal;
  do t0 <- (if negb b then stamp_seek 1 cal t else Ok t);
  do t1 <- stamp_days t0 (-1);
  stamp_seek (-1) cal t1.
(** scheduler.py 25-51 *)
Definition stamp_add (t : datetime) (n : Z) (cal : calendar) : res datetime :=
  do t0 <- stamp_seek 1 cal t;
  if 0 <=? n then iterM (Z.to_nat n) (fun t => stamp_add_single t cal) t0
  else iterM (Z.to_nat (- n)) (fun t => stamp_subtract_single t cal) t0.
(** scheduler.py 171-187 *)
Definition stamp_modified_following (t : datetime) (cal : calendar) : res datetime :=
  do c <- stamp_add t 0 cal;
  if month (dt_date c) =? month (dt_date t) then Ok c else stamp_add t (-1) cal.
(** scheduler.py 199-248 *)
Definition stamp_settlement (t : datetime) (c : settlement) (cal : calendar) : res datetime :=
  match c with
  | T_MINUS_TWO_BUSINESS => stamp_add t (-2) cal
  | T_MINUS_ONE_BUSINESS => stamp_add t (-1) cal
  | T_MINUS_ZERO_BUSINESS =>
      do b <- stamp_business t cal;
      if b then Ok t else stamp_add t (-1) cal
  | T_PLUS_ZERO_BUSINESS => stamp_add t 0 cal
  | T_PLUS_ONE_BUSINESS => stamp_add t 1 cal
  | T_PLUS_TWO_BUSINESS => stamp_add t 2 cal
  | T_PLUS_THREE_BUSINESS => stamp_add t 3 cal
  | _ => Err ValueError
  end.
