(** Model of fixedIncome/src/scheduling_tools/scheduler.py. *)
From Verif Require Import Base PyDate Holidays.

(** scheduler.py 96-106.  Holidays of the date's own year only, as in the code. *)
Definition is_business_day (d : date) (cal : calendar) : res bool :=
  let is_weekday := negb (weekday d =? SATURDAY) && negb (weekday d =? SUNDAY) in
  do hs <- generate_all_holidays (year d) (year d) cal;
  let not_holiday := negb (existsb (Z.eqb d) hs) in
  Ok (not_holiday && is_weekday).

(** The loops [while not is_business_day(d): d += timedelta(days=k)], k = 1 or -1 (scheduler.py 43-44, 70-72, 91-92). *)
Definition step_business (k : Z) (cal : calendar) (d : date) : ctl date (res date) :=
  match is_business_day d cal with
  | Err e => Stop (Err e)
  | Ok true => Stop (Ok d)
  | Ok false => match add_days d k with Ok d' => Go d' | Err e => Stop (Err e) end
  end.
(** scheduler.py 43-44, 70-72: the while loop *)
Definition seek_business (k : Z) (cal : calendar) (d : date) : res date :=
  loop date_fuel (step_business k cal) d.

(** scheduler.py 54-73 *)
Definition add_single_business_day (d : date) (cal : calendar) : res date :=
  do b <- is_business_day d cal;
  if negb b then Err ValueError
  else do d1 <- add_days d 1; seek_business 1 cal d1.

(** scheduler.py 76-93; [add_business_days d 0] is the first loop of add_business_days. *)
Definition subtract_single_business_day (d : date) (cal : calendar) : res date :=
  do b <- is_business_day d cal;
  do d0 <- (if negb b then seek_business 1 cal d else Ok d);
  do d1 <- add_days d0 (-1);
  seek_business (-1) cal d1.

(** [for _ in range(0, n, ±1)]: n-fold iteration of a raising function. *)
Fixpoint iterM {A} (n : nat) (f : A -> res A) (a : A) : res A :=
  match n with O => Ok a | S n => do a' <- f a; iterM n f a' end.

(** scheduler.py 25-51 *)
Definition add_business_days (d : date) (n : Z) (cal : calendar) : res date :=
  do d0 <- seek_business 1 cal d;
  if 0 <=? n then iterM (Z.to_nat n) (fun d => add_single_business_day d cal) d0
  else iterM (Z.to_nat (- n)) (fun d => subtract_single_business_day d cal) d0.

(** scheduler.py 109-119 *)
Definition step_generate (e : date) (cal : calendar) (st : date * list date) : ctl (date * list date) (res (list date)) :=
  let (cur, acc) := st in
  if cur <=? e then
    match add_single_business_day cur cal with
    | Ok nxt => Go (nxt, acc ++ [cur])
    | Err x => Stop (Err x)
    end
  else Stop (Ok acc).
(** scheduler.py 109-119 *)
Definition generate_business_days (s e : date) (cal : calendar) : res (list date) :=
  do cur <- add_business_days s 0 cal;
  loop date_fuel (step_generate e cal) (cur, []).

(** Increments: a timedelta (days and microseconds; on plain dates only the days count) or a relativedelta of months
    (years = 12 months) plus days.  A relativedelta applies months first, then days (dateutil). *)
Inductive increment := Timedelta (days us : Z) | Relativedelta (months days : Z).

(** [date_obj + increment] on plain dates: [date + timedelta] ignores the sub-day part. *)
Definition add_increment (d : date) (i : increment) : res date :=
  match i with
  | Timedelta n _ => add_days d n
  | Relativedelta m n => do d' <- add_months d m; add_days d' n
  end.

(** scheduler.py 190-196 (test date computed once from the start date) and 136-144.
    [timedelta.total_seconds() >= 0]: 0 <= us < 86400e6 in normal form, so the sign is that of days. *)
Definition positive_increment (d : date) (i : increment) : res bool :=
  match i with
  | Timedelta n _ => Ok (0 <=? n)
  | Relativedelta _ _ => do t <- add_increment d i; Ok (d <=? t)
  end.

(** scheduler.py 122-157.  The count starts at 0 and the loop tests [count <= max_dates]; a nat recursion of
    max_dates + 1 steps (none for negative max_dates). *)
Fixpoint grid_loop (n : nat) (up : bool) (d e : date) (i : increment) : res (list date) :=
  match n with
  | O => Ok []
  | S n =>
    if (if up then d <=? e else e <=? d)
    then do d' <- add_increment d i; do r <- grid_loop n up d' e i; Ok (d :: r)
    else Ok []
  end.
(** scheduler.py 123-158 *)
Definition generate_dates_by_increments (s e : date) (i : increment) (max_dates : Z) : res (list date) :=
  do up <- positive_increment s i;
  grid_loop (Z.to_nat (max_dates + 1)) up s e i.

(** scheduler.py 161-168 *)
Definition following_date_adjustment (d : date) (cal : calendar) : res date := add_business_days d 0 cal.

(** scheduler.py 171-187 *)
Definition modified_following_date_adjustment (d : date) (cal : calendar) : res date :=
  do c <- add_business_days d 0 cal;
  if month c =? month d then Ok c else add_business_days d (-1) cal.

(** schedule_enumerations.py 25-36 *)
Inductive settlement :=
| T_MINUS_TWO_BUSINESS | T_MINUS_ONE_BUSINESS | T_MINUS_ZERO_BUSINESS
| T_PLUS_ZERO_BUSINESS | T_PLUS_ONE_BUSINESS | T_PLUS_TWO_BUSINESS | T_PLUS_THREE_BUSINESS
| T_PLUS_ZERO_CALENDAR | T_PLUS_ONE_CALENDAR | T_PLUS_TWO_CALENDAR | T_PLUS_THREE_CALENDAR.

(** scheduler.py 199-248 *)
Definition calculate_settlement_date (p : date) (c : settlement) (cal : calendar) : res date :=
  match c with
  | T_MINUS_TWO_BUSINESS => add_business_days p (-2) cal
  | T_MINUS_ONE_BUSINESS => add_business_days p (-1) cal
  | T_MINUS_ZERO_BUSINESS =>
      do b <- is_business_day p cal;
      if b then Ok p else add_business_days p (-1) cal
  | T_PLUS_ZERO_BUSINESS => add_business_days p 0 cal
  | T_PLUS_ONE_BUSINESS => add_business_days p 1 cal
  | T_PLUS_TWO_BUSINESS => add_business_days p 2 cal
  | T_PLUS_THREE_BUSINESS => add_business_days p 3 cal
  | _ => Err ValueError
  end.
