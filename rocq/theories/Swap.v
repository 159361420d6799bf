(** Model of fixedIncome/src/assets/rates/linear_rates/interest_rate_swap.py. *)
From Verif Require Import Base PyDate DayCount Holidays Scheduler PyList KeyRate Curve Cashflow Bond Loan.
Open Scope Z_scope.

(** interest_rate_swap.py 25-27 *)
Inductive direction := PAYER_FIXED | RECEIVER_FIXED.
(** interest_rate_swap.py 30-34: the fixing date is never set by the schedules (263-265, 302-304) *)
Record swap_accrual := SwapAccrual { start_accrual : date; end_accrual : date; accrual_factor : Q }.
(** interest_rate_swap.py 369 TermInterestRateSwap, 411 OvernightIndexSwap *)
Inductive swap_class := Term | Overnight.

(** interest_rate_swap.py 38-54: constructor arguments (the float index is only stored) *)
Record swap_args := SwapArgs {
  sw_class : swap_class; sw_dir : direction; sw_rate : R; sw_notional : R; sw_purchase : date; sw_settlement : settlement; sw_tenor : tenor;
  sw_float_freq : frequency; sw_fixed_freq : frequency; sw_float_dcc : dcc; sw_fixed_dcc : dcc; sw_cal : calendar;
  sw_fixing : settlement; sw_delay : settlement; sw_adjust : bd_adjustment
}.
(** interest_rate_swap.py 56-77: attributes *)
Record swap := Swap { sw : swap_args; sw_start : date; sw_end : date; sw_legs : cf_collection }.

(** interest_rate_swap.py 159-179.  The start date is computed first; int() and the match raise ValueError. *)
Definition calculate_start_end_accrual_dates (a : swap_args) : res (date * date) :=
  do s <- calculate_settlement_date (sw_purchase a) (sw_settlement a) (sw_cal a);
  do e <- match sw_tenor a with Years n => add_months s (12 * n) | Months n => add_months s n | BadTenor => Err ValueError end;
  Ok (s, e).
(** interest_rate_swap.py 38-77 *)
Definition new_swap (a : swap_args) : res swap :=
  do p <- calculate_start_end_accrual_dates a;
  Ok (Swap a (fst p) (snd p) (new_cf_collection [None; None] [FIXED_LEG; FLOATING_LEG])).

(** interest_rate_swap.py 183-191 *)
Definition sw_to_knot (s : swap) : knot_value := (sw_end s, sw_rate (sw s)).

(** interest_rate_swap.py 217-231 *)
Definition sw_adjustment (a : swap_args) (d : date) : res date :=
  match sw_adjust a with
  | FOLLOWING => following_date_adjustment d (sw_cal a)
  | MODIFIED_FOLLOWING => modified_following_date_adjustment d (sw_cal a)
  end.

(** interest_rate_swap.py 238-249, 277-288: months per period *)
Definition swap_step (f : frequency) : res Z :=
  match f with ANNUAL => Ok 12 | SEMI_ANNUAL => Ok 6 | QUARTERLY => Ok 3 | ZERO_COUPON | MONTHLY => Err ValueError end.

(** interest_rate_swap.py 251-254, 290-293: the adjusted dates, increasing; max_dates is the default 1000 *)
Definition accrual_dates (s : swap) (m : Z) : res (list date) :=
  do ds <- generate_dates_by_increments (sw_end s) (sw_start s) (Relativedelta (- m) 0) 1000;
  mapM (sw_adjustment (sw s)) (rev ds).

(** interest_rate_swap.py 234-269 and 272-306 (the same code on the leg's own frequency and convention) *)
Definition accrual_schedule (s : swap) (f : frequency) (c : dcc) : res (list swap_accrual) :=
  do m <- swap_step f;
  do ds <- accrual_dates s m;
  mapM (fun p => do q <- acc c (fst p) (snd p); Ok (SwapAccrual (fst p) (snd p) q)) (pairwise ds).
(** interest_rate_swap.py 234-269 *)
Definition generate_floating_leg_accrual_schedule (s : swap) := accrual_schedule s (sw_float_freq (sw s)) (sw_float_dcc (sw s)).
(** interest_rate_swap.py 272-306 *)
Definition generate_fixed_leg_accrual_schedule (s : swap) := accrual_schedule s (sw_fixed_freq (sw s)) (sw_fixed_dcc (sw s)).

(** interest_rate_swap.py 338-342, 402-406, 474-478: storing a leg *)
Definition set_leg (k : cf_key) (set : bool) (c : cashflow) (s : swap) : swap :=
  if set then Swap (sw s) (sw_start s) (sw_end s) (cfc_setitem k (Some c) (sw_legs s)) else s.

(** interest_rate_swap.py 328-336 *)
Definition fixed_payment (a : swap_args) (rate : R) (p : swap_accrual) : res payment :=
  do d <- calculate_settlement_date (end_accrual p) (sw_delay a) (sw_cal a);
  Ok (Payment d (Some (Q2R (accrual_factor p) * sw_notional a * rate)%R)).
(** interest_rate_swap.py 318-344 *)
Definition generate_fixed_leg_cashflow (s : swap) (set : bool) : swap * res cashflow :=
  match (do accs <- generate_fixed_leg_accrual_schedule s; mapM (fixed_payment (sw s) (sw_rate (sw s))) accs) with
  | Err e => (s, Err e)
  | Ok ps => let c := new_cashflow ps in (set_leg FIXED_LEG set c s, Ok c)
  end.

(** interest_rate_swap.py 428-438: the loop over consecutive business days; [rate] is the interest_rate callable *)
Fixpoint compound (rate : date -> res R) (l : list (date * date)) (growth : R) (total : Q) : res (R * Q) :=
  match l with
  | [] => Ok (growth, total)
  | (s, e) :: l =>
      do a <- acc ACT360 s e;
      do r <- rate s;
      compound rate l (growth * (1 + r * Q2R a))%R (total + a)
  end.
(** interest_rate_swap.py 413-438: with fewer than two business days the divisor is 0.0 *)
Definition calculate_annualized_rate (a : swap_args) (rate : date -> res R) (s e : date) : res R :=
  do ds <- generate_business_days s e (sw_cal a);
  do p <- compound rate (pairwise ds) 1%R 0%Q;
  if Qeq_bool (snd p) 0 then Err ZeroDivisionError else Ok ((fst p - 1) / Q2R (snd p))%R.

(** interest_rate_swap.py 385-399: fixing, rate, payment date, amount *)
Definition term_payment (a : swap_args) (rate : date -> res R) (p : swap_accrual) : res payment :=
  do f <- calculate_settlement_date (start_accrual p) (sw_fixing a) (sw_cal a);
  do r <- rate f;
  do d <- calculate_settlement_date (end_accrual p) (sw_delay a) (sw_cal a);
  Ok (Payment d (Some (Q2R (accrual_factor p) * sw_notional a * r)%R)).
(** interest_rate_swap.py 458-471 *)
Definition ois_payment (a : swap_args) (rate : date -> res R) (p : swap_accrual) : res payment :=
  do d <- calculate_settlement_date (end_accrual p) (sw_delay a) (sw_cal a);
  do r <- calculate_annualized_rate a rate (start_accrual p) (end_accrual p);
  Ok (Payment d (Some (Q2R (accrual_factor p) * sw_notional a * r)%R)).
(** interest_rate_swap.py 371-408 (Term), 441-480 (Overnight) *)
Definition generate_floating_leg_cashflow (s : swap) (rate : date -> res R) (set : bool) : swap * res cashflow :=
  match (do accs <- generate_floating_leg_accrual_schedule s;
         mapM (match sw_class (sw s) with Term => term_payment (sw s) rate | Overnight => ois_payment (sw s) rate end) accs) with
  | Err e => (s, Err e)
  | Ok ps => let c := new_cashflow ps in (set_leg FLOATING_LEG set c s, Ok c)
  end.

Section Splines.
Variable spline : interp_method -> list (Q * R) -> Q -> R.

(** interest_rate_swap.py 193-213 *)
Definition sw_present_value (s : swap) (dc : curve) : res R :=
  do fixed <- cfc_getitem (sw_legs s) FIXED_LEG;
  match fixed with
  | None => Err ValueError
  | Some fixed =>
      do float <- cfc_getitem (sw_legs s) FLOATING_LEG;
      match float with
      | None => Err ValueError
      | Some float =>
          do float_pv <- cf_present_value spline float dc;
          do fixed_pv <- cf_present_value spline fixed dc;
          Ok (match sw_dir (sw s) with RECEIVER_FIXED => fixed_pv - float_pv | PAYER_FIXED => float_pv - fixed_pv end)%R
      end
  end.

(** interest_rate_swap.py 355-364: the discounted annuity *)
Fixpoint annuity (a : swap_args) (dc : curve) (accs : list swap_accrual) (total : R) : res R :=
  match accs with
  | [] => Ok total
  | p :: accs =>
      do d <- calculate_settlement_date (end_accrual p) (sw_delay a) (sw_cal a);
      do df <- interpolate spline dc d None;
      annuity a dc accs (total + df * (Q2R (accrual_factor p) * sw_notional a))%R
  end.
(** interest_rate_swap.py 347-366: division by an annuity of 0 raises (Python floats) *)
Definition implied_rate (s : swap) (dc : curve) (rate : date -> res R) (set : bool) : swap * res R :=
  let '(s', cf) := generate_floating_leg_cashflow s rate set in
  (s', do cf <- cf;
       do float_pv <- cf_present_value spline cf dc;
       do accs <- generate_fixed_leg_accrual_schedule s;
       do an <- annuity (sw s) dc accs 0%R;
       if Req_EM_T an 0 then Err ZeroDivisionError else Ok (float_pv / an)%R).
End Splines.
