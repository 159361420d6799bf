(** Model of the amounts of fixedIncome/src/assets/rates/linear_rates/interest_rate_swap.py in binary64.  Dates and schedules
    are those of Swap.v. *)
From Verif Require Import Base PyDate DayCount Holidays Scheduler PyList Bond Loan Swap Float FloatDayCount FloatKeyRate FloatCashflow.
Open Scope Z_scope.

(** interest_rate_swap.py 38-54: notional and fixed rate as doubles (ints are taken as already converted); of [fs_terms] only
    dates, conventions and calendar are read *)
Record f_swap_args := FSwapArgs { fs_terms : swap_args; fs_rate : f64; fs_notional : f64 }.
(** interest_rate_swap.py 30-34 *)
Record f_accrual := FAccrual { fa_start : date; fa_end : date; fa_factor : f64 }.
(** interest_rate_swap.py 234-269 and 272-306 *)
Definition f_accrual_schedule (s : swap) (f : frequency) (c : dcc) : res (list f_accrual) :=
  do m <- swap_step f;
  do ds <- accrual_dates s m;
  mapM (fun p => do x <- f_compute_accrual_length (Day (fst p)) (Day (snd p)) c; Ok (FAccrual (fst p) (snd p) x)) (pairwise ds).

(** interest_rate_swap.py 331, 393, 469: accrual_factor * notional * rate *)
Definition f_amount (x notional rate : f64) : f64 := fmul (fmul x notional) rate.
(** interest_rate_swap.py 330-336 *)
Definition f_fixed_payment (a : f_swap_args) (p : f_accrual) : res f_payment :=
  do d <- calculate_settlement_date (fa_end p) (sw_delay (fs_terms a)) (sw_cal (fs_terms a));
  Ok (FPayment d (Some (f_amount (fa_factor p) (fs_notional a) (fs_rate a)))).
(** interest_rate_swap.py 385-399 *)
Definition f_term_payment (a : f_swap_args) (rate : date -> res f64) (p : f_accrual) : res f_payment :=
  do f <- calculate_settlement_date (fa_start p) (sw_fixing (fs_terms a)) (sw_cal (fs_terms a));
  do r <- rate f;
  do d <- calculate_settlement_date (fa_end p) (sw_delay (fs_terms a)) (sw_cal (fs_terms a));
  Ok (FPayment d (Some (f_amount (fa_factor p) (fs_notional a) r))).

(** interest_rate_swap.py 428-436: sum_accruals += accrual; total_accrued_growth *= (1 + rate * accrual) *)
Fixpoint f_compound (rate : date -> res f64) (l : list (date * date)) (growth total : f64) : res (f64 * f64) :=
  match l with
  | [] => Ok (growth, total)
  | (s, e) :: l =>
      do a <- f_compute_accrual_length (Day s) (Day e) ACT360;
      do r <- rate s;
      f_compound rate l (fmul growth (fadd (of_int 1) (fmul r a))) (fadd total a)
  end.
(** interest_rate_swap.py 413-438: the divisor 0.0 raises ZeroDivisionError *)
Definition f_calculate_annualized_rate (cal : calendar) (rate : date -> res f64) (s e : date) : res f64 :=
  do ds <- generate_business_days s e cal;
  do p <- f_compound rate (pairwise ds) (of_int 1) (of_int 0);
  fdiv (fsub (fst p) (of_int 1)) (snd p).
(** interest_rate_swap.py 458-471 *)
Definition f_ois_payment (a : f_swap_args) (rate : date -> res f64) (p : f_accrual) : res f_payment :=
  do d <- calculate_settlement_date (fa_end p) (sw_delay (fs_terms a)) (sw_cal (fs_terms a));
  do r <- f_calculate_annualized_rate (sw_cal (fs_terms a)) rate (fa_start p) (fa_end p);
  Ok (FPayment d (Some (f_amount (fa_factor p) (fs_notional a) r))).
(** interest_rate_swap.py 318-344 without the assignment; Cashflow (base_cashflow.py 30-32) sorts the payments by date *)
Definition f_fixed_leg (a : f_swap_args) (s : swap) : res (list f_payment) :=
  do accs <- f_accrual_schedule s (sw_fixed_freq (fs_terms a)) (sw_fixed_dcc (fs_terms a)); do ps <- mapM (f_fixed_payment a) accs; Ok (sort_by fp_date ps).
(** interest_rate_swap.py 371-408 (Term), 441-480 (Overnight) without the assignment *)
Definition f_floating_leg (a : f_swap_args) (s : swap) (rate : date -> res f64) : res (list f_payment) :=
  do accs <- f_accrual_schedule s (sw_float_freq (fs_terms a)) (sw_float_dcc (fs_terms a));
  do ps <- mapM (match sw_class (fs_terms a) with Term => f_term_payment a rate | Overnight => f_ois_payment a rate end) accs; Ok (sort_by fp_date ps).
(** interest_rate_swap.py 193-213 with both legs set; [total] is the builtin sum (FloatCashflow.v) *)
Definition f_sw_present_value (total : list f64 -> f64) (d : direction) (fixed float : list f_payment) (dc : f_discount) : res f64 :=
  do float_pv <- f_cf_present_value total float dc;
  do fixed_pv <- f_cf_present_value total fixed dc;
  Ok (match d with RECEIVER_FIXED => fsub fixed_pv float_pv | PAYER_FIXED => fsub float_pv fixed_pv end).
