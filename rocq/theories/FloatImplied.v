(** Model of implied_rate of fixedIncome/src/assets/rates/linear_rates/interest_rate_swap.py in binary64. *)
From Verif Require Import Base PyDate DayCount Holidays Scheduler PyList Bond Loan Swap Float FloatDayCount FloatKeyRate FloatCashflow FloatSwap.
Open Scope Z_scope.

(** interest_rate_swap.py 355-364: discounted_fixed_accruals += discount * (accrual_factor * notional) *)
Fixpoint f_annuity (a : f_swap_args) (dc : f_discount) (accs : list f_accrual) (total : f64) : res f64 :=
  match accs with
  | [] => Ok total
  | p :: accs =>
      do d <- calculate_settlement_date (fa_end p) (sw_delay (fs_terms a)) (sw_cal (fs_terms a));
      do df <- fd_call dc d;
      f_annuity a dc accs (fadd total (fmul df (fmul (fa_factor p) (fs_notional a))))
  end.
(** interest_rate_swap.py 347-366; [total] is the builtin sum (FloatCashflow.v); the divisor 0.0 raises ZeroDivisionError *)
Definition f_implied_rate (total : list f64 -> f64) (a : f_swap_args) (s : swap) (dc : f_discount) (rate : date -> res f64) : res f64 :=
  do cf <- f_floating_leg a s rate;
  do pv <- f_cf_present_value total cf dc;
  do accs <- f_accrual_schedule s (sw_fixed_freq (fs_terms a)) (sw_fixed_dcc (fs_terms a));
  do an <- f_annuity a dc accs (of_int 0);
  fdiv pv an.
