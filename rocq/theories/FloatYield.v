(** Model of the fixed-rate discounting of fixedIncome/src/assets/us_treasury_instruments/us_treasury_instruments.py (and, line for
    line, corporate_bond.py) in binary64.  Bonds are those of FloatBond.v. *)
From Verif Require Import Base PyDate DayCount Scheduler Bond Float FloatDayCount FloatBond.
From Flocq Require Import BinarySingleNaN.
Open Scope Z_scope.

Section Pow.
(** float ** float: the C library's pow, whose accuracy is a hypothesis of the theorems *)
Variable pow : f64 -> f64 -> res f64.

(** us_treasury_instruments.py 311-312, 320-321; corporate_bond.py 333-334: 1 / (1 + fixed_rate / n) ** (accrual * n), n an int *)
Definition f_fixed_df (n : Z) (rate accrual : f64) : res f64 :=
  let e := fmul accrual (of_int n) in
  do x <- fdiv rate (of_int n);
  do w <- pow (fadd (of_int 1) x) e;
  fdiv (of_int 1) w.
(** us_treasury_instruments.py 236-246 with a reference date *)
Definition f_is_payment_received (t : bond_args) (unadjusted ref : date) : res bool :=
  do sd <- add_business_days ref 1 (b_cal t); Ok (sd <=? unadjusted).
(** us_treasury_instruments.py 308-313, 316-322: one loop over (payment date, unadjusted date, amount), from an initial value *)
Fixpoint f_add_discounted (t : bond_args) (rate : f64) (ref : date) (l : list (date * date * f64)) (pv : f64) : res f64 :=
  match l with
  | [] => Ok pv
  | (d, un, x) :: l =>
      do r <- f_is_payment_received t un ref;
      if r then
        do a <- f_compute_accrual_length (Day ref) (Day d) (b_dcc t);
        do df <- f_fixed_df (per_year (freq t)) rate a;
        f_add_discounted t rate ref l (fadd pv (fmul df x))
      else f_add_discounted t rate ref l pv
  end.
(** us_treasury_instruments.py 248-257: the principal repayment, with the principal as a double *)
Definition f_redemption (a : f_bond_args) : res (list (date * date * f64)) :=
  do pr <- create_principal_repayment_cashflow (fb_terms a);
  Ok (List.map (fun p => (bp_date p, bp_unadjusted p, fb_principal a)) pr).
(** us_treasury_instruments.py 298-324; corporate_bond.py 320-346.  [float(fixed_rate)] has been taken. *)
Definition f_discount_cashflows_by_fixed_rate (a : f_bond_args) (b : f_bond) (rate : f64) (ref : option date) : res f64 :=
  let ref := match ref with Some d => d | None => purchase_date (fb_terms a) end in
  do pr <- f_redemption a;
  do pv <- f_add_discounted (fb_terms a) rate ref (fb_coupons b) (of_int 0);
  f_add_discounted (fb_terms a) rate ref pr pv.
(** us_treasury_instruments.py 339-346: the residual handed to scipy.optimize.root *)
Definition f_ytm_residual (a : f_bond_args) (b : f_bond) (ref : option date) (rate : f64) : res f64 :=
  do target <- fdiv (fmul (fb_full_price b) (fb_principal a)) (of_int 100);
  do pv <- f_discount_cashflows_by_fixed_rate a b rate ref; Ok (fsub target pv).
(** risk_metrics.py: ONE_BASIS_POINT = 0.0001, the double 7378697629483821 * 2^-66 *)
Definition f_one_bp : f64 := flit 7378697629483821 (-66).
(** us_treasury_instruments.py 354-365 with the default offset, the int 0: ytm + 0 + ONE_BASIS_POINT/2 *)
Definition f_pv_deriv (a : f_bond_args) (b : f_bond) (ytm : f64) : res f64 :=
  do half <- fdiv f_one_bp (of_int 2);
  do up <- f_discount_cashflows_by_fixed_rate a b (fadd (fadd ytm (of_int 0)) half) None;
  do down <- f_discount_cashflows_by_fixed_rate a b (fsub (fadd ytm (of_int 0)) half) None;
  fdiv (fsub up down) f_one_bp.
(** us_treasury_instruments.py 367-373 *)
Definition f_duration (a : f_bond_args) (b : f_bond) (ytm : f64) : res f64 :=
  do d <- f_pv_deriv a b ytm; fdiv (Bopp d) (fb_full_price b).
End Pow.
