(** Model of the Macaulay duration of fixedIncome/src/assets/credit/corporate_bond.py in binary64.  Bonds are those of
    FloatBond.v, discount factors those of FloatYield.v. *)
From Verif Require Import Base PyDate DayCount Scheduler Bond Float FloatDayCount FloatBond FloatYield.
From Flocq Require Import BinarySingleNaN.
Open Scope Z_scope.

Section Pow.
(** float ** float: the C library's pow *)
Variable pow : f64 -> f64 -> res f64.
(** corporate_bond.py 396-412: one loop over (payment date, unadjusted date, amount), from an initial value;
    is_payment_received without a reference date compares with the settlement date of the bond *)
Fixpoint f_add_pv_times_accrual (t : bond_args) (settled : date) (rate : f64) (ref : date) (l : list (date * date * f64)) (s : f64) : res f64 :=
  match l with
  | [] => Ok s
  | (d, un, x) :: l =>
      if settled <=? un then
        do a <- f_compute_accrual_length (Day ref) (Day d) (b_dcc t);
        do df <- f_fixed_df pow (per_year (freq t)) rate a;
        f_add_pv_times_accrual t settled rate ref l (fadd s (fmul (fmul df x) a))
      else f_add_pv_times_accrual t settled rate ref l s
  end.
(** corporate_bond.py 389-416.  [float(fixed_rate)] has been taken. *)
Definition f_macaulay_duration (a : f_bond_args) (b : f_bond) (rate : f64) (ref : option date) : res f64 :=
  let ref := match ref with Some d => d | None => purchase_date (fb_terms a) end in
  do pr <- f_redemption a;
  do s <- f_add_pv_times_accrual (fb_terms a) (fb_settled b) rate ref (fb_coupons b) (of_int 0);
  do s <- f_add_pv_times_accrual (fb_terms a) (fb_settled b) rate ref pr s;
  do den <- fdiv (fmul (fb_full_price b) (fb_principal a)) (of_int 100);
  fdiv s den.
End Pow.
