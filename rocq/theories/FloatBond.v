(** Model of the amounts of fixedIncome/src/assets/us_treasury_instruments/us_treasury_instruments.py in binary64.  Dates and
    schedules are those of Bond.v. *)
From Verif Require Import Base PyDate DayCount Scheduler Bond Float FloatDayCount.
Open Scope Z_scope.

(** us_treasury_instruments.py 36-48: price, coupon rate and principal as doubles (ints are taken as already converted); of
    [fb_terms] only dates, conventions and calendar are read *)
Record f_bond_args := FBondArgs { fb_terms : bond_args; fb_price : f64; fb_coupon_rate : f64; fb_principal : f64 }.
(** us_treasury_instruments.py 163-179; 100 * num_payments_per_year is an int.  The int 0 of a zero coupon bond is converted. *)
Definition f_calculate_coupon_payment (a : f_bond_args) : res f64 :=
  match freq (fb_terms a) with
  | ZERO_COUPON => Ok (of_int 0)
  | f => fdiv (fmul (fb_principal a) (fb_coupon_rate a)) (of_int (100 * per_year f))
  end.
(** us_treasury_instruments.py 124-161 without a reference date *)
Definition f_calculate_accrued_interest (a : f_bond_args) (coupon : f64) (dated : date) (cs : list bond_payment) (settled : date) : res f64 :=
  match freq (fb_terms a) with
  | ZERO_COUPON => Ok (of_int 0)
  | _ =>
      if settled <? dated then Err ValueError
      else
        do first <- nth_unadjusted cs 0;
        do period <- (if settled <=? first then Ok (dated, first)
                      else let i := bisect_right (List.map bp_date cs) (purchase_date (fb_terms a)) in
                           do p <- nth_unadjusted cs (i - 1); do f <- nth_unadjusted cs i; Ok (p, f));
        do num <- f_compute_accrual_length (Day (fst period)) (Day settled) (b_dcc (fb_terms a));
        do den <- f_compute_accrual_length (Day (fst period)) (Day (snd period)) (b_dcc (fb_terms a));
        do frac <- fdiv num den;
        Ok (fmul frac coupon)
  end.
(** us_treasury_instruments.py 181-197 *)
Definition f_get_full_price (a : f_bond_args) (accrued : f64) : res f64 :=
  do n <- fdiv accrued (fb_principal a); Ok (fadd (fb_price a) (fmul n (of_int 100))).
(** us_treasury_instruments.py 50-78: the attributes that are amounts, and the dates they are for *)
Record f_bond := FBond { fb_coupon_payment : f64; fb_dated : date; fb_settled : date; fb_accrued : f64; fb_full_price : f64; fb_coupons : list (date * date * f64) }.
(** us_treasury_instruments.py 50-78 *)
Definition f_new_bond (a : f_bond_args) : res f_bond :=
  do cp <- f_calculate_coupon_payment a;
  do dated <- calculate_dated_date (fb_terms a);
  do cs <- create_coupon_payments_cashflow (fb_terms a) dated;
  do _ <- create_principal_repayment_cashflow (fb_terms a);
  do sd <- calculate_settlement_date (purchase_date (fb_terms a)) (b_settlement (fb_terms a)) (b_cal (fb_terms a));
  do ai <- f_calculate_accrued_interest a cp dated cs sd;
  do fp <- f_get_full_price a ai;
  Ok (FBond cp dated sd ai fp (List.map (fun p => (bp_date p, bp_unadjusted p, cp)) cs)).
