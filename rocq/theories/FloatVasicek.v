(** Model of the closed forms of fixedIncome/src/stochastics/short_rate_models/affine_yield_curve_models/vasicek_model.py in
    binary64 (Vasicek.v is the same program over exact numbers).  The value of self(purchase_date) - a lookup in the generated
    path, modelled in ShortRate.v - is a field: a double or an exception for each time. *)
From Verif Require Import Base PyDate DayCount Float FloatDayCount.
From Flocq Require Import BinarySingleNaN.
Open Scope Z_scope.

(** vasicek_model.py 71-100: attributes *)
Record f_vasicek := FVasicek { fva_mean : f64; fva_speed : f64; fva_vol : f64; fva_limit : f64; fva_start : datetime; fva_dcc : dcc; fva_rate : datetime -> res f64 }.

Section Libm.
(** math.exp and float ** 2: the C library's exp and pow(x, 2.0), whose accuracy is a hypothesis of the theorems *)
Variables (ex : f64 -> res f64) (sq : f64 -> res f64).

(** vasicek_model.py 93: -volatility**2 / (2 * reversion_speed**2) *)
Definition f_convexity_limit (vol speed : f64) : res f64 :=
  do v <- sq vol; do k <- sq speed; fdiv (Bopp v) (fmul (of_int 2) k).
(** vasicek_model.py 36-69: "if purchase_date is None: purchase_date = self.start_date_time" *)
Definition fva_purchase (v : f_vasicek) (p : option datetime) : datetime := match p with Some p => p | None => fva_start v end.
(** DayCountCalculator.compute_accrual_length from the purchase date, as every method begins *)
Definition fva_accrual (v : f_vasicek) (m : moment) (p : option datetime) : res f64 := f_compute_accrual_length (Stamp (fva_purchase v p)) m (fva_dcc v).

(** vasicek_model.py 137-151 *)
Definition f_short_rate_variance (v : f_vasicek) (m : moment) (p : option datetime) : res f64 :=
  do a <- fva_accrual v m p;
  do e <- ex (fmul (fmul (of_int (-2)) (fva_speed v)) a);
  let shrinkage := fsub (of_int 1) e in
  do s <- sq (fva_vol v);
  do c <- fdiv s (fmul (of_int 2) (fva_speed v)); Ok (fmul c shrinkage).
(** vasicek_model.py 153-167 *)
Definition f_expected_short_rate (v : f_vasicek) (m : moment) (p : option datetime) : res f64 :=
  do a <- fva_accrual v m p;
  do w <- ex (fmul (Bopp (fva_speed v)) a);
  do r <- fva_rate v (fva_purchase v p);
  Ok (fadd (fmul w r) (fmul (fsub (of_int 1) w) (fva_mean v))).
(** vasicek_model.py 171-185: (intercept, coefficient) *)
Definition f_price_coeffs (v : f_vasicek) (m : moment) (p : option datetime) : res (f64 * f64) :=
  do a <- fva_accrual v m p;
  do e <- ex (fmul (Bopp (fva_speed v)) a);
  do c <- fdiv (Bopp (fsub (of_int 1) e)) (fva_speed v);
  let term1 := fmul (fadd (fva_mean v) (fva_limit v)) (fadd c a) in
  do s <- sq (fva_vol v);
  do k <- fdiv s (fmul (of_int 4) (fva_speed v));
  do c2 <- sq c;
  let term2 := fmul k c2 in
  Ok (fsub (Bopp term1) term2, c).
(** vasicek_model.py 223-234: the purchase date is not passed on (232) *)
Definition f_zero_coupon_bond_price (v : f_vasicek) (m : moment) (p : option datetime) : res f64 :=
  do ab <- f_price_coeffs v m None; do r <- fva_rate v (fva_purchase v p); ex (fadd (fst ab) (fmul (snd ab) r)).
(** vasicek_model.py 322-336 *)
Definition f_forward_rate_volatility (v : f_vasicek) (m : moment) (p : option datetime) : res f64 :=
  do a <- fva_accrual v m p; do e <- ex (fmul (Bopp a) (fva_speed v)); Ok (fmul (fva_vol v) e).
End Libm.
