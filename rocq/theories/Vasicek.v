(** Model of fixedIncome/src/stochastics/short_rate_models/affine_yield_curve_models/vasicek_model.py: VasicekModel.
    The dictionaries price_state_variable_coeffs and yield_state_variable_coeffs are always rebuilt by a method before it
    reads them, so they are returned instead of stored.  Parameters are Python floats (division by zero raises).  The
    rate, an array of shape (1,), is its only entry.  Purchase times are datetimes; maturities dates or datetimes. *)
From Verif Require Import Base PyDate DayCount PyList KeyRate Curve Loan RVec Stochastic ShortRate.
From Coq Require Import Reals.
Open Scope Z_scope.

(** Python float division *)
Definition fdiv (a b : R) : res R := if Req_EM_T b 0%R then Err ZeroDivisionError else Ok (a / b)%R.

(** vasicek_model.py 48-62 *)
Definition vasicek_drift_diffusion (level speed vol : R) : drift_diffusion :=
  DriftDiffusion (fun _ v => speed * (level - v 0%nat))%R (fun _ _ _ => vol).

(** vasicek_model.py 71-100: attributes.  [va_vol_params] and [va_shape_params] are the lists in
    parameter_calibration_dict; [va_start_rate] is _calibrated_starting_short_rate, absent at first. *)
Record vasicek := Vasicek {
  va_mean : R; va_speed : R; va_vol : R; va_limit : R; va_model : short_rate;
  va_vol_params : list R; va_shape_params : list R; va_start_rate : option R
}.
(** vasicek_model.py 71-100 *)
Definition new_vasicek (level speed vol : R) (b : brownian) (dt : dt_step) : res vasicek :=
  do limit <- fdiv (- vol * vol) (2 * (speed * speed));
  Ok (Vasicek level speed vol limit (new_short_rate (fun v => v 0%nat) (new_process [vasicek_drift_diffusion level speed vol] b dt))
        [vol; speed] [level] None).

(** vasicek_model.py 71-100: assignment of the parameters *)
Definition with_params (v : vasicek) (mean speed vol : R) : vasicek :=
  Vasicek mean speed vol (va_limit v) (va_model v) (va_vol_params v) (va_shape_params v) (va_start_rate v).
(** the caller replaces the lists in parameter_calibration_dict *)
Definition put_vol_params (v : vasicek) (l : list R) : vasicek :=
  Vasicek (va_mean v) (va_speed v) (va_vol v) (va_limit v) (va_model v) l (va_shape_params v) (va_start_rate v).
(** vasicek_model.py 71-100: assignment of the SHAPE list of the dictionary *)
Definition put_shape_params (v : vasicek) (l : list R) : vasicek :=
  Vasicek (va_mean v) (va_speed v) (va_vol v) (va_limit v) (va_model v) (va_vol_params v) l (va_start_rate v).
(** vasicek_model.py 117-122: the volatility is assigned before the second item is read *)
Definition set_vol_from_dict (v : vasicek) : vasicek * res unit :=
  match va_vol_params v with
  | s :: k :: _ => (with_params v (va_mean v) k s, Ok tt)
  | [s] => (with_params v (va_mean v) (va_speed v) s, Err IndexError)
  | [] => (v, Err IndexError)
  end.
(** vasicek_model.py 124-128 *)
Definition set_shape_from_dict (v : vasicek) : vasicek * res unit :=
  match va_shape_params v with m :: _ => (with_params v m (va_speed v) (va_vol v), Ok tt) | [] => (v, Err IndexError) end.
(** vasicek_model.py 130-134: reads the SHAPE entry *)
Definition set_state_from_dict (v : vasicek) : vasicek * res unit :=
  match va_shape_params v with
  | m :: _ => (Vasicek (va_mean v) (va_speed v) (va_vol v) (va_limit v) (va_model v) (va_vol_params v) (va_shape_params v) (Some m), Ok tt)
  | [] => (v, Err IndexError)
  end.

(** vasicek_model.py 36-69: start_date_time *)
Definition va_start (v : vasicek) : datetime := bm_start (sr_bm (va_model v)).
(** vasicek_model.py 36-69: day_count_convention *)
Definition va_dcc (v : vasicek) : dcc := bm_dcc (sr_bm (va_model v)).
(** "if purchase_date is None: purchase_date = self.start_date_time" *)
Definition va_purchase (v : vasicek) (p : option datetime) : datetime := match p with Some p => p | None => va_start v end.
(** self(purchase_date) *)
Definition va_rate (v : vasicek) (p : option datetime) : res R := sr_call (va_model v) (va_purchase v p).
(** vasicek_model.py: DayCountCalculator.compute_accrual_length from the purchase date, as every method begins *)
Definition va_accrual (v : vasicek) (m : moment) (p : option datetime) : res R :=
  do q <- compute_accrual_length (Stamp (va_purchase v p)) m (va_dcc v); Ok (Q2R q).

(** vasicek_model.py 137-151 *)
Definition short_rate_variance (v : vasicek) (m : moment) (p : option datetime) : res R :=
  do a <- va_accrual v m p;
  let shrinkage := (1 - exp (-2 * va_speed v * a))%R in
  do c <- fdiv (va_vol v * va_vol v) (2 * va_speed v); Ok (c * shrinkage)%R.
(** vasicek_model.py 153-167 *)
Definition expected_short_rate (v : vasicek) (m : moment) (p : option datetime) : res R :=
  do a <- va_accrual v m p;
  let w := exp (- va_speed v * a) in
  do r <- va_rate v p; Ok (w * r + (1 - w) * va_mean v)%R.

(** vasicek_model.py 171-185: (intercept, coefficient) *)
Definition price_coeffs (v : vasicek) (m : moment) (p : option datetime) : res (R * R) :=
  do a <- va_accrual v m p;
  do c <- fdiv (- (1 - exp (- va_speed v * a))) (va_speed v);
  let term1 := ((va_mean v + va_limit v) * (c + a))%R in
  do k <- fdiv (va_vol v * va_vol v) (4 * va_speed v);
  let term2 := (k * (c * c))%R in
  Ok (- term1 - term2, c)%R.
(** vasicek_model.py 187-206: their derivatives with respect to maturity *)
Definition price_coeff_derivs (v : vasicek) (m : moment) (p : option datetime) : res (R * R) :=
  do a <- va_accrual v m p;
  let e := exp (- va_speed v * a) in
  Ok (- (1 - e) * (va_mean v + (1 - e) * va_limit v), - e)%R.
(** vasicek_model.py 208-220: always from the start *)
Definition yield_coeffs (v : vasicek) (m : moment) : res (R * R) :=
  do a <- va_accrual v m None;
  do c <- fdiv (- (1 - exp (- va_speed v * a))) (va_speed v);
  let term1 := ((va_mean v + va_limit v) * (c + a))%R in
  do k <- fdiv (va_vol v * va_vol v) (4 * va_speed v);
  let term2 := (k * (c * c))%R in
  do i <- fdiv (term1 + term2) a;
  do c' <- fdiv (- c) a; Ok (i, c').
(** vasicek_model.py 223-234: the purchase date is not passed on (232) *)
Definition zero_coupon_bond_price (v : vasicek) (m : moment) (p : option datetime) : res R :=
  do ab <- price_coeffs v m None; do r <- va_rate v p; Ok (exp (fst ab + snd ab * r)).
(** vasicek_model.py 236-250 *)
Definition zero_coupon_yield (v : vasicek) (m : moment) (p : option datetime) : res R :=
  do ab <- yield_coeffs v m; do r <- va_rate v p; Ok (fst ab + snd ab * r)%R.
(** vasicek_model.py 252-264 *)
Definition yield_convexity (v : vasicek) (m : moment) : res R :=
  do a <- va_accrual v m None;
  do ab <- price_coeffs v m None;
  do t1 <- fdiv (- snd ab - a) (2 * (va_speed v * va_speed v));
  do t2 <- fdiv (snd ab * snd ab) (4 * va_speed v);
  do c <- fdiv (va_vol v * va_vol v) a; Ok (c * (t1 + t2))%R.
(** vasicek_model.py 291-299 *)
Definition yield_volatility (v : vasicek) (m : moment) : res R :=
  do a <- va_accrual v m None;
  do ab <- price_coeffs v m None;
  do c <- fdiv (snd ab) a; Ok (- c * va_vol v)%R.
(** min(maturity_dates) <= purchase_date for datetimes; min of no dates raises ValueError *)
Definition some_matures_by (ts : list datetime) (p : datetime) : bool :=
  match ts with [] => true | _ => existsb (fun t => dt_leb t p) ts end.
(** vasicek_model.py 266-288, maturities all datetimes *)
Definition price_convexities (v : vasicek) (ts : list datetime) (p : option datetime) : res (list R) :=
  if some_matures_by ts (va_purchase v p) then Err ValueError
  else
    do accs <- mapM (fun t => va_accrual v (Stamp t) p) ts;
    do prices <- mapM (fun t => zero_coupon_bond_price v (Stamp t) p) ts;
    do vols <- mapM (fun t => yield_volatility v (Stamp t)) ts;
    Ok (List.map (fun j => - (1 / 2) * (nth j accs 0 * nth j accs 0) * nth j prices 0 * (nth j vols 0 * nth j vols 0))%R (seq 0 (List.length ts))).
(** vasicek_model.py 301-320 *)
Definition instantaneous_forward_rate (v : vasicek) (m : moment) (p : option datetime) : res R :=
  match sr_path (va_model v) with
  | None => Err ValueError
  | Some _ => do r <- va_rate v p; do d <- price_coeff_derivs v m p; Ok (- fst d - snd d * r)%R
  end.
(** vasicek_model.py 322-336 *)
Definition forward_rate_volatility (v : vasicek) (m : moment) (p : option datetime) : res R :=
  do a <- va_accrual v m p; Ok (va_vol v * exp (- a * va_speed v))%R.
(** vasicek_model.py 339-361 *)
Definition average_expected_short_rate (v : vasicek) (m : moment) (p : option datetime) : res R :=
  do ab <- price_coeffs v m p;
  do a <- va_accrual v m p;
  do r <- va_rate v p;
  fdiv (- (- va_mean v * (snd ab + a) + snd ab * r)) a.

(** the model's generate_path (base_short_rate_model.py 56-73) *)
Definition va_generate (v : vasicek) (h : arrays) (start : nat) (set : bool) (draw : nat -> vec) : vasicek * arrays * res unit :=
  let '(s, h, r) := sr_generate_path (va_model v) h start set draw in
  (Vasicek (va_mean v) (va_speed v) (va_vol v) (va_limit v) s (va_vol_params v) (va_shape_params v) (va_start_rate v), h, r).
