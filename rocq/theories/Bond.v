(** Model of fixedIncome/src/assets/us_treasury_instruments/us_treasury_instruments.py (UsTreasuryBond, UsTreasuryFuture)
    and assets/credit/corporate_bond.py (FixedRateBond), whose methods are the same except where noted ([cls]).
    Line numbers are of us_treasury_instruments.py unless "corporate_bond.py" is named. *)
From Verif Require Import Base PyClass PyDate DayCount Holidays Scheduler PyList KeyRate Curve Cashflow.
Open Scope Z_scope.

(** us_treasury_instruments.py 29-31 *)
Record bond_payment := BondPayment { bp_date : date; bp_amount : R; bp_unadjusted : date }.

(** schedule_enumerations.py 4-9 *)
Inductive frequency := ZERO_COUPON | ANNUAL | SEMI_ANNUAL | QUARTERLY | MONTHLY.
(** schedule_enumerations.py 4-9: Enum.value *)
Definition per_year (f : frequency) : Z :=
  match f with ZERO_COUPON => 0 | ANNUAL => 1 | SEMI_ANNUAL => 2 | QUARTERLY => 4 | MONTHLY => 12 end.

(** schedule_enumerations.py 12-14 *)
Inductive bd_adjustment := FOLLOWING | MODIFIED_FOLLOWING.

(** us_treasury_instruments.py 199-216: a tenor string, parsed: {int}Y, {int}M, or neither (int() or the match raises ValueError) *)
Inductive tenor := Years (n : Z) | Months (n : Z) | BadTenor.

(** UsTreasuryBond or FixedRateBond (corporate_bond.py 28) *)
Inductive bond_class := UsTreasury | Corporate.

(** us_treasury_instruments.py 36-48: constructor arguments (cusip, isin and benchmark_treasury are only stored) *)
Record bond_args := BondArgs {
  cls : bond_class; price : R; coupon_rate : R; principal : R; b_tenor : tenor; purchase_date : date; maturity_date : date;
  b_settlement : settlement; freq : frequency; b_dcc : dcc; b_adjust : bd_adjustment; b_cal : calendar
}.

(** us_treasury_instruments.py 50-78: attributes *)
Record bond := Bond {
  args : bond_args; coupon_payment : R; dated_date : date; coupons : list bond_payment; redemption : list bond_payment;
  settlement_date : date; accrued_interest : R; full_price : R
}.

(** us_treasury_instruments.py 163-179 *)
Definition calculate_coupon_payment (a : bond_args) : R :=
  match freq a with
  | ZERO_COUPON => 0%R
  | f => (principal a * coupon_rate a / (100 * IZR (per_year f)))%R
  end.

(** us_treasury_instruments.py 199-216: subtracting a relativedelta *)
Definition calculate_dated_date (a : bond_args) : res date :=
  match b_tenor a with
  | Years n => add_months (maturity_date a) (- (12 * n))
  | Months n => add_months (maturity_date a) (- n)
  | BadTenor => Err ValueError
  end.

(** us_treasury_instruments.py 220-234 *)
Definition adjustment_function (a : bond_args) (d : date) : res date :=
  match b_adjust a with
  | FOLLOWING => following_date_adjustment d (b_cal a)
  | MODIFIED_FOLLOWING => modified_following_date_adjustment d (b_cal a)
  end.

(** us_treasury_instruments.py 248-256 *)
Definition create_principal_repayment_cashflow (a : bond_args) : res (list bond_payment) :=
  do d <- adjustment_function a (maturity_date a);
  Ok [BondPayment d (principal a) (maturity_date a)].

(** us_treasury_instruments.py 264-278: months between coupons *)
Definition coupon_step (f : frequency) : res (option Z) :=
  match f with
  | ZERO_COUPON => Ok None
  | QUARTERLY => Ok (Some 3)
  | SEMI_ANNUAL => Ok (Some 6)
  | ANNUAL => Ok (Some 12)
  | MONTHLY => Err ValueError
  end.

(** 258-292: from maturity back to the day after the dated date, at most 1001 dates (scheduler.py 123); sorted by payment
    date (291, and again in Cashflow) *)
Definition create_coupon_payments_cashflow (a : bond_args) (dated : date) : res (list bond_payment) :=
  do step <- coupon_step (freq a);
  match step with
  | None => Ok []
  | Some m =>
      do e <- add_days dated 1;
      do unadjusted <- generate_dates_by_increments (maturity_date a) e (Relativedelta (- m) 0) 1000;
      do adjusted <- mapM (adjustment_function a) unadjusted;
      Ok (sort_by bp_date (List.map (fun p => BondPayment (snd p) (calculate_coupon_payment a) (fst p)) (combine unadjusted adjusted)))
  end.

(** bisect.bisect_right on a sorted list: how many leading entries are <= x *)
Fixpoint bisect_right (l : list Z) (x : Z) : Z :=
  match l with
  | y :: l => if y <=? x then 1 + bisect_right l x else 0
  | [] => 0
  end.

(** us_treasury_instruments.py 148-150: indexing the coupons (negative indices wrap) *)
Definition nth_unadjusted (l : list bond_payment) (i : Z) : res date :=
  do n <- py_index l i; match nth_error l n with Some p => Ok (bp_unadjusted p) | None => Err IndexError end.

(** 124-161; corporate_bond.py 263-300.  [settled] is self.settlement_date.  A reference date only moves the test of 143;
    in corporate_bond.py 274 it raises AttributeError (self.settlement_convention does not exist). *)
Definition calculate_accrued_interest (a : bond_args) (coupon : R) (dated : date) (cs : list bond_payment) (settled : date)
    (reference : option date) : res R :=
  match freq a with
  | ZERO_COUPON => Ok 0%R
  | _ =>
      do sd <- match reference, cls a with
               | None, _ => Ok settled
               | Some d, UsTreasury => calculate_settlement_date d (b_settlement a) (b_cal a)
               | Some _, Corporate => Err AttributeError
               end;
      if settled <? dated then Err ValueError
      else
        do first <- nth_unadjusted cs 0;
        do period <- (if sd <=? first then Ok (dated, first)
                      else let i := bisect_right (List.map bp_date cs) (purchase_date a) in
                           do p <- nth_unadjusted cs (i - 1); do f <- nth_unadjusted cs i; Ok (p, f));
        do num <- acc (b_dcc a) (fst period) settled;
        do den <- acc (b_dcc a) (fst period) (snd period);
        do frac <- qdiv num den;
        Ok (Q2R frac * coupon)%R
  end.

(** us_treasury_instruments.py 181-197; after construction accrued_interest is never None, so the argument has no effect *)
Definition get_full_price (a : bond_args) (accrued : R) : res R :=
  if Req_EM_T (principal a) 0 then Err ZeroDivisionError
  else Ok (price a + accrued / principal a * 100)%R.

(** 50-78; corporate_bond.py 46-74 *)
Definition new_bond (a : bond_args) : res bond :=
  let cp := calculate_coupon_payment a in
  do dated <- calculate_dated_date a;
  do cs <- create_coupon_payments_cashflow a dated;
  do pr <- create_principal_repayment_cashflow a;
  do sd <- calculate_settlement_date (purchase_date a) (b_settlement a) (b_cal a);
  do ai <- calculate_accrued_interest a cp dated cs sd None;
  do fp <- get_full_price a ai;
  Ok (Bond a cp dated cs pr sd ai fp).

(** us_treasury_instruments.py 236-246: always one business day, whatever the settlement convention *)
Definition is_payment_received (b : bond) (p : bond_payment) (reference : option date) : res bool :=
  do sd <- match reference with None => Ok (settlement_date b) | Some d => add_business_days d 1 (b_cal (args b)) end;
  Ok (sd <=? bp_unadjusted p).

(** 92-103; corporate_bond.py 118-129 *)
Definition bond_to_knot (b : bond) : res knot_value :=
  match redemption b with
  | [] => Err IndexError
  | p :: _ => Ok (match coupons b with [] => bp_date p | c :: cs => Z.max (bp_date (last (c :: cs) c)) (bp_date p) end, price (args b))
  end.

Section Splines.
Variable spline : interp_method -> list (Q * R) -> Q -> R.

(** us_treasury_instruments.py 112-118: one sum *)
Fixpoint received_terms (b : bond) (dc : curve) (l : list bond_payment) : res (list R) :=
  match l with
  | [] => Ok []
  | p :: l =>
      do r <- is_payment_received b p (Some (c_ref dc));
      if r then do df <- interpolate spline dc (bp_date p) None; do t <- received_terms b dc l; Ok ((df * bp_amount p)%R :: t)
      else received_terms b dc l
  end.
(** 105-120; corporate_bond.py 132-147 *)
Definition bond_present_value (b : bond) (dc : curve) : res R :=
  do c <- received_terms b dc (coupons b);
  do p <- received_terms b dc (redemption b);
  Ok (rsum c + rsum p)%R.
End Splines.

(** us_treasury_instruments.py 311-312: 1 / (1 + rate / n) ** (accrual * n).  A non-positive base is outside the model (Python gives a complex
    number, an infinity error or a sign): it is mapped to ValueError and excluded by the theorems' hypotheses. *)
Definition fixed_df (n : Z) (rate : R) (accrual : Q) : res R :=
  if n =? 0 then Err ZeroDivisionError
  else if Rlt_dec 0 (1 + rate / IZR n) then Ok (1 / Rpower (1 + rate / IZR n) (Q2R (accrual * inject_Z n)))%R
  else Err ValueError.

(** us_treasury_instruments.py 308-313, 316-322: one loop, from an initial value *)
Fixpoint add_discounted (b : bond) (rate : R) (ref : date) (l : list bond_payment) (pv : R) : res R :=
  match l with
  | [] => Ok pv
  | p :: l =>
      do r <- is_payment_received b p (Some ref);
      if r then
        do a <- acc (b_dcc (args b)) ref (bp_date p);
        do df <- fixed_df (per_year (freq (args b))) rate a;
        add_discounted b rate ref l (pv + df * bp_amount p)%R
      else add_discounted b rate ref l pv
  end.
(** 298-324; corporate_bond.py 320-346 *)
Definition discount_cashflows_by_fixed_rate (b : bond) (rate : R) (ref : option date) : res R :=
  let ref := match ref with Some d => d | None => purchase_date (args b) end in
  do pv <- add_discounted b rate ref (coupons b) 0%R;
  add_discounted b rate ref (redemption b) pv.

(** us_treasury_instruments.py 339-346: the residual handed to scipy.optimize.root *)
Definition ytm_residual (b : bond) (ref : option date) (rate : R) : res R :=
  do pv <- discount_cashflows_by_fixed_rate b rate ref; Ok (full_price b * principal (args b) / 100 - pv)%R.

(** risk_metrics.py: ONE_BASIS_POINT = 0.0001 *)
Definition one_bp : R := (1 / 10000)%R.
(** us_treasury_instruments.py 354-365; [ytm] is given or the root found *)
Definition pv_deriv (b : bond) (offset ytm : R) : res R :=
  do up <- discount_cashflows_by_fixed_rate b (ytm + offset + one_bp / 2) None;
  do down <- discount_cashflows_by_fixed_rate b (ytm + offset - one_bp / 2) None;
  Ok ((up - down) / one_bp)%R.
(** us_treasury_instruments.py 367-373 *)
Definition duration (b : bond) (ytm : R) : res R :=
  do d <- pv_deriv b 0 ytm;
  if Req_EM_T (full_price b) 0 then Err ZeroDivisionError else Ok (- d / full_price b)%R.
(** 375-384; corporate_bond.py 428-437: the method calculate_pv_deriv does not exist *)
Definition convexity (b : bond) (ytm : R) : res R := Err AttributeError.

(** corporate_bond.py 396-412: is_payment_received without reference date: by the bond's own settlement date *)
Fixpoint add_pv_times_accrual (b : bond) (rate : R) (ref : date) (l : list bond_payment) (s : R) : res R :=
  match l with
  | [] => Ok s
  | p :: l =>
      do r <- is_payment_received b p None;
      if r then
        do a <- acc (b_dcc (args b)) ref (bp_date p);
        do df <- fixed_df (per_year (freq (args b))) rate a;
        add_pv_times_accrual b rate ref l (s + df * bp_amount p * Q2R a)%R
      else add_pv_times_accrual b rate ref l s
  end.
(** corporate_bond.py 389-416 *)
Definition macaulay_duration (b : bond) (rate : R) (ref : option date) : res R :=
  let ref := match ref with Some d => d | None => purchase_date (args b) end in
  do s <- add_pv_times_accrual b rate ref (coupons b) 0%R;
  do s <- add_pv_times_accrual b rate ref (redemption b) s;
  let den := (full_price b * principal (args b) / 100)%R in
  if Req_EM_T den 0 then Err ZeroDivisionError else Ok (s / den)%R.

(** us_treasury_instruments.py 400-417: the body of UsTreasuryFuture.__init__: daily mark-to-market dates with unknown
    amounts; US holidays whatever the calendar passed *)
Definition future_init (purchase maturity : date) (c : settlement) (cal : calendar) : res (date * cashflow) :=
  do sd <- calculate_settlement_date purchase c cal;
  do days <- generate_business_days sd maturity US_FEDERAL_HOLIDAYS;
  Ok (sd, new_cashflow (List.map (fun d => Payment d None) days)).
Open Scope string_scope.
(** us_treasury_instruments.py 387-425: neither to_knot_value_pair nor present_value is defined *)
Definition treasury_future_class : pyclass := Class collection_class [] ["__init__"; "purchase_date"; "calculate_cost_to_deliver"].
Close Scope string_scope.
(** us_treasury_instruments.py 387-417: calling a class, which is UsTreasuryFuture or inherits its __init__ *)
Definition new_future (c : pyclass) (purchase maturity : date) (conv : settlement) (cal : calendar) : res (date * cashflow) :=
  instantiate c (future_init purchase maturity conv cal).
