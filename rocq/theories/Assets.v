(** Model of the classes of fixedIncome/src/assets as classes: which can be instantiated, what the comparison methods they
    inherit from collections.abc.Set do, and the classes whose methods are stubs: rates/linear_rates/interest_rate_future.py
    and credit/corporate_bond.py: CallableFixedRateBond. *)
From Verif Require Import Base PyClass PyDate DayCount PyList KeyRate Curve Cashflow Bond.
From Coq Require Import Reals.
Open Scope string_scope.
Open Scope list_scope.

(** base_cashflow.py 166-195 *)
Definition zero_coupon_class : pyclass := Class collection_class [] ["__init__"; "price"; "payment_date"; "to_knot_value_pair"; "present_value"].
(** us_treasury_instruments.py 34-384 (names that play no part are left out here and below) *)
Definition treasury_bond_class : pyclass := Class collection_class [] ["__init__"; "to_knot_value_pair"; "present_value"].
(** corporate_bond.py 28-438 *)
Definition fixed_rate_bond_class : pyclass := Class collection_class [] ["__init__"; "to_knot_value_pair"; "present_value"].
(** corporate_bond.py 441-457 *)
Definition callable_bond_class : pyclass := Class fixed_rate_bond_class [] ["__init__"].
(** corporate_bond.py 461-462 *)
Definition fixed_to_float_bond_class : pyclass := Class collection_class [] [].
(** corporate_bond.py 466-467 *)
Definition floating_rate_bond_class : pyclass := Class collection_class [] [].
(** loan.py 26-200 *)
Definition loan_class : pyclass := Class collection_class [] ["__init__"; "present_value"; "to_knot_value_pair"].
(** interest_rate_swap.py 37-366 *)
Definition fixed_to_float_swap_class : pyclass :=
  Class collection_class ["generate_floating_leg_cashflow"] ["__init__"; "to_knot_value_pair"; "present_value"].
(** interest_rate_swap.py 369-408 *)
Definition term_swap_class : pyclass := Class fixed_to_float_swap_class [] ["generate_floating_leg_cashflow"].
(** interest_rate_swap.py 411-480 *)
Definition overnight_swap_class : pyclass := Class fixed_to_float_swap_class [] ["generate_floating_leg_cashflow"].
(** interest_rate_future.py 30-31 *)
Definition rate_future_class : pyclass := Class collection_class [] [].
(** interest_rate_future.py 35-122 *)
Definition one_month_future_class : pyclass := Class rate_future_class [] ["__init__"; "present_value"; "to_knot_value_pair"].
(** interest_rate_future.py 132-133 *)
Definition three_month_future_class : pyclass := Class rate_future_class [] [].

(** ---- collections.abc.Set: the inherited comparisons (Lib/_collections_abc.py), between two collections ---- *)
(** for elem in self: iter() raises (base_cashflow.py 122-124) before any element is looked at *)
Definition all_in (a b : cf_collection) : res bool := do _ <- cfc_iter a; Ok true.
(** Set.__le__ *)
Definition cfc_le (a b : cf_collection) : res bool := if Nat.ltb (cfc_len b) (cfc_len a) then Ok false else all_in a b.
(** Set.__ge__ *)
Definition cfc_ge (a b : cf_collection) : res bool := if Nat.ltb (cfc_len a) (cfc_len b) then Ok false else all_in b a.
(** Set.__lt__ *)
Definition cfc_lt (a b : cf_collection) : res bool := if Nat.ltb (cfc_len a) (cfc_len b) then cfc_le a b else Ok false.
(** Set.__gt__ *)
Definition cfc_gt (a b : cf_collection) : res bool := if Nat.ltb (cfc_len b) (cfc_len a) then cfc_ge a b else Ok false.
(** Set.__eq__ *)
Definition cfc_eq (a b : cf_collection) : res bool := if Nat.eqb (cfc_len a) (cfc_len b) then cfc_le a b else Ok false.
(** object.__ne__: the negation of __eq__ *)
Definition cfc_ne (a b : cf_collection) : res bool := do x <- cfc_eq a b; Ok (negb x).
(** Set.isdisjoint *)
Definition cfc_isdisjoint (a b : cf_collection) : res bool := all_in b a.
(** Set defines __eq__ and not __hash__, so __hash__ is None *)
Definition cfc_hash (a : cf_collection) : res Z := Err TypeError.
(** list.__contains__ of a Python list of instruments: identity first, then ==.  Instruments are named by their position
    in [objs]. *)
Fixpoint list_contains (objs : nat -> cf_collection) (l : list nat) (x : nat) : res bool :=
  match l with
  | [] => Ok false
  | y :: l => if Nat.eqb y x then Ok true else do e <- cfc_eq (objs y) (objs x); if (e : bool) then Ok true else list_contains objs l x
  end.

(** ---- OneMonthSofrFuture ---- *)
(** interest_rate_future.py 36-55: attributes (the names, the price and the calendar are stored, nothing else) *)
Record sofr_future := SofrFuture { sf_price : R; sf_purchase : date; sf_month : Z; sf_year : Z; sf_notional : R; sf_dcc : dcc }.
(** interest_rate_future.py 85-87: no body, so None *)
Definition sf_present_value (f : sofr_future) (dc : curve) : res (option R) := Ok None.
(** interest_rate_future.py 89-91: None *)
Definition sf_to_knot (f : sofr_future) : res (option knot_value) := Ok None.
(** interest_rate_future.py 93-99: None *)
Definition sf_last_trading_date (f : sofr_future) : res (option date) := Ok None.
(** interest_rate_future.py 102-107: date() without arguments *)
Definition sf_settlement_rate (f : sofr_future) (rate : date -> res R) : res R := Err TypeError.
(** base_cashflow.py 112-134 on an object whose __init__ did not call that of CashflowCollection: no attribute cashflows *)
Definition sf_len (f : sofr_future) : res nat := Err AttributeError.
(** base_cashflow.py 126-134, likewise *)
Definition sf_getitem (f : sofr_future) (k : cf_key) : res (option cashflow) := Err AttributeError.
(** base_portfolio.py 40-45: quantity * None; the entry of a portfolio whose asset's present_value returns an optional
    number, and to_knot_value_pair an optional knot ([d] is what stands for the knot date; reading it raises) *)
Definition optional_entry (q : R) (pv : curve -> res (option R)) (d : date) : entry :=
  Entry q (fun dc => do v <- pv dc; match v with Some v => Ok v | None => Err TypeError end) d.
(** base_portfolio.py 40-45 *)
Definition sofr_entry (q : R) (f : sofr_future) (d : date) : entry := optional_entry q (sf_present_value f) d.

(** ---- CallableFixedRateBond ---- *)
(** An object is the set of its attributes' names; reading any other raises AttributeError. *)
Definition getattr {A} (attrs : list string) (name : string) (value : A) : res A :=
  if existsb (String.eqb name) attrs then Ok value else Err AttributeError.
(** corporate_bond.py 22-24: (CallDate, CallPrice) *)
Definition call_option := (date * R)%type.
(** corporate_bond.py 443-457: what the constructor stores; it does not call the constructor of FixedRateBond *)
Record callable_bond := CallableBond { cb_attrs : list string; cb_price : R; cb_calls : list call_option }.
(** corporate_bond.py 443-457 *)
Definition new_callable_bond (price : R) (calls : list call_option) : callable_bond :=
  CallableBond ["_price"; "_call_schedule"] price (sort_by fst calls).
(** corporate_bond.py 112-114 *)
Definition cb_get_price (b : callable_bond) : res R := getattr (cb_attrs b) "_price" (cb_price b).
(** base_cashflow.py 126-134, 112-114: self.cashflows is read first *)
Definition cb_getitem (b : callable_bond) (k : cf_key) : res (option cashflow) := do _ <- getattr (cb_attrs b) "cashflows" tt; Err KeyError.
(** corporate_bond.py 118-129 begins with self[CashflowKeys.COUPON_PAYMENTS] *)
Definition cb_to_knot (b : callable_bond) : res knot_value := do _ <- cb_getitem b COUPON_PAYMENTS; Err KeyError.
(** corporate_bond.py 132-147 likewise *)
Definition cb_present_value (b : callable_bond) (dc : curve) : res R := do _ <- cb_getitem b COUPON_PAYMENTS; Err KeyError.
(** corporate_bond.py 302-318: self.purchase_date or self.accrued_interest *)
Definition cb_get_full_price (b : callable_bond) (ref : option date) : res R :=
  do _ <- match ref with Some _ => Ok tt | None => getattr (cb_attrs b) "_purchase_date" tt end;
  do _ <- getattr (cb_attrs b) "accrued_interest" tt; Err KeyError.
(** corporate_bond.py 349-373: self.purchase_date, then get_full_price *)
Definition cb_yield_to_maturity (b : callable_bond) (ref : option date) : res R :=
  do _ <- match ref with Some _ => Ok tt | None => getattr (cb_attrs b) "_purchase_date" tt end;
  cb_get_full_price b ref.
(** corporate_bond.py 321-346: self.purchase_date, then the coupons *)
Definition cb_discount_by_fixed_rate (b : callable_bond) (rate : R) (ref : option date) : res R :=
  do _ <- match ref with Some _ => Ok tt | None => getattr (cb_attrs b) "_purchase_date" tt end;
  do _ <- cb_getitem b COUPON_PAYMENTS; Err KeyError.
(** corporate_bond.py 265-300: self.payment_frequency first *)
Definition cb_accrued_interest (b : callable_bond) (ref : option date) : res R := do _ <- getattr (cb_attrs b) "_payment_frequency" tt; Err KeyError.

(** ---- quote adjustments ---- *)
(** yield_curve.py 32: what is passed as an adjustment: a number, or (as annotated) a KnotValuePair *)
Inductive adjustment := AdjNumber (x : R) | AdjPair (kv : knot_value).
(** yield_curve.py 46: kv_pair.value += quote_adjustment, for a named tuple (base_curve.py 18-20), whose attributes cannot be
    set; number + tuple raises already *)
Definition adjust_value (kv : knot_value) (a : adjustment) : res knot_value :=
  match a with AdjNumber _ => Err AttributeError | AdjPair _ => Err TypeError end.
(** yield_curve.py 30-60 with quote_adjustments: one adjustment per instrument (zip: the shorter decides) *)
Definition new_adjusted_yield_curve (knots : list knot_value) (adjustments : option (list adjustment)) (m : interp_method) (c : dcc)
    (s : interp_space) (ref : date) (l r : end_behavior) : res ycurve :=
  do _ <- mapM (fun p => adjust_value (fst p) (snd p)) (combine knots (match adjustments with Some a => a | None => [] end));
  new_yield_curve knots m c s ref l r.
