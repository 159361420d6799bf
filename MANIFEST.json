{
 "claims": [
  {
   "property": "C01",
   "status": "proved",
   "theorems": [
    "C01_dates_are_calendar_days",
    "C01_date_determined_by_parts",
    "C01_actual_exact",
    "C01_actual_laws"
   ],
   "note": ""
  },
  {
   "property": "C02",
   "status": "proved",
   "theorems": [
    "C02_actual_actual_laws",
    "C02_actual_actual_defined",
    "C02_whole_years",
    "C02_year_ends",
    "C02_january_first_refuted"
   ],
   "note": "additivity, strict monotonicity, whole years between same calendar day of years of equal length, 31 Dec to 31 Dec proved; 1 January to 1 January is not a whole year when the two years differ in length (refuted with a witness)"
  },
  {
   "property": "C03",
   "status": "proved",
   "theorems": [
    "C03_value",
    "C03_sign",
    "C03_months",
    "C03_additive",
    "C03_nonnegative_refuted",
    "C03_additivity_refuted"
   ],
   "note": "value, sign, zero and additivity characterised exactly; non-negativity and additivity in general are false (refuted with witnesses)"
  },
  {
   "property": "C04",
   "status": "proved",
   "theorems": [
    "C04_inverted_rejected",
    "C04_ordered_accepted"
   ],
   "note": ""
  },
  {
   "property": "C05",
   "status": "proved",
   "theorems": [
    "C05_timestamps_exact",
    "C05_timestamps_additive",
    "C05_midnight"
   ],
   "note": ""
  },
  {
   "property": "C06",
   "status": "proved",
   "theorems": [
    "C06_timestamps_actual_actual",
    "C06_midnight_refuted"
   ],
   "note": "exact clock, deviation bound and equality cases proved; agreement at midnight in general refuted with a witness"
  },
  {
   "property": "C07",
   "status": "proved",
   "theorems": [
    "C07_next_weekday",
    "C07_itself"
   ],
   "note": ""
  },
  {
   "property": "C08",
   "status": "proved",
   "theorems": [
    "C08_observance",
    "C08_total"
   ],
   "note": ""
  },
  {
   "property": "C09",
   "status": "proved",
   "theorems": [
    "C09_floating_holidays"
   ],
   "note": ""
  },
  {
   "property": "C10",
   "status": "proved",
   "theorems": [
    "C10_generate_all",
    "C10_generate_one",
    "C10_unknown_name",
    "C10_us_total"
   ],
   "note": ""
  },
  {
   "property": "C11",
   "status": "proved",
   "theorems": [
    "C11_following_business_day",
    "C11_following_is_it",
    "C11_laws",
    "C11_terminates",
    "C11_us_total"
   ],
   "note": ""
  },
  {
   "property": "C12",
   "status": "proved",
   "theorems": [
    "C12_counts",
    "C12_compose",
    "C12_monotone"
   ],
   "note": ""
  },
  {
   "property": "C13",
   "status": "proved",
   "theorems": [
    "C13_negative",
    "C13_inverse",
    "C13_subtract_single",
    "C13_add_single"
   ],
   "note": ""
  },
  {
   "property": "C14",
   "status": "proved",
   "theorems": [
    "C14_modified_following",
    "C14_fixes_business_days",
    "C14_us",
    "C14_us_monotone"
   ],
   "note": ""
  },
  {
   "property": "C15",
   "status": "proved",
   "theorems": [
    "C15_enumeration",
    "C15_total"
   ],
   "note": ""
  },
  {
   "property": "C16",
   "status": "proved",
   "theorems": [
    "C16_timedelta_grid",
    "C16_cap_is_max_dates_refuted"
   ],
   "note": "the cap is max_dates+1 entries (the literal cap max_dates is refuted)"
  },
  {
   "property": "C17",
   "status": "proved",
   "theorems": [
    "C17_grid_steps",
    "C17_month_grid",
    "C17_month_end_refuted"
   ],
   "note": "drift from month-end starts shown by a witness"
  },
  {
   "property": "C18",
   "status": "proved",
   "theorems": [
    "C18_settlement",
    "C18_monotone",
    "C18_calendar_conventions_rejected"
   ],
   "note": ""
  },
  {
   "property": "C19",
   "status": "proved",
   "theorems": [
    "C19_us_business_days",
    "C19_any_calendar",
    "C19_new_year_observed_refuted"
   ],
   "note": "the non-observance of New Year on the previous 31 December shown by a witness"
  },
  {
   "property": "C20",
   "status": "proved",
   "theorems": [
    "C20_outside",
    "C20_ramps",
    "C20_thirty_bound_refuted",
    "C20_thirty_zero_division_refuted"
   ],
   "note": "30/360 exceptions (value above the bump, division by zero) shown by witnesses"
  },
  {
   "property": "C21",
   "status": "proved",
   "theorems": [
    "C21_parallel_shift",
    "C21_parallel_shift_mixed",
    "C21_set_bump",
    "C21_thirty_refuted"
   ],
   "note": "failure under 30/360 shown by a witness"
  },
  {
   "property": "C22",
   "status": "proved",
   "theorems": [
    "C22_construction",
    "C22_order_irrelevant",
    "C22_rejected"
   ],
   "note": ""
  },
  {
   "property": "C23",
   "status": "proved",
   "theorems": [
    "C23_guards",
    "C23_bump",
    "C23_setters",
    "C23_constructor_refuted"
   ],
   "note": "for key rates constructed with neighbours in order; the constructor does not check (witness)"
  },
  {
   "property": "C24",
   "status": "proved",
   "theorems": [
    "C24_union",
    "C24_union_conflict",
    "C24_setitem",
    "C24_setitem_relinks",
    "C24_insert_rejected",
    "C24_delete",
    "C24_iadd",
    "C24_iadd_refuted"
   ],
   "note": "+= does not sort: exact characterisation and witness"
  },
  {
   "property": "C25",
   "status": "proved",
   "theorems": [
    "C25_slice_breaks_original",
    "C25_relink_restores"
   ],
   "note": ""
  },
  {
   "property": "C26",
   "status": "proved",
   "theorems": [
    "C26_actual_separates",
    "C26_reprices_knots",
    "C26_between_knots",
    "C26_order_irrelevant",
    "C26_thirty_refuted"
   ],
   "note": "linear interpolation; under 30/360 two knots can share an accrual (witness); splines are an oracle and only quantified over"
  },
  {
   "property": "C27",
   "status": "proved",
   "theorems": [
    "C27_knot_before_reference",
    "C27_ends",
    "C27_inside"
   ],
   "note": ""
  },
  {
   "property": "C28",
   "status": "proved",
   "theorems": [
    "C28_last_knot_before"
   ],
   "note": ""
  },
  {
   "property": "C29",
   "status": "proved",
   "theorems": [
    "C29_discount_factors",
    "C29_factor_bounds",
    "C29_discount_factor_space",
    "C29_other_spaces_raise",
    "C29_usual_discount_factors",
    "C29_pv_decreasing"
   ],
   "note": ""
  },
  {
   "property": "C30",
   "status": "proved",
   "theorems": [
    "C30_queries_have_no_effect",
    "C30_reset_forgets_history",
    "C30_returned_curve_is_the_cache",
    "C30_snapshot_refuted"
   ],
   "note": "present values never depend on the cache; an earlier returned discount curve object does change (refuted snapshot, witness)"
  },
  {
   "property": "C31",
   "status": "proved",
   "theorems": [
    "C31_central_difference",
    "C31_bump_not_restored_refuted",
    "C31_ladder",
    "C31_pv01_sign"
   ],
   "note": "the bump is not restored (refuted with a witness)"
  },
  {
   "property": "C32",
   "status": "proved",
   "theorems": [
    "C32_ladder_keeps_risks",
    "C32_membership_refuted"
   ],
   "note": "membership is always false (refuted with a witness)"
  },
  {
   "property": "C33",
   "status": "proved",
   "theorems": [
    "C33_sorted_history",
    "C33_determined",
    "C33_slice",
    "C33_from_iterables",
    "C33_access"
   ],
   "note": ""
  },
  {
   "property": "C34",
   "status": "proved",
   "theorems": [
    "C34_sum",
    "C34_errors",
    "C34_order_merge_scale",
    "C34_zero_coupon"
   ],
   "note": ""
  },
  {
   "property": "C35",
   "status": "proved",
   "theorems": [
    "C35_last_given",
    "C35_assignment",
    "C35_list_stale_refuted"
   ],
   "note": "the stored list goes stale on replacement (refuted with a witness)"
  },
  {
   "property": "C36",
   "status": "proved",
   "theorems": [
    "C36_coupon_dates",
    "C36_count",
    "C36_us_order",
    "C36_any_day",
    "C36_zero_coupon_and_monthly",
    "C36_month_end_refuted"
   ],
   "note": "for maturities up to the 28th; month-end maturities drift (witness); MONTHLY frequency raises ValueError"
  },
  {
   "property": "C37",
   "status": "proved",
   "theorems": [
    "C37_amounts_and_dates",
    "C37_coupon_amount",
    "C37_adjustment",
    "C37_total",
    "C37_knot"
   ],
   "note": ""
  },
  {
   "property": "C38",
   "status": "proved",
   "theorems": [
    "C38_accrued",
    "C38_bounds",
    "C38_full_price",
    "C38_first_coupon_refuted",
    "C38_exceeds_coupon_refuted"
   ],
   "note": "exact value and bounds when purchase and settlement fall in the same coupon period; deviations shown by witnesses (exception, accrued above the coupon)"
  },
  {
   "property": "C39",
   "status": "proved",
   "theorems": [
    "C39_value",
    "C39_undiscounted",
    "C39_defined",
    "C39_decreasing",
    "C39_convex",
    "C39_unique_yield",
    "C39_zero_coupon_refuted"
   ],
   "note": "value, rate 0, strict decrease, convexity, existence and uniqueness of the yield; zero-coupon bonds raise ZeroDivisionError (refuted)"
  },
  {
   "property": "C40",
   "status": "proved",
   "theorems": [
    "C40_received",
    "C40_received_at_settlement",
    "C40_paid_later",
    "C40_monotone",
    "C40_convention_ignored_refuted"
   ],
   "note": "the settlement convention is ignored when a reference date is given (witness)"
  },
  {
   "property": "C41",
   "status": "proved",
   "theorems": [
    "C41_principal_conserved",
    "C41_balance",
    "C41_int_extra_refuted",
    "C41_present_value_refuted"
   ],
   "note": "C41_principal_conserved holds for every loan, payment and extras with no sign assumption; C41_balance gives the exact amounts for non-negative terms and shows a paid-off loan stays paid off (the reported payment excludes the extra). Refuted: integer extra payments raise TypeError, present_value always raises TypeError."
  },
  {
   "property": "C42",
   "status": "proved",
   "theorems": [
    "C42_level_payment",
    "C42_term_accrual",
    "C42_zero_rate_refuted"
   ],
   "note": "START_OF_MONTH, 30/360, whole number N of periods, positive principal and rate: N equal payments, closed-form balances, 0 exactly at the end. The accrual hypothesis holds for origination days up to 27 (C42_term_accrual). Refuted at rate 0 (ZeroDivisionError)."
  },
  {
   "property": "C43",
   "status": "proved",
   "theorems": [
    "C43_start_of_month",
    "C43_steps",
    "C43_end_of_month_start",
    "C43_end_of_month_refuted",
    "C43_unsupported"
   ],
   "note": "Dates characterised exactly for START_OF_MONTH; END_OF_MONTH starts on the 30th (ValueError in February), never pays on a 31st and drifts after February: refuted as month-end dates."
  },
  {
   "property": "C44",
   "status": "proved",
   "theorems": [
    "C44_contiguous",
    "C44_periods",
    "C44_tiles",
    "C44_legs",
    "C44_knot",
    "C44_us_strict",
    "C44_unsupported_frequency",
    "C44_stub_dropped_refuted",
    "C44_month_end_refuted"
   ],
   "note": "Exact characterisation; the naive claim that a leg always covers the swap is refuted for stubs and for month-end starts."
  },
  {
   "property": "C45",
   "status": "proved",
   "theorems": [
    "C45_opposite",
    "C45_needs_legs",
    "C45_implied_rate",
    "C45_fair"
   ],
   "note": "Value at any fixed rate in closed form; fair exactly at the implied rate when no fixed payment predates the curve's reference date."
  },
  {
   "property": "C46",
   "status": "proved",
   "theorems": [
    "C46_compounding",
    "C46_bounds",
    "C46_payment",
    "C46_too_short"
   ],
   "note": "Compounding identity, bounds, Act/360 payment, and the ZeroDivisionError of degenerate periods."
  },
  {
   "property": "C47",
   "status": "proved",
   "theorems": [
    "C47_linear",
    "C47_order_and_join",
    "C47_key_rates"
   ],
   "note": ""
  },
  {
   "property": "C48",
   "status": "proved",
   "theorems": [
    "C48_grid",
    "C48_total",
    "C48_add_timedelta",
    "C48_path",
    "C48_evaluation",
    "C48_before_generation",
    "C48_stale_grid_refuted"
   ],
   "note": "Grid, total success, path and evaluation; the stale grid after set_path=False is exhibited."
  },
  {
   "property": "C49",
   "status": "proved",
   "theorems": [
    "C49_between",
    "C49_linear_refuted"
   ],
   "note": "Exact characterisation; the linear-interpolation reading is refuted."
  },
  {
   "property": "C50",
   "status": "proved",
   "theorems": [
    "C50_euler",
    "C50_evaluation"
   ],
   "note": "In-place update modelled with an array heap, so non-mutation of the caller's array is a theorem."
  },
  {
   "property": "C51",
   "status": "proved",
   "theorems": [
    "C51_product",
    "C51_linear",
    "C51_float_start",
    "C51_constructed"
   ],
   "note": "Product form, linearity, sign; float start always raises."
  },
  {
   "property": "C52",
   "status": "proved",
   "theorems": [
    "C52_rates",
    "C52_unstored",
    "C52_integral",
    "C52_constant_rate",
    "C52_discount",
    "C52_stale_discount",
    "C52_accrual_curve",
    "C52_accrual_values",
    "C52_set_dt",
    "C52_integral_refuted",
    "C52_stale_refuted",
    "C52_default_grid"
   ],
   "note": "Exact characterisation; 'the integral of a constant rate is rate x time' and 'the discount curve follows the current path' are refuted."
  },
  {
   "property": "C53",
   "status": "proved",
   "theorems": [
    "C53_zero_speed",
    "C53_price",
    "C53_coefficients"
   ],
   "note": "F solves the term-structure equation for all tau and r; accrual is taken from the model start whatever the purchase date (see C54)."
  },
  {
   "property": "C54",
   "status": "proved",
   "theorems": [
    "C54_yield",
    "C54_forward",
    "C54_convexity",
    "C54_volatilities",
    "C54_price_convexities",
    "C54_own_maturity_refuted"
   ],
   "note": "Identities for all parameters; 'a bond maturing at its purchase date is priced at 1' is refuted."
  },
  {
   "property": "C55",
   "status": "proved",
   "theorems": [
    "C55_moments",
    "C55_bounds",
    "C55_path"
   ],
   "note": "Moments as the unique solutions' differential equations; path recursion for all draws."
  },
  {
   "property": "C56",
   "status": "proved",
   "theorems": [
    "C56_price",
    "C56_coefficients",
    "C56_own_maturity",
    "C56_sizes",
    "C56_path"
   ],
   "note": "numpy.linalg eig/inv are oracles with the contract linalg_ok; eigenvalues real."
  },
  {
   "property": "C57",
   "status": "proved",
   "theorems": [
    "C57_riskless"
   ],
   "note": "np.linalg.solve is an oracle with contract M w = b."
  },
  {
   "property": "C58",
   "status": "proved",
   "theorems": [
    "C58_yields",
    "C58_forwards",
    "C58_price_convexities"
   ],
   "note": ""
  },
  {
   "property": "C59",
   "status": "proved",
   "theorems": [
    "C59_equal_speeds",
    "C59_doubly",
    "C59_abstract",
    "C59_subclass",
    "C59_trebly",
    "C59_market_price"
   ],
   "note": "numpy eig/inv/cholesky oracles with the contract linalg_ok."
  },
  {
   "property": "C60",
   "status": "proved",
   "theorems": [
    "C60_variance_gradient",
    "C60_utility_gradient",
    "C60_start",
    "C60_no_assets",
    "C60_minimum_variance",
    "C60_maximum_utility"
   ],
   "note": "scipy minimize is an oracle; its KKT contract is a hypothesis. The code never checks the optimiser's success flag."
  },
  {
   "property": "C61",
   "status": "proved",
   "theorems": [
    "C61_present_value",
    "C61_bounds",
    "C61_knot"
   ],
   "note": ""
  },
  {
   "property": "C62",
   "status": "proved",
   "theorems": [
    "C62_pv_deriv",
    "C62_duration",
    "C62_macaulay",
    "C62_macaulay_defined",
    "C62_convexity_refuted"
   ],
   "note": "duration() is off by principal/100 (exact characterisation); convexity() always raises"
  },
  {
   "property": "C63",
   "status": "proved",
   "theorems": [
    "C63_future_refuted",
    "C63_subclass",
    "C63_future"
   ],
   "note": "The class itself cannot be instantiated (refuted); proved for subclasses that can."
  },
  {
   "property": "C64",
   "status": "proved",
   "theorems": [
    "C64_fixed_leg",
    "C64_term_floating_leg",
    "C64_set_cashflow",
    "C64_paid_in_arrears"
   ],
   "note": "Both legs; the overnight floating payment is C46_payment."
  },
  {
   "property": "C65",
   "status": "proved",
   "theorems": [
    "C65_correlation"
   ],
   "note": "Finite weighted ensembles stand for the distribution; numpy.linalg.cholesky's contract is a hypothesis."
  },
  {
   "property": "C66",
   "status": "proved",
   "theorems": [
    "C66_mean",
    "C66_volatility",
    "C66_paths_unchanged",
    "C66_state_setter",
    "C66_missing_entries"
   ],
   "note": "Exact iff: prices after a volatility update are right iff (s/q)^2 is unchanged; paths never change."
  },
  {
   "property": "C67",
   "status": "proved",
   "theorems": [
    "C67_matured",
    "C67_yield",
    "C67_moments",
    "C67_convexity",
    "C67_forward",
    "C67_forward_refuted"
   ],
   "note": "Forward refuted for the doubly mean reverting model."
  },
  {
   "property": "C68",
   "status": "proved",
   "theorems": [
    "C68_diagonal",
    "C68_orthonormal",
    "C68_refuted"
   ],
   "note": "Refuted in general; exact where the eigenvectors are the axes."
  },
  {
   "property": "C69",
   "status": "proved",
   "theorems": [
    "C69_setters",
    "C69_stale",
    "C69_round_trip"
   ],
   "note": "Setters leave the computing model stale."
  },
  {
   "property": "C70",
   "status": "proved",
   "theorems": [
    "C70_attainable",
    "C70_returns",
    "C70_volatilities",
    "C70_sharpe"
   ],
   "note": "np.arange in exact arithmetic; positive step."
  },
  {
   "property": "C71",
   "status": "proved",
   "theorems": [
    "C71_value",
    "C71_bond_knot",
    "C71_never_discounts",
    "C71_yield_refuted"
   ],
   "note": "Refuted part: the values are prices, not yields."
  },
  {
   "property": "C72",
   "status": "proved",
   "theorems": [
    "C72_fit",
    "C72_fit_defined",
    "C72_errors",
    "C72_root_reprices",
    "C72_yields",
    "C72_unchecked_refuted",
    "C72_clean_price",
    "C72_clean_price_refuted"
   ],
   "note": "scipy root is an arbitrary finite adaptive client of the residual function. Refuted parts: unchecked root, clean against full price."
  },
  {
   "property": "C73",
   "status": "proved",
   "theorems": [
    "C73_zero_local",
    "C73_bond_local",
    "C73_bootstrap",
    "C73_repriced",
    "C73_zero_priced",
    "C73_bond_priced",
    "C73_defined",
    "C73_unsorted_blind",
    "C73_solution_dropped_refuted",
    "C73_order_refuted"
   ],
   "note": "linear/previous interpolation; instruments whose value depends only on discount factors up to their knot (proved for bonds and zero coupon bonds). Refuted parts: solution dropped, order."
  },
  {
   "property": "C75",
   "status": "proved",
   "theorems": [
    "C75_inputs",
    "C75_import",
    "C75_calibrated",
    "C75_side_effect",
    "C75_factorised",
    "C75_misfit",
    "C75_reproduces",
    "C75_defined",
    "C75_state_lost",
    "C75_one_factor",
    "C75_solution_dropped_refuted",
    "C75_state_lost_refuted"
   ],
   "note": "scipy.optimize.minimize is an arbitrary client of the loss; numpy eig/inv/cholesky oracles. Refuted parts: solution dropped, state lost, import, one factor."
  },
  {
   "property": "C74",
   "status": "proved",
   "theorems": [
    "C74_paths",
    "C74_ends",
    "C74_raises",
    "C74_hangs",
    "C74_survival",
    "C74_monotone",
    "C74_common_draws_refuted",
    "C74_trials",
    "C74_last_interval_refuted"
   ],
   "note": "exact real arithmetic for the time grid; the generator is an arbitrary stream of draws. Refuted parts: last interval, common draws."
  },
  {
   "property": "C76",
   "status": "proved",
   "theorems": [
    "C76_rule",
    "C76_table",
    "C76_completed"
   ],
   "note": ""
  },
  {
   "property": "C77",
   "status": "proved",
   "theorems": [
    "C77_comparisons",
    "C77_equality_refuted",
    "C77_in_list"
   ],
   "note": "Includes a refutation: == of an instrument with itself raises."
  },
  {
   "property": "C78",
   "status": "proved",
   "theorems": [
    "C78_next_after_history",
    "C78_full_pass",
    "C78_delete_in_pass",
    "C78_each_member_refuted",
    "C78_portfolio"
   ],
   "note": "Includes a refutation: a member is skipped when one is deleted during a pass."
  },
  {
   "property": "C79",
   "status": "proved",
   "theorems": [
    "C79_append",
    "C79_search",
    "C79_pop",
    "C79_remove",
    "C79_clear",
    "C79_reverse",
    "C79_setitem",
    "C79_constructed"
   ],
   "note": ""
  },
  {
   "property": "C80",
   "status": "proved",
   "theorems": [
    "C80_sofr_future",
    "C80_portfolio",
    "C80_callable"
   ],
   "note": ""
  },
  {
   "property": "C81",
   "status": "proved",
   "theorems": [
    "C81_adjustments_refuted"
   ],
   "note": "The property is false of the code; the exact behaviour is proved."
  },
  {
   "property": "C82",
   "status": "proved",
   "theorems": [
    "C82_accuracy",
    "C82_errors",
    "C82_nearest_refuted"
   ],
   "note": "Refuted part: nearest float for Actual/Actual over a year end. Binary64 via Flocq; stdlib axioms only."
  },
  {
   "property": "C83",
   "status": "proved",
   "theorems": [
    "C83_comparisons",
    "C83_order",
    "C83_order_start",
    "C83_equality_refuted"
   ],
   "note": "Refuted part: equality under Actual/Actual. Binary64 via Flocq; stdlib axioms only."
  },
  {
   "property": "C84",
   "status": "proved",
   "theorems": [
    "C84_additive",
    "C84_exact_refuted"
   ],
   "note": "Refuted part: exact additivity (each convention). Binary64 via Flocq; stdlib axioms only."
  },
  {
   "property": "C85",
   "status": "proved",
   "theorems": [
    "C85_accuracy",
    "C85_errors",
    "C85_resolution",
    "C85_midnight_refuted"
   ],
   "note": "Refuted part: midnight timestamps. Binary64 via Flocq; stdlib axioms only."
  },
  {
   "property": "C86",
   "status": "proved",
   "theorems": [
    "C86_in_order",
    "C86_place",
    "C86_range",
    "C86_out_of_order_refuted"
   ],
   "note": "Refuted part: order is not restored."
  },
  {
   "property": "C87",
   "status": "proved",
   "theorems": [
    "C87_one",
    "C87_sum",
    "C87_exact_refuted"
   ],
   "note": "Refuted part: exact sum. Binary64 via Flocq; bumps between 2^-900 and 2^900 (or 0) where accuracy is claimed."
  },
  {
   "property": "C88",
   "status": "proved",
   "theorems": [
    "C88_built",
    "C88_knots",
    "C88_previous",
    "C88_ends",
    "C88_between",
    "C88_flat",
    "C88_monotone",
    "C88_accuracy",
    "C88_exact_refuted"
   ],
   "note": "Refuted part: exactness. numpy.interp is modelled as its C source; values up to 2^900."
  },
  {
   "property": "C89",
   "status": "proved",
   "theorems": [
    "C89_order",
    "C89_equality",
    "C89_history",
    "C89_antisymmetry_refuted"
   ],
   "note": "Refuted part: antisymmetry."
  },
  {
   "property": "C90",
   "status": "proved",
   "theorems": [
    "C90_plus",
    "C90_sum_refuted",
    "C90_iadd",
    "C90_add_one"
   ],
   "note": "Refuted part: sum() of collections."
  },
  {
   "property": "C91",
   "status": "proved",
   "theorems": [
    "C91_present_value",
    "C91_raises",
    "C91_portfolio",
    "C91_order",
    "C91_order_refuted",
    "C91_nonneg"
   ],
   "note": "Refuted part: independence of the order of positions."
  },
  {
   "property": "C92",
   "status": "proved",
   "theorems": [
    "C92_corporate",
    "C92_same_side",
    "C92_before",
    "C92_after",
    "C92_other_date_refuted"
   ],
   "note": "Refuted part: that the date is honoured."
  },
  {
   "property": "C93",
   "status": "proved",
   "theorems": [
    "C93_meaning",
    "C93_equivalence",
    "C93_as_sets",
    "C93_adjustments",
    "C93_bumps_refuted"
   ],
   "note": "Refuted part: equal collections adjust alike."
  },
  {
   "property": "C94",
   "status": "proved",
   "theorems": [
    "C94_accuracy",
    "C94_additive_refuted",
    "C94_monotone",
    "C94_exact"
   ],
   "note": "Refuted part: additivity."
  },
  {
   "property": "C95",
   "status": "proved",
   "theorems": [
    "C95_no_arbitrage"
   ],
   "note": "Exact derivative report needs a symmetric matrix; the exact error otherwise is part of the theorem."
  },
  {
   "property": "C96",
   "status": "proved",
   "theorems": [
    "C96_weekdays",
    "C96_calendar_ignored",
    "C96_holidays_refuted"
   ],
   "note": "Refuted part: holidays of datetimes."
  },
  {
   "property": "C97",
   "status": "proved",
   "theorems": [
    "C97_tenor",
    "C97_printed",
    "C97_otherwise",
    "C97_dates",
    "C97_plain_refuted"
   ],
   "note": "Refuted part: that only plain numbers are accepted. ASCII only; CPython's 4300-digit limit left out."
  },
  {
   "property": "C98",
   "status": "proved",
   "theorems": [
    "C98_accepted",
    "C98_rejected",
    "C98_made",
    "C98_mismatch",
    "C98_match",
    "C98_contract",
    "C98_dimension_refuted",
    "C98_correlation_refuted"
   ],
   "note": "Refuted parts: dimension and shape agree; only correlation matrices. numpy cholesky is computed in exact arithmetic here, not assumed."
  },
  {
   "property": "C99",
   "status": "proved",
   "theorems": [
    "C99_moments",
    "C99_elapsed",
    "C99_noise"
   ],
   "note": "The expectation is any linear functional with the stated moments; one exists for every size (C99_noise)."
  },
  {
   "property": "C100",
   "status": "proved",
   "theorems": [
    "C100_noise",
    "C100_moments",
    "C100_converges"
   ],
   "note": "Fair coins meet the hypotheses for every size (C100_noise); so do independent standard normals."
  },
  {
   "property": "C101",
   "status": "proved",
   "theorems": [
    "C101_moments",
    "C101_converges"
   ],
   "note": "Dimension 1 and a unit matrix, as the model is constructed in the repository."
  },
  {
   "property": "C102",
   "status": "proved",
   "theorems": [
    "C102_ladder_total"
   ],
   "note": "Exact real arithmetic, as for C29 and C31."
  },
  {
   "property": "C103",
   "status": "proved",
   "theorems": [
    "C103_selected",
    "C103_cashflow",
    "C103_split",
    "C103_reversed",
    "C103_reversed_refuted",
    "C103_key_rates",
    "C103_delete"
   ],
   "note": "c[::-1] with repeated dates: C103_reversed_refuted."
  },
  {
   "property": "C104",
   "status": "proved",
   "theorems": [
    "C104_linear",
    "C104_hedge",
    "C104_diagonal",
    "C104_zero_coupon_hedge"
   ],
   "note": "The linear solve is an arbitrary solution of the system, as numpy promises."
  },
  {
   "property": "C105",
   "status": "proved",
   "theorems": [
    "C105_value_at_coupon_rate",
    "C105_par",
    "C105_actual_refuted"
   ],
   "note": "Actual/Actual: C105_actual_refuted. Exact for 30/360 with unmoved payments."
  },
  {
   "property": "C106",
   "status": "proved",
   "theorems": [
    "C106_moments",
    "C106_converges",
    "C106_refuted"
   ],
   "note": "Correlated Brownian motions: C106_refuted."
  },
  {
   "property": "C107",
   "status": "proved",
   "theorems": [
    "C107_balance",
    "C107_conserved",
    "C107_split",
    "C107_paid_off",
    "C107_exact_refuted"
   ],
   "note": "Exact conservation: C107_exact_refuted (off by 2^-44 on $1000 in three payments)."
  },
  {
   "property": "C108",
   "status": "proved",
   "theorems": [
    "C108_accuracy",
    "C108_errors",
    "C108_zero_coupon",
    "C108_within"
   ],
   "note": "Under 30/360 the accrued interest may exceed the coupon (see C38), hence the exception."
  },
  {
   "property": "C109",
   "status": "proved",
   "theorems": [
    "C109_accuracy",
    "C109_errors",
    "C109_monotone",
    "C109_sign",
    "C109_us_periods",
    "C109_one_day_refuted",
    "C109_fixed_leg",
    "C109_term_leg",
    "C109_overnight_leg",
    "C109_us_legs",
    "C109_opposite"
   ],
   "note": "C109_one_day_refuted: one business day at 5% does not compound to exactly 5% (the subtraction growth - 1 keeps the rounding of 1 + rate * accrual), which is why the error bound has the 1/T term."
  },
  {
   "property": "C110",
   "status": "proved",
   "theorems": [
    "C110_value",
    "C110_fair",
    "C110_sign",
    "C110_us_accruals",
    "C110_defined",
    "C110_exact_refuted"
   ],
   "note": "C110_exact_refuted: a one year quarterly swap on 13 at its implied rate is not worth exactly 0, with either summation."
  },
  {
   "property": "C111",
   "status": "proved",
   "theorems": [
    "C111_same_dates",
    "C111_balance",
    "C111_parts",
    "C111_covers",
    "C111_payment_refuted"
   ],
   "note": "C111_payment_refuted: with an extra payment the recorded payments of the two schedules can differ by the whole extra payment when rounding decides the payoff test, because only a payoff records the extra payment as part of the payment."
  },
  {
   "property": "C112",
   "status": "proved",
   "theorems": [
    "C112_price",
    "C112_residual",
    "C112_pv_deriv",
    "C112_duration"
   ],
   "note": "pow is a parameter with a stated accuracy contract (libm_pow), met by a correctly rounded power function (rounded_pow_ok)."
  },
  {
   "property": "C113",
   "status": "proved",
   "theorems": [
    "C113_expected_rate",
    "C113_forward_volatility",
    "C113_variance",
    "C113_coefficients",
    "C113_price",
    "C113_slow_price_refuted",
    "C113_slow_variance_refuted"
   ],
   "note": "exp and ** 2 are parameters with stated accuracy contracts (libm_exp, libm_square), met by correctly rounded functions (rounded_exp_ok, rounded_square_ok)."
  },
  {
   "property": "C114",
   "status": "proved",
   "theorems": [
    "C114_discount_factors",
    "C114_raises",
    "C114_own_factors",
    "C114_other_spaces",
    "C114_ordinary",
    "C114_exact",
    "C114_positive_yield_refuted"
   ],
   "note": "numpy exp is a parameter with a stated accuracy contract (numpy_exp; relative error 2^-50, exact at 0), met by the correctly rounded exp (exact_np_ok). ordinary_yields is established from bounds on the knots in C114_ordinary."
  },
  {
   "property": "C115",
   "status": "proved",
   "theorems": [
    "C115_present_value",
    "C115_late_payment",
    "C115_key_rate_risk",
    "C115_central_difference"
   ],
   "note": "numpy exp is a parameter with the contract of C114. plain_yields bounds the yields by 2^30 and the years by 400; key weights are the exact adjustment of one unit (KeyRate.v)."
  },
  {
   "property": "C116",
   "status": "proved",
   "theorems": [
    "C116_macaulay",
    "C116_ahead",
    "C116_past_payment"
   ],
   "note": "pow is a parameter with the contract of C112. The bond and its full price are those of FloatBond.v."
  },
  {
   "property": "C117",
   "status": "proved",
   "theorems": [
    "C117_ladder",
    "C117_beyond"
   ],
   "note": "numpy exp is a parameter with the contract of C114. Payments after the last knot raise (C115)."
  },
  {
   "property": "C118",
   "status": "proved",
   "theorems": [
    "C118_running_sums",
    "C118_vasicek",
    "C118_geometric",
    "C118_grid",
    "C118_increments",
    "C118_brownian",
    "C118_left_sum"
   ],
   "note": "The accuracy of numpy's @ on short vectors is a hypothesis (blas_dot), which left-to-right addition meets (C118_left_sum). Bounds hold for draws up to 1000, Cholesky entries up to 100, steps up to 10000 years."
  },
  {
   "property": "C119",
   "status": "proved",
   "theorems": [
    "C119_same_grid",
    "C119_common_draws",
    "C119_forgets",
    "C119_noise_free",
    "C119_explodes",
    "C119_reverts_refuted"
   ],
   "note": "Exact arithmetic (the rounding of the paths is C118). That steps may be too long is C119_explodes with the witness C119_reverts_refuted."
  },
  {
   "property": "C120",
   "status": "proved",
   "theorems": [
    "C120_integral",
    "C120_discount",
    "C120_monotone",
    "C120_discount_range"
   ],
   "note": "The float model is compared with the exact program of C52, whose known defect (accruals always measured from the start, so the integral is too large from the second step on) it shares. numpy's exp is a contract (libm_exp of C113); rates the path delivers are given doubles (their own rounding is C118)."
  }
 ]
}