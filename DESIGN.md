# Formal model of aflapan/fixedIncome in Rocq (Coq 8.16.1)

The code in /repo is read as text only. Everything below is about the Gallina model in
`rocq/theories`, whose definitions cite the file and lines they model.

## Modelling conventions

* **Exceptions are values.** `res A := Ok a | Err e`, `e` one of the Python exception kinds the code can raise.
* **Dates** are Python's proleptic Gregorian dates: year 1..9999, `toordinal` 1..3652059, weekday `(ord+6) mod 7`
  (Monday 0). Date arithmetic out of range raises OverflowError, construction out of range ValueError. A `datetime` is
  an ordinal day with seconds since midnight (sub-second resolution is a rational number of seconds where noted).
* **relativedelta** months/years: month arithmetic, then the day is clamped to the month length (dateutil's rule).
* **Floats.** The main model computes with exact numbers: rationals `Q` (computable) where the code only adds, multiplies,
  divides and compares, and reals `R` where it uses exp/log/power. Its theorems are about the exact-arithmetic program. The
  files `Float*.v` model the parts they name a second time in IEEE binary64 (Flocq's `BinarySingleNaN`, round to nearest
  even, as CPython computes) and their theorems relate that program to the exact one. Elsewhere rounding is not modelled:
  this is the largest simplification.
* **Loops.** `while` loops over dates run on binary fuel 2^22 > 3652059; the fuel is proved never to be exhausted
  (each step moves the date, so the loop ends in a date or in OverflowError).
* **Objects** that are mutated and shared (key rates, cached discount curves, paths) are cells of an explicit state.
* **Oracles.** numpy random numbers, scipy root/minimize, numpy eig/inv/solve/cholesky are parameters of the
  theorem, with the contract used as an explicit hypothesis. scipy `interp1d` is modelled for kind linear and previous;
  cubic/quadratic splines, pandas and plotting are not modelled.

## Trusted base

* Coq's kernel (coqc 8.16.1), including its `vm_compute` machine, and the faithfulness of the model to the cited lines.
* Libraries used: Coq's standard library, and Flocq (in `Float*.v`, `P_Float*.v`), which is proved from the standard
  library's reals and adds no axiom.
* What `Print Assumptions` lists, for every theorem, is in the table at the end of this file; each P_ file prints it after
  the theorem. Only these four axioms of the standard library occur: `ClassicalDedekindReals.sig_forall_dec`,
  `ClassicalDedekindReals.sig_not_dec`, `FunctionalExtensionality.functional_extensionality_dep` and
  `Classical_Prop.classic`, all by way of the standard library's reals. (coqchk also names fields of the standard library's
  sealed modules, `Rdefinitions.RbaseSymbolsImpl.*`, `Rdefinitions.RinvImpl.*` and `ssr.ssrunder.Under_rel.*`: they are
  definitions hidden by a signature.)
* No axioms are added, no kernel checks switched off, no functors or module types defined.

### Modelled

| Python | Model files |
|---|---|
| scheduling_tools/day_count_calculator.py | PyDate, DayCount; in floats FloatDayCount |
| scheduling_tools/holidays.py, scheduler.py, schedule_enumerations.py | Holidays, Scheduler |
| risk/key_rate.py | KeyRate, KeyRateCmp, Sequence; in floats FloatKeyRate |
| risk/risk_metrics.py, curves/base_curve.py, curve_enumerations.py, yield_curve.py | Curve, YieldFactory; interpolation in floats FloatCurve |
| curves/credit_curves/default_models.py | Default |
| assets/base_cashflow.py, portfolio/base_portfolio.py | Cashflow, Sequence; in floats FloatCashflow |
| us_treasury_instruments.py, corporate_bond.py | Bond, Assets |
| loan.py, interest_rate_swap.py, interest_rate_future.py | Loan, Swap, Assets |
| portfolio/portfolio_optimization.py | PortOpt |
| base_processes.py, brownian_motion.py, geometric_brownian_motion.py | Stochastic |
| base_short_rate_model.py, vasicek_model.py, the doubly and trebly mean reverting models | ShortRate, Vasicek, Multi |
| factorized_calibrator.py | Calibrator |
| abc.ABCMeta, inherited Sequence/Set methods | PyClass, Sequence |

(Every definition cites its Python lines. Files *Facts hold lemmas, P_* the property theorems, Float* the binary64 models.)

### Not modelled

* Plotting, printing, `to_series`/`to_dataframe`, `show_*`, timing decorators and every `__main__` script.
* scipy splines (kinds quadratic, cubic): interpolation theorems cover linear and previous. scipy `root` and `minimize` are
  arbitrary clients that call back finitely often and return some vector; the optimiser of portfolio_optimization.py is an
  oracle with its KKT contract as hypothesis. numpy random numbers, eig, inv, solve and cholesky are oracles with the
  contract recorded in the theorem; complex eigenvalues and shape broadcasting are outside it.
* pandas `date_range` beyond the range of Timestamp, `np.arange` with step 0.
* Python numbers at the edges: power or log of a non-positive base, NaN and infinity outside `Float*.v`.
* Stubs without behaviour: credit_default_swap.py, affine_model_mixin.py (abstract), `generate_cox_model_sample_paths`,
  `calculate_key_rate_convexity`, `calculate_cost_to_deliver`.
* Threads, signals, memory limits: the code is sequential.

## Plan per property

* **C01 Actual/N accruals are exact elapsed days** - PyDate + DayCount model (ordinals, Q). Direct: unfold, Q field arithmetic.
* **C02 Actual/Actual is additive and whole years count one** - Act/Act shown to be a difference of the potential year + dayofyear/yearlen; additivity and monotonicity follow.
* **C03 30/360 accruals: exact value, month counting and sign** - Branch model of 30/360; exact sign characterisation by case analysis over (month, day) with the order of dates.
* **C04 Inverted periods are rejected** - check_dates modelled on datetimes (ordinal, seconds); case split.
* **C05 Timestamps accrue exact seconds under Actual/N** - include_datetimes wrapper modelled branch by branch; algebra in Q.
* **C06 Timestamps under Actual/Actual** - Same wrapper around Act/Act; potential argument; counter-example by vm_compute.
* **C07 Next weekday** - modular arithmetic on ordinals.
* **C08 Federal holiday observance** - modular arithmetic on ordinals.
* **C09 Floating US holidays are the documented n-th weekdays** - nth-weekday specification over (y,m,d), arithmetic.
* **C10 Holiday generation is complete and exact** - set comprehension as list; membership lemma.
* **C11 T+0 is the first business day on or after** - unbounded while as binary-fuel iteration; least-witness lemma.
* **C12 T+n counts n business days** - count of business days in an interval as specification.
* **C13 Negative business-day offsets** - mirror search; inverse lemmas.
* **C14 Modified following** - general part for all calendars; month facts for the US calendar by bounding runs of non-business days.
* **C15 Business day enumeration is exact** - extensional list specification (sorted, membership iff).
* **C16 Date grids by a fixed timedelta** - fuel-indexed loop, closed form.
* **C17 Date grids by months and end-of-month drift** - addmonths closed form for days <= 28; refutation witness for day 31.
* **C18 Settlement conventions** - from C11-C13.
* **C19 Business days of the US calendar** - unfold + witness.
* **C20 Shape of a key rate bump** - tent function in Q; ramps by accrual ratio.
* **C21 Key rate bumps add up to a parallel shift** - telescoping over the sorted list; heap model.
* **C22 Collections are sorted and linked** - stable sort model, heap linking.
* **C23 Key rate neighbour guards** - state machine over histories.
* **C24 Editing key rate collections** - heap operations branch by branch.
* **C25 Collections share their key rates** - two-collection heap; witness + general theorem.
* **C26 Interpolated curves reprice their knots** - interp1d linear model over Q; induction on knots.
* **C27 Curve domain and end behaviour** - branch model of interpolate.
* **C28 Step interpolation** - searchsorted model.
* **C29 Yield to discount conversion** - R-valued exp; grid lemma.
* **C30 Present values do not depend on history** - state machine: cached curve cell overwritten.
* **C31 PV01 by central difference** - state machine: key rate bump cell.
* **C32 Risk ladder container** - list model.
* **C33 Cashflows stay sorted** - stable sort and insort_right model; permutation + sortedness invariants.
* **C34 Cashflow present value** - fold over payments in Q / R.
* **C35 Cashflow collections behave as a keyed map** - assoc-list model.
* **C36 Treasury coupon schedule** - relativedelta iteration back from maturity.
* **C37 Coupon and principal amounts and dates** - unfold.
* **C38 Accrued interest** - bisect model; bounds lemma under guard; witnesses for deviations.
* **C39 Discounting at a fixed rate and yield to maturity** - R power model, derivative sign.
* **C40 Received payments** - from C18.
* **C41 Loan balances** - loop model in R; conservation invariant.
* **C42 The level payment amortises the loan** - recurrence closed form in Q.
* **C43 Loan payment dates** - date model; witness.
* **C44 Swap accrual periods tile the swap** - zip of dates; contiguous lemma.
* **C45 Payer and receiver swaps are opposite; the implied rate is fair** - linear algebra in Q.
* **C46 OIS compounding** - product induction.
* **C47 Portfolio present value is linear** - fold.
* **C48 Brownian path grid and evaluation** - grid loop model.
* **C49 Path evaluation between grid times** - convexity of weights; witness.
* **C50 Euler scheme of diffusions** - fold over shocks.
* **C51 Geometric Brownian motion** - product.
* **C52 Short-rate paths, their integral and discount curve** - fold; witness.
* **C53 Vasicek bond price solves the pricing equation** - derivable_pt_lim over R.
* **C54 Vasicek yields, forwards and convexity** - R.
* **C55 Vasicek short rate moments** - R.
* **C56 Multivariate Vasicek bond prices** - finite-dimensional matrices as functions nat->nat->R with finite sums; eigendecomposition as contract.
* **C57 Riskless portfolio weights** - contract of linear solve.
* **C58 Yield covariance matrices** - Gram matrix.
* **C59 Named multi-factor models have the documented drift** - explicit 2x2/3x3 algebra.
* **C60 Portfolio optimisation problems are the documented ones** - gradients as derivatives along arbitrary directions.
* **C61 Bond price against a discount curve** - mapM over the filtered payments; sums.
* **C62 Bond sensitivities** - derivative of the power sum (derivable_pt_lim), mean value theorem.
* **C63 Treasury future mark-to-market dates** - from C15 and C18.
* **C64 Swap leg payments** - mapM over the accrual schedule; dictionary lemmas for the stored legs; settlement facts of C18.
* **C65 Brownian increments have the requested correlation** - Exchange of finite sums: E[(Lz)(Lz)^T] = L E[zz^T] L^T; the Cholesky factor's contract L L^T = C is a hypothesis.
* **C66 Re-parameterising a Vasicek model through the calibration dictionary** - Model the three dictionary setters of VasicekModel over the record state; compare the resulting coefficient functions with those of a fresh constructor call; iff on (s/q)^2 by solving the price equation.
* **C67 Multivariate Vasicek yields, expectations and forwards** - Same model as C56; ln/exp identities, ODEs of the mean via the eigendecomposition, convexity sign by a sum-of-squares integral argument; forward error by left eigenvectors of e^{-Ka}.
* **C68 Covariance of the future state** - Derivative of the reported matrix against the Lyapunov equation; uniqueness of its solution for the 2x2 counterexample.
* **C69 Calibration dictionary of the doubly mean reverting model** - Record state with the dictionary lists; setters as state transformers; the inner multivariate model is shown unchanged.
* **C70 Efficient frontier** - np.arange as ceil of a real; convexity by the tangent inequality of the quadratic form; attainability by mixing the extreme assets.
* **C71 "Yield to maturity" curves from quoted bonds** - YieldFactory.v; through C26 (repricing of knots) and C29 (other spaces raise).
* **C72 Fitted yield curves reprice their instruments** - scipy root as a finite interaction tree run against the stateful residual; invariant: the shared curve equals a new curve up to its cache, which is never stale.
* **C73 Bootstrapped yield curves** - Locality of linear/previous interpolation in the knots; simulation of each round by new curves; invariant over rounds.
* **C75 Factorised calibration of the doubly mean reverting model** - Interaction trees for the optimiser; the state after a run is the last point tried (induction over the tree); the losses equal misfits of newly built models (np.empty never read).
* **C74 Simulated default times** - While loop with fuel, proved sufficient for positive steps and never sufficient otherwise; induction on fuel against an inductive description of the paths.
* **C76 Which instruments can be created** - PyClass/Assets: classes as (base, abstract names, concrete names), ABCMeta rule; induction over the class.
* **C77 Comparing instruments** - Assets: the mixin methods of collections.abc.Set on cashflow collections; case analysis on lengths.
* **C78 Stepping through a collection with next()** - Sequence: object = (list, cursor), histories as lists of calls; invariant by induction over the history.
* **C79 Inherited sequence methods of a key rate collection** - Sequence: CPython mixin methods over the heap model of KeyRate; loops by induction.
* **C80 Instruments without valuation** - Assets: attributes present after the constructor; unfolding, induction over the portfolio.
* **C81 Quote adjustments** - Assets: zip of knots and adjustments; case analysis.
* **C82 Day counts in floating point: accuracy** - FloatDayCount.v: the same functions over Flocq binary64; standard error model of one or three roundings, date ranges bound all magnitudes.
* **C83 Day counts in floating point: comparisons** - Day counts of different value differ by far more than the rounding error (denominators at most 365*366), so order survives.
* **C84 Day counts in floating point: additivity** - From C82 and exact additivity; refutation by computing the floats.
* **C85 Timestamped day counts in floating point** - Error analysis of the datetime wrapper operation by operation.
* **C86 Resetting one knot of a curve** - Curve.v state transition; in-order case by uniqueness of sorting.
* **C87 Key rates in floating point** - FloatKeyRate.v: closures over binary64; monotone rounding gives the range, error analysis the accuracy, all but two terms of the sum are zeros.
* **C88 Curve interpolation in floating point** - FloatCurve.v: the same curve over binary64; the float axis orders dates as dates (C83), each segment is six roundings, and dates are so far apart that the error cannot reach the next knot.
* **C89 Comparing key rates** - KeyRateCmp.v; histories by C23.
* **C90 Operators of key rate collections** - KeyRateCmp.v: Python's operator protocol with __radd__ calling + again; bisect_right as its loop, its result by the invariant of binary search.
* **C91 Present values in floating point** - FloatCashflow.v over binary64 (Flocq); error of both summation loops by induction with an invariant on the partial sums.
* **C92 Accrued interest on another date** - Bond.v; case analysis on the side of the first coupon.
* **C93 Equality of key rate collections** - Sequence.v; strictly sorted lists with the same elements are equal.
* **C94 Time fractions in floating point** - FloatDayCount.v; two correctly rounded divisions.
* **C95 A riskless portfolio earns the short rate** - Multi.v; the pricing equation of C56 summed over the weights of C57.
* **C96 Business days of datetimes** - StampScheduler.v; simulation between the loops on datetimes and on dates.
* **C97 Tenor strings** - Tenor.v; the scanner of int() against a grammar, both directions.
* **C98 Constructing a Brownian motion** - BrownianInit.v; Cholesky by induction on the size, both directions of "succeeds iff positive definite"; histories by induction.
* **C99 Second moments of a Brownian motion** - bilinearity of the expectation over the sums of C48 and the root of C98; telescoping of C05.
* **C100 Mean and mean square of simulated geometric Brownian motion** - expectations that integrate out the last step; induction on the steps over the loop of C51.
* **C101 The simulated Vasicek rate converges to the closed formulas** - the same over the walk of C55; local errors from 1 - x <= exp(-x) <= 1 - x + x^2/2, summed along the grid.
* **C102 Ladder risks add up to the parallel PV01** - weights of the key rates (C20, C21) inside C31_ladder; e^x - e^-x is superadditive and within (1 - x^2/2) of 2x.
* **C103 Slices of cashflows and key rate collections** - CPython's index adjustment modelled and proved equal to the documented positions; sublists of sorted lists stay sorted.
* **C104 Portfolio risk ladders are linear and hedging cancels them** - Portfolio ladder unfolded to finite differences of each asset on the bumped curves; diagonal system by the local effect of a bump at a knot.
* **C105 Par, premium and discount** - The sorted coupons permuted back to the month grid, 30/360 times in arithmetic progression, geometric sum; premium and discount by monotonicity in the rate.
* **C106 Simulated states of a multivariate Vasicek model** - Induction over the steps with bilinear expectations; the recursions diagonalised in the eigenvector basis, products against exponentials by second-order bounds.
* **C107 Loan schedules in floating point** - FloatLoan.v: the amortisation loop over binary64 (Flocq). Induction over the periods; subtraction of doubles has relative error at most 2^-53; witness computed.
* **C108 Bond amounts in floating point** - FloatBond.v: coupon, accrued interest and full price over binary64 (Flocq), dates from Bond.v. Relative error algebra (near) with overflow/underflow excluded by the size hypotheses; monotonicity of rounding for the exact claims.
* **C109 Overnight compounding and swap legs in floating point** - FloatSwap.v: accrual schedules, the compounding loop, payments and present value over binary64 (Flocq), dates from Swap.v. Loop invariant: growth within 12k and accrued years within 5+2k units after k days, growth kept away from overflow by exp bounds; monotonicity of rounding for the order claims.
* **C110 Implied swap rates in floating point** - FloatImplied.v: the annuity loop and the division over binary64, on top of FloatSwap.v. Terms of one sign make the annuity's absolute error relative; fixed leg at rate x compared with x times the annuity; the floating leg's double is shared by both computations.
* **C111 Loan schedules in doubles follow the exact schedules** - Both models run side by side: FloatLoan.v and Loan.v with the doubles read as reals. One period maps the balance b to max(0, (1+ra)b - payment - extra), a Lipschitz map; the double balance satisfies it up to 15 roundings, whichever branch of the payoff test is taken; induction on the periods.
* **C112 Bond prices at a yield in doubles are accurate** - FloatYield.v runs the discounting loop in binary64 with the C library's pow as a parameter. The rate tolerance, the day-count error and pow's error give the relative error of one discount factor (exp/ln bounds); the loop is an induction adding non-negative terms of common relative error. The derivative and duration divide the difference of two such prices.
* **C113 Vasicek closed forms in doubles are accurate, unless the reversion speed is tiny** - FloatVasicek.v runs the closed forms in binary64 with the C library's exp and square as parameters. The accrual's error (C85) and the roundings of the exponent give the weight exp(-k a) an absolute error bound (K exp(-K) <= 1 absorbs the size of the exponent); the formulas are then chained products of near values. The refutations use that a correctly rounded exp of a number in (-2^-54, 0] is 1.
* **C114 A yield curve's discount factors in doubles are accurate, and its discount curve is missing exactly when a yield is** - FloatYieldCurve.v runs the conversion day by day in binary64 with numpy's exp as a parameter. The cached curve is shown to be overwritten by every call (f_cache_ok is preserved), so history is irrelevant. The accrual's error, the product's rounding and exp's contract give the relative error of each factor; mapM_first characterises the first failing day; the refutation rounds exp(-2^-60 t) to 1.
* **C115 A yield curve's present values and key rate risks in doubles are accurate** - Runs present_value and the bump-and-revalue of FloatYieldCurve.v. A key rate with bump -b is the negative of the one with bump b (symmetry of binary64 multiplication), and C87 bounds its error; the bumped yield is within 2^-53 (K + 1) of the exact one, times years. Factors are near by C114, sums by C91; the difference and the division by the double 0.0001 are bounded with underflow excluded. The central difference against the derivative uses the mean value theorem on exp z - exp (-z).
* **C116 Macaulay durations in doubles follow the exact ones** - Models the duration loop of corporate_bond.py in binary64 (FloatDuration.v). Each term's relative error by the discount factors of C112 and the accruals of C82, the sum by induction (all terms non-negative), the quotient by the scaled full price of C108 with underflow bounded absolutely.
* **C117 Risk ladders in doubles: one near-exact risk per key rate, adding up to the parallel DV01** - Models the ladder loop in binary64 over a heap of key rates with float bumps (FloatLadder.v). Induction over the collection with C115's error for each, the state being the history of calls; the weights of the members of a new collection add up to one (C21), so the first-order sensitivities of C115 add up to the parallel one.
* **C118 Simulated paths in doubles: near-exact Brownian, Vasicek and geometric Brownian paths on the same draws** - Models generate_increments, cumsum, the Euler loop of the Vasicek model and the geometric loop in binary64 over a table of draws (FloatPath.v), with numpy @ a contract-bearing parameter and numpy sqrt correctly rounded. Rounding error per step by the standard model of Flocq, accumulated by induction over the steps: the Vasicek recursion does not amplify errors because |1 - speed dt| <= 1; the geometric one is relative.
* **C119 Simulated Vasicek rates forget where they started, unless the steps are too long** - The walk of C55 for two starting arrays on one draw table: subtracting the recursions cancels mean, volatility and draws; induction over the grid, 1 - y <= exp(-y), signs of the factors.
* **C120 The integrated short rate path in double precision** - Float model of the loop on Flocq binary64 (FloatIntegral.v); one trapezoid is within 6u M Y + 1.01 M e of the exact one by standard error algebra, the running sum by induction with a quadratic-in-k invariant; day counts by C85, exp by the contract of C113.

## What Print Assumptions lists

Grouped by the answer; every property theorem occurs once.

* **closed under the global context**: `C01_actual_exact`, `C01_actual_laws`, `C01_date_determined_by_parts`, `C01_dates_are_calendar_days`, `C02_actual_actual_defined`, `C02_actual_actual_laws`, `C02_january_first_refuted`, `C02_whole_years`, `C02_year_ends`, `C03_additive`, `C03_additivity_refuted`, `C03_months`, `C03_nonnegative_refuted`, `C03_sign`, `C03_value`, `C04_inverted_rejected`, `C04_ordered_accepted`, `C05_midnight`, `C05_timestamps_additive`, `C05_timestamps_exact`, `C06_midnight_refuted`, `C06_timestamps_actual_actual`, `C07_itself`, `C07_next_weekday`, `C08_observance`, `C08_total`, `C09_floating_holidays`, `C103_cashflow`, `C103_delete`, `C103_key_rates`, `C103_reversed`, `C103_selected`, `C109_us_legs`, `C109_us_periods`, `C10_generate_all`, `C10_generate_one`, `C10_unknown_name`, `C10_us_total`, `C11_following_business_day`, `C11_following_is_it`, `C11_laws`, `C11_terminates`, `C11_us_total`, `C12_compose`, `C12_counts`, `C12_monotone`, `C13_add_single`, `C13_inverse`, `C13_negative`, `C13_subtract_single`, `C14_fixes_business_days`, `C14_modified_following`, `C14_us`, `C14_us_monotone`, `C15_enumeration`, `C15_total`, `C16_cap_is_max_dates_refuted`, `C16_timedelta_grid`, `C17_grid_steps`, `C17_month_end_refuted`, `C17_month_grid`, `C18_calendar_conventions_rejected`, `C18_monotone`, `C18_settlement`, `C19_any_calendar`, `C19_new_year_observed_refuted`, `C19_us_business_days`, `C20_outside`, `C20_ramps`, `C20_thirty_bound_refuted`, `C20_thirty_zero_division_refuted`, `C21_parallel_shift`, `C21_parallel_shift_mixed`, `C21_set_bump`, `C21_thirty_refuted`, `C22_construction`, `C22_order_irrelevant`, `C22_rejected`, `C23_bump`, `C23_constructor_refuted`, `C23_guards`, `C23_setters`, `C24_delete`, `C24_iadd`, `C24_iadd_refuted`, `C24_insert_rejected`, `C24_setitem`, `C24_setitem_relinks`, `C24_union`, `C24_union_conflict`, `C25_relink_restores`, `C25_slice_breaks_original`, `C26_actual_separates`, `C26_order_irrelevant`, `C27_knot_before_reference`, `C32_ladder_keeps_risks`, `C33_access`, `C33_determined`, `C33_from_iterables`, `C33_slice`, `C33_sorted_history`, `C35_assignment`, `C35_last_given`, `C35_list_stale_refuted`, `C37_adjustment`, `C40_monotone`, `C40_received`, `C40_received_at_settlement`, `C41_present_value_refuted`, `C42_term_accrual`, `C43_end_of_month_start`, `C44_contiguous`, `C44_knot`, `C44_legs`, `C44_periods`, `C44_tiles`, `C44_unsupported_frequency`, `C44_us_strict`, `C47_key_rates`, `C48_add_timedelta`, `C52_default_grid`, `C59_subclass`, `C62_convexity_refuted`, `C63_future_refuted`, `C63_subclass`, `C66_missing_entries`, `C69_setters`, `C75_inputs`, `C76_completed`, `C76_rule`, `C76_table`, `C77_comparisons`, `C77_equality_refuted`, `C77_in_list`, `C78_delete_in_pass`, `C78_each_member_refuted`, `C78_full_pass`, `C78_next_after_history`, `C78_portfolio`, `C79_append`, `C79_clear`, `C79_constructed`, `C79_pop`, `C79_remove`, `C79_reverse`, `C79_search`, `C79_setitem`, `C80_callable`, `C80_sofr_future`, `C81_adjustments_refuted`, `C86_in_order`, `C86_place`, `C86_range`, `C89_antisymmetry_refuted`, `C89_equality`, `C89_history`, `C89_order`, `C90_add_one`, `C90_iadd`, `C90_plus`, `C90_sum_refuted`, `C93_adjustments`, `C93_as_sets`, `C93_bumps_refuted`, `C93_equivalence`, `C93_meaning`, `C96_calendar_ignored`, `C96_holidays_refuted`, `C96_weekdays`, `C97_dates`, `C97_plain_refuted`, `C97_printed`, `C97_tenor`

* **sig_forall_dec**: `C103_reversed_refuted`, `C32_membership_refuted`, `C44_month_end_refuted`, `C44_stub_dropped_refuted`, `C47_linear`, `C56_sizes`, `C80_portfolio`

* **sig_forall_dec, functional_extensionality_dep**: `C100_noise`, `C103_split`, `C116_ahead`, `C26_between_knots`, `C26_reprices_knots`, `C26_thirty_refuted`, `C27_ends`, `C27_inside`, `C28_last_knot_before`, `C34_errors`, `C34_order_merge_scale`, `C34_sum`, `C34_zero_coupon`, `C36_any_day`, `C36_count`, `C36_coupon_dates`, `C36_month_end_refuted`, `C36_us_order`, `C36_zero_coupon_and_monthly`, `C37_amounts_and_dates`, `C37_coupon_amount`, `C37_knot`, `C37_total`, `C38_accrued`, `C38_bounds`, `C38_exceeds_coupon_refuted`, `C38_first_coupon_refuted`, `C38_full_price`, `C40_convention_ignored_refuted`, `C40_paid_later`, `C41_balance`, `C41_int_extra_refuted`, `C41_principal_conserved`, `C43_end_of_month_refuted`, `C43_start_of_month`, `C43_steps`, `C43_unsupported`, `C45_fair`, `C45_implied_rate`, `C45_needs_legs`, `C45_opposite`, `C46_compounding`, `C46_payment`, `C46_too_short`, `C47_order_and_join`, `C52_constant_rate`, `C52_integral`, `C53_zero_speed`, `C59_abstract`, `C59_equal_speeds`, `C60_minimum_variance`, `C60_no_assets`, `C60_start`, `C60_utility_gradient`, `C60_variance_gradient`, `C61_bounds`, `C61_knot`, `C61_present_value`, `C63_future`, `C64_fixed_leg`, `C64_paid_in_arrears`, `C64_set_cashflow`, `C64_term_floating_leg`, `C66_state_setter`, `C70_attainable`, `C70_sharpe`, `C71_bond_knot`, `C71_value`, `C73_bond_local`, `C73_bond_priced`, `C73_zero_local`, `C73_zero_priced`, `C74_common_draws_refuted`, `C74_ends`, `C74_hangs`, `C74_last_interval_refuted`, `C74_monotone`, `C74_paths`, `C74_raises`, `C74_survival`, `C74_trials`, `C86_out_of_order_refuted`, `C92_after`, `C92_before`, `C92_corporate`, `C92_other_date_refuted`, `C92_same_side`, `C97_otherwise`

* **sig_forall_dec, sig_not_dec, functional_extensionality_dep**: `C100_moments`, `C101_moments`, `C104_hedge`, `C104_linear`, `C106_moments`, `C106_refuted`, `C119_common_draws`, `C119_explodes`, `C119_reverts_refuted`, `C119_same_grid`, `C29_discount_factor_space`, `C29_discount_factors`, `C29_other_spaces_raise`, `C29_usual_discount_factors`, `C30_queries_have_no_effect`, `C30_reset_forgets_history`, `C30_returned_curve_is_the_cache`, `C30_snapshot_refuted`, `C31_bump_not_restored_refuted`, `C31_central_difference`, `C31_ladder`, `C48_before_generation`, `C48_evaluation`, `C48_grid`, `C48_path`, `C48_stale_grid_refuted`, `C48_total`, `C49_between`, `C49_linear_refuted`, `C50_euler`, `C50_evaluation`, `C51_constructed`, `C51_float_start`, `C51_linear`, `C51_product`, `C52_accrual_curve`, `C52_accrual_values`, `C52_discount`, `C52_integral_refuted`, `C52_rates`, `C52_set_dt`, `C52_stale_discount`, `C52_stale_refuted`, `C52_unstored`, `C53_coefficients`, `C53_price`, `C54_price_convexities`, `C55_moments`, `C55_path`, `C56_coefficients`, `C56_own_maturity`, `C56_path`, `C56_price`, `C57_riskless`, `C58_forwards`, `C58_price_convexities`, `C58_yields`, `C59_doubly`, `C59_market_price`, `C59_trebly`, `C65_correlation`, `C66_mean`, `C66_paths_unchanged`, `C67_matured`, `C67_moments`, `C68_diagonal`, `C68_orthonormal`, `C69_round_trip`, `C69_stale`, `C70_returns`, `C70_volatilities`, `C71_never_discounts`, `C72_clean_price`, `C72_clean_price_refuted`, `C72_errors`, `C72_fit`, `C72_fit_defined`, `C72_root_reprices`, `C72_unchecked_refuted`, `C72_yields`, `C73_bootstrap`, `C73_defined`, `C73_repriced`, `C73_unsorted_blind`, `C75_calibrated`, `C75_defined`, `C75_factorised`, `C75_import`, `C75_misfit`, `C75_one_factor`, `C75_reproduces`, `C75_side_effect`, `C75_state_lost`, `C98_accepted`, `C98_contract`, `C98_correlation_refuted`, `C98_dimension_refuted`, `C98_made`, `C98_match`, `C98_mismatch`, `C98_rejected`, `C99_elapsed`, `C99_moments`, `C99_noise`

* **sig_forall_dec, sig_not_dec, classic, functional_extensionality_dep**: `C100_converges`, `C101_converges`, `C102_ladder_total`, `C104_diagonal`, `C104_zero_coupon_hedge`, `C105_actual_refuted`, `C105_par`, `C105_value_at_coupon_rate`, `C106_converges`, `C107_balance`, `C107_conserved`, `C107_exact_refuted`, `C107_paid_off`, `C107_split`, `C108_accuracy`, `C108_errors`, `C108_within`, `C108_zero_coupon`, `C109_accuracy`, `C109_errors`, `C109_fixed_leg`, `C109_monotone`, `C109_one_day_refuted`, `C109_opposite`, `C109_overnight_leg`, `C109_sign`, `C109_term_leg`, `C110_defined`, `C110_exact_refuted`, `C110_fair`, `C110_sign`, `C110_us_accruals`, `C110_value`, `C111_balance`, `C111_covers`, `C111_parts`, `C111_payment_refuted`, `C111_same_dates`, `C112_duration`, `C112_price`, `C112_pv_deriv`, `C112_residual`, `C113_coefficients`, `C113_expected_rate`, `C113_forward_volatility`, `C113_price`, `C113_slow_price_refuted`, `C113_slow_variance_refuted`, `C113_variance`, `C114_discount_factors`, `C114_exact`, `C114_ordinary`, `C114_other_spaces`, `C114_own_factors`, `C114_positive_yield_refuted`, `C114_raises`, `C115_central_difference`, `C115_key_rate_risk`, `C115_late_payment`, `C115_present_value`, `C116_macaulay`, `C116_past_payment`, `C117_beyond`, `C117_ladder`, `C118_brownian`, `C118_geometric`, `C118_grid`, `C118_increments`, `C118_left_sum`, `C118_running_sums`, `C118_vasicek`, `C119_forgets`, `C119_noise_free`, `C120_discount`, `C120_discount_range`, `C120_integral`, `C120_monotone`, `C29_factor_bounds`, `C29_pv_decreasing`, `C31_pv01_sign`, `C39_convex`, `C39_decreasing`, `C39_defined`, `C39_undiscounted`, `C39_unique_yield`, `C39_value`, `C39_zero_coupon_refuted`, `C42_level_payment`, `C42_zero_rate_refuted`, `C46_bounds`, `C54_convexity`, `C54_forward`, `C54_own_maturity_refuted`, `C54_volatilities`, `C54_yield`, `C55_bounds`, `C60_maximum_utility`, `C62_duration`, `C62_macaulay`, `C62_macaulay_defined`, `C62_pv_deriv`, `C66_volatility`, `C67_convexity`, `C67_forward`, `C67_forward_refuted`, `C67_yield`, `C68_refuted`, `C71_yield_refuted`, `C73_order_refuted`, `C73_solution_dropped_refuted`, `C75_solution_dropped_refuted`, `C75_state_lost_refuted`, `C82_accuracy`, `C82_errors`, `C82_nearest_refuted`, `C83_comparisons`, `C83_equality_refuted`, `C83_order`, `C83_order_start`, `C84_additive`, `C84_exact_refuted`, `C85_accuracy`, `C85_errors`, `C85_midnight_refuted`, `C85_resolution`, `C87_exact_refuted`, `C87_one`, `C87_sum`, `C88_accuracy`, `C88_between`, `C88_built`, `C88_ends`, `C88_exact_refuted`, `C88_flat`, `C88_knots`, `C88_monotone`, `C88_previous`, `C91_nonneg`, `C91_order`, `C91_order_refuted`, `C91_portfolio`, `C91_present_value`, `C91_raises`, `C94_accuracy`, `C94_additive_refuted`, `C94_exact`, `C94_monotone`, `C95_no_arbitrage`

