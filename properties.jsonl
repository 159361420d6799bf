{"id": "C01", "title": "Actual/N accruals are exact elapsed days", "statement": "compute_accrual_length under ACTUAL_OVER_360, _365 and _365_POINT_25 on two plain dates with start<=end returns the elapsed calendar days divided by 360, 365 or 365.25; so it is 0 exactly when the dates coincide, strictly increasing in the end date, and additive over a split of the interval.", "quantifier": "all ordered pairs and triples of calendar dates, three conventions", "why_tests_cant": "The proleptic calendar has 3.65 million dates, hence over 10^13 ordered pairs and more triples; a test only samples them.", "anchors": ["fixedIncome/src/scheduling_tools/day_count_calculator.py:compute_accrual_length", "fixedIncome/src/scheduling_tools/day_count_calculator.py:_dcc_act_over_360", "fixedIncome/src/scheduling_tools/day_count_calculator.py:_dcc_act_over_365", "fixedIncome/src/scheduling_tools/day_count_calculator.py:_dcc_act_over_365_point_25"]}
{"id": "C02", "title": "Actual/Actual is additive and whole years count one", "statement": "Under ACTUAL_OVER_ACTUAL the accrual over a period equals the sum of the accruals of any split of it, it is strictly increasing in the end date, 0 only for equal dates, and is exactly n between the same calendar day of two years n apart and of equal length, and between any two 31 Decembers (but not between 1 Januaries of years of different length; dates of year 1, whose previous year has no date, are rejected).", "quantifier": "all ordered pairs and triples of dates", "why_tests_cant": "The proleptic calendar has 3.65 million dates, hence over 10^13 ordered pairs and more triples; a test only samples them. Leap and non-leap years interact at every split point.", "anchors": ["fixedIncome/src/scheduling_tools/day_count_calculator.py:_dcc_act_over_act"]}
{"id": "C03", "title": "30/360 accruals: exact value, month counting and sign", "statement": "Under THIRTY_OVER_THREESIXTY the accrual is (360 dy + 30 dm + dd)/360 after the documented day substitutions, so k whole months between the same day of month (1..27) count k/12; an ordered pair never gets a negative accrual except from 28 February to 29 February of one leap year, where it is -1/360. Accruals through an intermediate date add up exactly when the documented substitutions agree (necessary and sufficient condition on the three dates).", "quantifier": "all ordered pairs of dates", "why_tests_cant": "The proleptic calendar has 3.65 million dates, hence over 10^13 ordered pairs and more triples; a test only samples them. The only negative pair is one in millions.", "anchors": ["fixedIncome/src/scheduling_tools/day_count_calculator.py:_dcc_30_over_360"]}
{"id": "C04", "title": "Inverted periods are rejected", "statement": "compute_accrual_length raises ValueError for start later than end, under every convention and every mix of date and datetime, and never for start<=end on account of ordering.", "quantifier": "all pairs of dates/datetimes and all conventions", "why_tests_cant": "The proleptic calendar has 3.65 million dates, hence over 10^13 ordered pairs and more triples; a test only samples them.", "anchors": ["fixedIncome/src/scheduling_tools/day_count_calculator.py:compute_accrual_length", "fixedIncome/src/scheduling_tools/day_count_calculator.py:check_dates"]}
{"id": "C05", "title": "Timestamps accrue exact seconds under Actual/N", "statement": "With datetimes (or a date mixed with a datetime, the date meaning its midnight) the ACTUAL_OVER_N accrual is exactly elapsed seconds / (86400 N), including inside a single day; it therefore is additive and agrees with the date-only result at midnight.", "quantifier": "all ordered pairs of timestamps", "why_tests_cant": "The code interpolates between an inner and an outer period; that this is exact must hold for each timestamp pair.", "anchors": ["fixedIncome/src/scheduling_tools/day_count_calculator.py:include_datetimes"]}
{"id": "C06", "title": "Timestamps under Actual/Actual", "statement": "With datetimes the ACTUAL_OVER_ACTUAL accrual agrees at midnight with the date-only accrual and is additive whenever the years of the two ends have the same length; across years of different length it is not (counter-example), the error staying below one day.", "quantifier": "all ordered pairs of timestamps", "why_tests_cant": "Only pairs straddling leap and ordinary years disagree.", "anchors": ["fixedIncome/src/scheduling_tools/day_count_calculator.py:include_datetimes", "fixedIncome/src/scheduling_tools/day_count_calculator.py:_dcc_act_over_act"]}
{"id": "C07", "title": "Next weekday", "statement": "get_next_weekday(d, w) is the earliest date on or after d falling on weekday w, hence within six days, and is d itself iff d is on w; it fails only by running past 9999-12-31.", "quantifier": "all dates, all weekdays", "why_tests_cant": "every date/weekday pair", "anchors": ["fixedIncome/src/scheduling_tools/holidays.py:get_next_weekday"]}
{"id": "C08", "title": "Federal holiday observance", "statement": "The federal adjustment leaves weekday holidays alone, moves Saturday to the Friday before and Sunday to the Monday after; the result is never on a weekend and is at most one day away.", "quantifier": "all dates", "why_tests_cant": "every calendar date", "anchors": ["fixedIncome/src/scheduling_tools/holidays.py:us_federal_holiday_adjustment"]}
{"id": "C09", "title": "Floating US holidays are the documented n-th weekdays", "statement": "For each year, the generated Presidents, Labor, Columbus and Thanksgiving dates are the third Monday of February, first Monday of September, second Monday of October and fourth Thursday of November.", "quantifier": "all years 1..9999", "why_tests_cant": "All years, not the handful of a test table; weekdays cycle with period 400 years.", "anchors": ["fixedIncome/src/scheduling_tools/holidays.py:US_FEDERAL_HOLIDAYS", "fixedIncome/src/scheduling_tools/holidays.py:generate_holiday_dates"]}
{"id": "C10", "title": "Holiday generation is complete and exact", "statement": "generate_all_holidays(from, to, calendar) contains a date iff it is the adjusted date of some calendar entry in some year from..to; unknown names raise KeyError.", "quantifier": "all year ranges and all holiday calendars", "why_tests_cant": "Arbitrary calendars and ranges", "anchors": ["fixedIncome/src/scheduling_tools/holidays.py:generate_all_holidays", "fixedIncome/src/scheduling_tools/holidays.py:generate_holiday_dates"]}
{"id": "C11", "title": "T+0 is the first business day on or after", "statement": "For any holiday calendar, add_business_days(d,0) (= following adjustment) returns the earliest business day >= d, returns d itself iff d is a business day, is monotone in d and idempotent; it terminates on every input (by a date or an overflow error).", "quantifier": "all dates, all holiday calendars", "why_tests_cant": "The loop length depends on the calendar and is unbounded a priori.", "anchors": ["fixedIncome/src/scheduling_tools/scheduler.py:add_business_days", "fixedIncome/src/scheduling_tools/scheduler.py:following_date_adjustment"]}
{"id": "C12", "title": "T+n counts n business days", "statement": "For n>=0 add_business_days(d,n) is a business day with exactly n business days in (T+0, result]; and T+(m+n) from d equals T+n from T+m.", "quantifier": "all dates, n, m, calendars", "why_tests_cant": "Unbounded n and arbitrary calendars", "anchors": ["fixedIncome/src/scheduling_tools/scheduler.py:add_business_days", "fixedIncome/src/scheduling_tools/scheduler.py:add_single_business_day"]}
{"id": "C13", "title": "Negative business-day offsets", "statement": "add_business_days(d,-n) is the n-th business day before T+0; on a business day adding n then subtracting n returns to it and conversely; subtract_single_business_day from a non-business day gives the last business day before it; add_single_business_day rejects non-business days.", "quantifier": "all dates, n, calendars", "why_tests_cant": "Unbounded n and arbitrary calendars", "anchors": ["fixedIncome/src/scheduling_tools/scheduler.py:add_business_days", "fixedIncome/src/scheduling_tools/scheduler.py:subtract_single_business_day", "fixedIncome/src/scheduling_tools/scheduler.py:add_single_business_day"]}
{"id": "C14", "title": "Modified following", "statement": "modified_following_date_adjustment returns a business day; if the following business day is in the same month it is that, otherwise the last business day before the date; with the US calendar the result is in the month of the input for each date, and the adjustment is idempotent and monotone.", "quantifier": "all dates of years 1..9998, US calendar (general part: all calendars)", "why_tests_cant": "Month ends of every year", "anchors": ["fixedIncome/src/scheduling_tools/scheduler.py:modified_following_date_adjustment"]}
{"id": "C15", "title": "Business day enumeration is exact", "statement": "generate_business_days(a,b) lists in strictly increasing order exactly the business days d with a<=d<=b.", "quantifier": "all date pairs, all calendars", "why_tests_cant": "Arbitrary intervals and calendars", "anchors": ["fixedIncome/src/scheduling_tools/scheduler.py:generate_business_days"]}
{"id": "C16", "title": "Date grids by a fixed timedelta", "statement": "generate_dates_by_increments with a timedelta lists start, start+D, start+2D, ... while within the end (in the direction of D) - maximal, in order, and truncated after max_dates+1 entries.", "quantifier": "all starts, ends, increments and caps", "why_tests_cant": "Arbitrary increments and caps", "anchors": ["fixedIncome/src/scheduling_tools/scheduler.py:generate_dates_by_increments"]}
{"id": "C17", "title": "Date grids by months and end-of-month drift", "statement": "With a relativedelta of k months the i-th date is start plus i*k months with same day of month when the start day is <=28; for later days each step clamps to the month length and the lost days are never recovered, so the i-th date may differ from start + i*k months.", "quantifier": "all starts, ends, month steps", "why_tests_cant": "Interaction of month lengths with iteration", "anchors": ["fixedIncome/src/scheduling_tools/scheduler.py:generate_dates_by_increments", "fixedIncome/src/scheduling_tools/scheduler.py:_is_relative_delta_positive"]}
{"id": "C18", "title": "Settlement conventions", "statement": "calculate_settlement_date returns, for T-2..T+3 business conventions, a business day, monotone in the purchase date, with T-0 the last business day on or before, T+k the k-th business day after T+0; each T+k calendar convention is rejected with ValueError.", "quantifier": "all dates, calendars and conventions", "why_tests_cant": "Arbitrary calendars", "anchors": ["fixedIncome/src/scheduling_tools/scheduler.py:calculate_settlement_date"]}
{"id": "C19", "title": "Business days of the US calendar", "statement": "A date is a US business day iff it is Monday-Friday and not the observed date of a US federal holiday of its own calendar year; in particular 31 December before a Saturday 1 January - the observed New Year holiday - is still a business day.", "quantifier": "all dates", "why_tests_cant": "All years", "anchors": ["fixedIncome/src/scheduling_tools/scheduler.py:is_business_day", "fixedIncome/src/scheduling_tools/holidays.py:US_FEDERAL_HOLIDAYS"]}
{"id": "C20", "title": "Shape of a key rate bump", "statement": "A key rate with both neighbours returns its bump at its date, 0 on or before the prior and on or after the next date, and the day-count-linear ramp in between (so within [0,bump]); first and last key rates stay flat outside; a key rate with no neighbour raises TypeError after its date.", "quantifier": "all dates, neighbour positions, bump sizes, conventions", "why_tests_cant": "Any triple of dates and any query date", "anchors": ["fixedIncome/src/risk/key_rate.py:KeyRate.create_adjustment_function", "fixedIncome/src/risk/key_rate.py:KeyRate.__call__"]}
{"id": "C21", "title": "Key rate bumps add up to a parallel shift", "statement": "For a collection of two or more key rates sharing a bump size and an actual/* convention the collection's adjustment at every date is exactly the bump; for 30/360 this fails.", "quantifier": "all collections (any size), all query dates, all bumps", "why_tests_cant": "A partition of unity for any number of knots and each date", "anchors": ["fixedIncome/src/risk/key_rate.py:KeyRateCollection.__call__", "fixedIncome/src/risk/key_rate.py:KeyRateCollection._set_dates_in_collection"]}
{"id": "C22", "title": "Collections are sorted and linked", "statement": "A KeyRateCollection built from any iterable of key rates with distinct dates is sorted by date, independent of input order, each member's prior/next date being its neighbours' dates and None at the ends; no key rate or equal dates raise ValueError.", "quantifier": "all lists of key rates", "why_tests_cant": "All permutations and sizes", "anchors": ["fixedIncome/src/risk/key_rate.py:KeyRateCollection.__init__", "fixedIncome/src/risk/key_rate.py:KeyRateCollection._set_dates_in_collection"]}
{"id": "C23", "title": "Key rate neighbour guards", "statement": "Whatever sequence of set_prior_date / set_next_date / set_bump_val calls is made on a key rate (some raising), prior < key date < next holds always and its adjustment function is the one for its current dates and bump.", "quantifier": "all call histories", "why_tests_cant": "Unbounded histories including failed calls", "anchors": ["fixedIncome/src/risk/key_rate.py:KeyRate.set_prior_date", "fixedIncome/src/risk/key_rate.py:KeyRate.set_next_date"]}
{"id": "C24", "title": "Editing key rate collections", "statement": "Union of collections keeps one key rate per date, sorted, and re-links; item assignment at first or last index, insert and adding a bare key rate raise TypeError; deletion re-links.", "quantifier": "all collections and indexes", "why_tests_cant": "All sizes, indexes and histories", "anchors": ["fixedIncome/src/risk/key_rate.py:KeyRateCollection.__add__", "fixedIncome/src/risk/key_rate.py:KeyRateCollection.__setitem__", "fixedIncome/src/risk/key_rate.py:KeyRateCollection.__delitem__"]}
{"id": "C25", "title": "Collections share their key rates", "statement": "Building a second collection from some of the key rates of a first (slicing, +) re-links the shared key rates, so the first collection no longer is a parallel shift afterwards, unless it is re-linked.", "quantifier": "all collections, all subsets", "why_tests_cant": "aliasing across object histories", "anchors": ["fixedIncome/src/risk/key_rate.py:KeyRateCollection.__getitem__", "fixedIncome/src/risk/key_rate.py:KeyRateCollection._set_dates_in_collection"]}
{"id": "C26", "title": "Interpolated curves reprice their knots", "statement": "A linear Curve evaluated at each of its knot dates returns that knot's value, for any knots (any order in input) whose dates map to distinct accruals, and between two adjacent knots lies between their values.", "quantifier": "all knot sets, all dates", "why_tests_cant": "All knot sets and sizes", "anchors": ["fixedIncome/src/curves/base_curve.py:Curve.__init__", "fixedIncome/src/curves/base_curve.py:Curve.interpolate"]}
{"id": "C27", "title": "Curve domain and end behaviour", "statement": "Evaluating a curve before its first knot or after its last: an ERROR end raises ValueError, a CONSTANT end returns the end value (plus the adjustment on the left; on the right a passed adjustment raises TypeError). On the left this holds even before the reference date. A knot dated before the reference date is rejected at construction.", "quantifier": "all curves and dates", "why_tests_cant": "All curves, dates, end behaviours", "anchors": ["fixedIncome/src/curves/base_curve.py:Curve.interpolate", "fixedIncome/src/curves/base_curve.py:Curve.date_to_interpolation_axis"]}
{"id": "C28", "title": "Step interpolation", "statement": "A PREVIOUS curve returns the value of the last knot on or before the date.", "quantifier": "all curves and dates", "why_tests_cant": "All curves and dates", "anchors": ["fixedIncome/src/curves/base_curve.py:Curve._create_interpolation_object"]}
{"id": "C29", "title": "Yield to discount conversion", "statement": "For a curve of continuously compounded yields the discount curve built has one knot per day from the reference date to the last knot, each exactly exp(-(y(d)+adj(d)) tau(d)); hence 1 at the reference date, positive, at most 1 for non-negative yields, and present values of positive cashflows decrease under upward bumps. A discount-factor curve keeps its own knots; any other space raises TypeError.", "quantifier": "all curves, adjustments, dates", "why_tests_cant": "All curves and days", "anchors": ["fixedIncome/src/curves/yield_curves/yield_curve.py:YieldCurve.to_discount_curve"]}
{"id": "C30", "title": "Present values do not depend on history", "statement": "Present values returned by a yield curve depend only on the instrument and adjustment passed, not on earlier calls, although a cached discount curve object is overwritten by each call (an earlier returned discount curve changes).", "quantifier": "all sequences of present value / to_discount_curve calls", "why_tests_cant": "All call histories", "anchors": ["fixedIncome/src/curves/yield_curves/yield_curve.py:YieldCurve.present_value", "fixedIncome/src/curves/yield_curves/yield_curve.py:YieldCurve.to_discount_curve"]}
{"id": "C31", "title": "PV01 by central difference", "statement": "calculate_key_rate_deriv returns (PV(+half bp) - PV(-half bp))/bp for that key rate, pv01 is that times a basis point, and the ladder has one entry per key rate in date order; but the key rate is left with a half-bp bump instead of the one it had.", "quantifier": "all curves, assets, key rates", "why_tests_cant": "Side effects on shared objects in all histories", "anchors": ["fixedIncome/src/curves/yield_curves/yield_curve.py:YieldCurve.calculate_key_rate_deriv", "fixedIncome/src/curves/yield_curves/yield_curve.py:YieldCurve.calculate_pv01_risk_ladder"]}
{"id": "C32", "title": "Risk ladder container", "statement": "A RiskLadder preserves the risks and order it was given: length, dates and PV01s; membership tests are always false.", "quantifier": "all ladders", "why_tests_cant": "All sizes", "anchors": ["fixedIncome/src/risk/risk_metrics.py:RiskLadder"]}
{"id": "C33", "title": "Cashflows stay sorted", "statement": "Under any history of construction and add_payment, a cashflow lists exactly the payments given, sorted by payment date, equal dates in insertion order. It has as many as were given; indexing returns them by position in date order (negative positions from the end, others IndexError); slices keep the order; a cashflow rebuilt from its dates and amounts is the same.", "quantifier": "all histories", "why_tests_cant": "Unbounded histories", "anchors": ["fixedIncome/src/assets/base_cashflow.py:Cashflow.__init__", "fixedIncome/src/assets/base_cashflow.py:Cashflow.add_payment", "fixedIncome/src/assets/base_cashflow.py:Cashflow.__getitem__, __len__, get_payment_amounts, get_payment_dates, create_from_date_and_float_iterables"]}
{"id": "C34", "title": "Cashflow present value", "statement": "A cashflow's present value is the sum of amount x discount factor over the payments dated on or after the curve's reference date with an amount; independent of payment order, additive under merging cashflows, linear in amounts.", "quantifier": "all cashflows and discount curves", "why_tests_cant": "All sizes and orders", "anchors": ["fixedIncome/src/assets/base_cashflow.py:Cashflow.present_value"]}
{"id": "C35", "title": "Cashflow collections behave as a keyed map", "statement": "A CashflowCollection maps each key to the last cashflow given for it, lookup of any other key raises KeyError, assignment replaces exactly one entry and leaves the others; the separately stored list of cashflows is however only extended, never replaced.", "quantifier": "all collections and histories", "why_tests_cant": "All histories", "anchors": ["fixedIncome/src/assets/base_cashflow.py:CashflowCollection"]}
{"id": "C36", "title": "Treasury coupon schedule", "statement": "For every bond with tenor and payment frequency, coupon dates are maturity minus 0,1,2,... periods strictly after the dated date, in increasing order, the last being the maturity date; whole-year tenor of n years with f payments a year yields n*f coupons; zero-coupon yields none.", "quantifier": "all bonds", "why_tests_cant": "All tenors, maturities, frequencies, calendars", "anchors": ["fixedIncome/src/assets/us_treasury_instruments/us_treasury_instruments.py:UsTreasuryBond.create_coupon_payments_cashflow", "fixedIncome/src/assets/us_treasury_instruments/us_treasury_instruments.py:UsTreasuryBond.calculate_dated_date"]}
{"id": "C37", "title": "Coupon and principal amounts and dates", "statement": "Each coupon is principal*rate/100/frequency, each payment date is the business-day adjustment of its unadjusted date, the principal is repaid once on the adjusted maturity.", "quantifier": "all bonds", "why_tests_cant": "All bonds", "anchors": ["fixedIncome/src/assets/us_treasury_instruments/us_treasury_instruments.py:UsTreasuryBond.calculate_coupon_payment", "fixedIncome/src/assets/us_treasury_instruments/us_treasury_instruments.py:UsTreasuryBond.create_principal_repayment_cashflow"]}
{"id": "C38", "title": "Accrued interest", "statement": "Accrued interest is the coupon times elapsed over total accrual of the coupon period containing the settlement date, thus between 0 and one coupon, and 0 at the start of a period; it deviates when purchase and settlement straddle a coupon date.", "quantifier": "all bonds, purchase dates", "why_tests_cant": "Bisecting dates around each coupon date", "anchors": ["fixedIncome/src/assets/us_treasury_instruments/us_treasury_instruments.py:UsTreasuryBond.calculate_accrued_interest"]}
{"id": "C39", "title": "Discounting at a fixed rate and yield to maturity", "statement": "The fixed-rate price of a bond's remaining payments is their sum at rate 0, strictly decreasing and convex in the rate; hence at most one yield reproduces a price.", "quantifier": "all bonds, all rates", "why_tests_cant": "Real-valued rates", "anchors": ["fixedIncome/src/assets/us_treasury_instruments/us_treasury_instruments.py:UsTreasuryBond.discount_cashflows_by_fixed_rate", "fixedIncome/src/assets/us_treasury_instruments/us_treasury_instruments.py:UsTreasuryBond.yield_to_maturity"]}
{"id": "C40", "title": "Received payments", "statement": "A payment counts as received iff its date is on or after the T+1 settlement of purchase; each payment is counted or not monotonically in the purchase date.", "quantifier": "all bonds, dates", "why_tests_cant": "All calendars", "anchors": ["fixedIncome/src/assets/us_treasury_instruments/us_treasury_instruments.py:UsTreasuryBond.is_payment_received"]}
{"id": "C41", "title": "Loan balances", "statement": "In every generated loan schedule the interest of each payment is the accrual since the previous payment times the rate times what is still outstanding (original principal minus principal already repaid), and no payment repays more than is outstanding, so the balance is never driven below 0. With non-negative principal, rate, payment and extra payments: an instalment is the agreed payment with payment+extra-interest going to principal, except that the last one is exactly balance plus interest; the balance only grows when payment plus extra is below the interest; and once 0 it stays 0. (An int extra payment and present_value raise TypeError.)", "quantifier": "all loans, payment amounts and extra payments", "why_tests_cant": "Invariant of a loop over arbitrarily many payments, for all amounts", "anchors": ["fixedIncome/src/assets/credit/loan.py:Loan.generate_payment_schedule"]}
{"id": "C42", "title": "The level payment amortises the loan", "statement": "For a START_OF_MONTH 30/360 loan whose term is a whole number N of payment periods and whose rate is positive, paying the computed fixed amount gives exactly N equal payments, outstanding balances P(q^N-q^k)/(q^N-1) with q = 1 + rate/frequency, 0 after the last payment and not before. At rate 0 the computation raises ZeroDivisionError.", "quantifier": "all principals, positive rates, terms", "why_tests_cant": "All principals, rates and numbers of periods", "anchors": ["fixedIncome/src/assets/credit/loan.py:Loan.calculate_fixed_payment_amount", "fixedIncome/src/assets/credit/loan.py:Loan._calculate_interest_payment"]}
{"id": "C43", "title": "Loan payment dates", "statement": "With START_OF_MONTH the payments are exactly the firsts of every m-th month (m from the frequency) after the first month start following origination, up to that start plus the term. Always, payments are m months apart and the day of month never grows. END_OF_MONTH does not give month ends: it starts on the 30th of the origination month, raises ValueError in February, never pays on a 31st and drifts to the 28th or 29th once it passes February. FIXED_DATE and ZERO_COUPON raise ValueError.", "quantifier": "all loans", "why_tests_cant": "All dates", "anchors": ["fixedIncome/src/assets/credit/loan.py:Loan.generate_payment_schedule"]}
{"id": "C44", "title": "Swap accrual periods tile the swap", "statement": "A leg's accrual periods are contiguous (each starts where the previous ends), start and end on business days, carry the day-count fraction of their own dates, and the last ends at the adjusted maturity. For a start day up to 28 the periods are whole steps of the leg's frequency counted back from maturity, min(1000, tenor/step) of them, so they tile the swap from its start when the step divides the tenor; otherwise the stub at the front is not accrued, and a month-end start can lose its first period. On the US calendar every period is longer than 21 days. Monthly and zero-coupon legs raise ValueError. The swap's knot is its rate at the unadjusted maturity, start plus tenor. Each leg accrues with its own frequency and day count.", "quantifier": "all swaps, calendars, adjustments, day counts, frequencies and tenors", "why_tests_cant": "All dates and frequencies", "anchors": ["fixedIncome/src/assets/rates/linear_rates/interest_rate_swap.py: generate_floating_leg_accrual_schedule, generate_fixed_leg_accrual_schedule, _calculate_start_end_accrual_dates", "fixedIncome/src/assets/rates/linear_rates/interest_rate_swap.py: to_knot_value_pair"]}
{"id": "C45", "title": "Payer and receiver swaps are opposite; the implied rate is fair", "statement": "A swap's present value is the opposite of the value with the other direction (and they fail alike); it raises ValueError until both legs have been generated and stored. If implied_rate returns r, then the same swap at fixed rate x has value +-(x(A-B) - rA), A being the discounted annuity over all fixed payments and B its part dated before the curve's reference date; so when no fixed payment predates the reference date the swap is worth 0 exactly at x = r.", "quantifier": "all swaps, curves, rate functions, directions and fixed rates", "why_tests_cant": "All legs and curves", "anchors": ["fixedIncome/src/assets/rates/linear_rates/interest_rate_swap.py: present_value, implied_rate"]}
{"id": "C46", "title": "OIS compounding", "statement": "The annualised overnight rate v over a period satisfies 1 + v T = prod(1 + r_i a_i) over the period's consecutive business days, T being the Act/360 time from the first to the last of them; if all fixings lie in [lo, hi] with lo >= 0 then lo <= v and 1 + v T <= exp(hi T). When the leg is Act/360 between business days the payment is notional (prod - 1). Fewer than two business days raise ZeroDivisionError.", "quantifier": "all periods, calendars and fixing functions", "why_tests_cant": "All lengths", "anchors": ["fixedIncome/src/assets/rates/linear_rates/interest_rate_swap.py: OvernightIndexSwap.calculate_annualized_rate, OvernightIndexSwap.generate_floating_leg_cashflow"]}
{"id": "C47", "title": "Portfolio present value is linear", "statement": "A portfolio's PV is cash plus the sum of quantity x unit PV; additive under concatenation, independent of order.", "quantifier": "all portfolios", "why_tests_cant": "All sizes", "anchors": ["fixedIncome/src/portfolio/base_portfolio.py"]}
{"id": "C48", "title": "Brownian path grid and evaluation", "statement": "For a forward step, a generated Brownian path's time grid starts at the start time, strictly increases by the step, and ends at the end time (appended when the last whole step stops short; the number of whole steps is capped at one million); the path starts at 0 and step k adds L z_k sqrt(dt_k), dt_k being the day-count length of the k-th grid interval. Evaluating at a grid time returns exactly that column, outside the span raises ValueError, and so does any evaluation before a path is stored. Generating without storing (set_path=False) nevertheless replaces the grid, so the stored path is then read at the wrong times.", "quantifier": "all start/end times, steps, dimensions, factors, draws, query times and sequences of generations", "why_tests_cant": "All grids and times", "anchors": ["fixedIncome/src/stochastics/brownian_motion.py: BrownianMotion.generate_increments, generate_path, __call__, datetime_to_path_call"]}
{"id": "C49", "title": "Path evaluation between grid times", "statement": "Strictly between two neighbouring grid times the value is prev*(1-f) + next*f with f = (time left to the later grid time)/(length of the interval): each coordinate lies between the two neighbouring grid values, but the weights are those of the opposite ends, so it is not the linear interpolation except at midpoints (e.g. six hours into a day it is three quarters of the way).", "quantifier": "all paths, grids, query times and day counts other than 30/360", "why_tests_cant": "All times", "anchors": ["fixedIncome/src/stochastics/brownian_motion.py: datetime_to_path_call"]}
{"id": "C50", "title": "Euler scheme of diffusions", "statement": "A generated diffusion path starts at the starting value and each step adds drift(t,x) dt + diffusion(t,x).shock at the current time and state, for every coordinate; the caller's starting array (and every other existing array) is not modified; evaluation reads the stored path at grid times; changing dt discards the path.", "quantifier": "all drift/diffusion collections, starting arrays, shocks, grids and lengths", "why_tests_cant": "All path lengths", "anchors": ["fixedIncome/src/stochastics/base_processes.py: DiffusionProcess.generate_path, __call__, set_dt"]}
{"id": "C51", "title": "Geometric Brownian motion", "statement": "A geometric Brownian path satisfies X_k = X_0 * prod(1 + mu dt_j + sigma shock_j) in each coordinate: it stays 0 from 0, scales linearly in X_0 and keeps its sign while all factors are positive. A float starting value, which the signature allows, always raises.", "quantifier": "all parameters, starting values, shocks and grids", "why_tests_cant": "All path lengths", "anchors": ["fixedIncome/src/stochastics/geometric_brownian_motion.py: GeometricBrownianMotion.generate_path"]}
{"id": "C52", "title": "Short-rate paths, their integral and discount curve", "statement": "After generate_path the model returns at every grid time the transformation of the generated state (ValueError outside the span), and the caller's arrays are untouched; generating without storing raises AttributeError if there is no state path yet. generate_integrated_path starts at 0 and at each datetime adds the mean of the two neighbouring rates times the WHOLE accrual since the start (not the accrual of the step), so a constant rate r > 0 is integrated exactly over the first step and strictly over-integrated from the second on. create_discount_curve returns exp(-integral) at each datetime and 1 at the first; once an integral is cached, regenerating paths any number of times leaves the next discount curve equal to the old one although the rates changed. accrual_curve raises TypeError unless the integral is cached; after set_dt the derived quantities raise ValueError while calls still answer from the old path. Once the integral is there, the accrual curve is exp of the integral at the datetimes and 1 at the start.", "quantifier": "all models, transformations, paths, datetime lists and histories of generations", "why_tests_cant": "All paths and all call histories", "anchors": ["fixedIncome/src/stochastics/short_rate_models/base_short_rate_model.py: ShortRateModel.generate_path, generate_integrated_path, create_discount_curve, accrual_curve, __call__"]}
{"id": "C53", "title": "Vasicek bond price solves the pricing equation", "statement": "For every level, speed k and volatility the constructor either raises ZeroDivisionError (k = 0) or gives a model whose zero-coupon bond price, as a function F of the accrual from the MODEL START to the maturity and of the short rate at the purchase date, is 1 at accrual 0 and solves dF/dtau = sigma^2/2 F_rr + k(theta - r) F_r - r F; its coefficients start at 0 and solve B' = -kB - 1, A' = k theta B + sigma^2 B^2/2, and the maturity derivatives the model reports are their derivatives.", "quantifier": "all parameters, maturities, purchase dates and paths", "why_tests_cant": "Real-analytic identity", "anchors": ["fixedIncome/src/stochastics/short_rate_models/affine_yield_curve_models/vasicek_model.py:VasicekModel._create_bond_price_coeffs", "fixedIncome/src/stochastics/short_rate_models/affine_yield_curve_models/vasicek_model.py:VasicekModel._calculate_bond_price_coeff_derivatives_wrt_maturity"]}
{"id": "C54", "title": "Vasicek yields, forwards and convexity", "statement": "yield * tau = -log price (ZeroDivisionError when tau = 0); the instantaneous forward is -d/dT log price; yield minus the average expected short rate is the reported yield convexity, which is <= 0 and 0 exactly when sigma = 0; reported yield and forward volatilities are sigma times the derivative in the rate and the reported price convexity is -sigma^2/2 times the second derivative. A bond bought on its own maturity date after the start is not priced at 1 (refuted): the purchase date only selects the rate. price_convexities of several maturities is the list of their convexities, and ValueError if there are none or one is not after the purchase.", "quantifier": "all parameters and maturities", "why_tests_cant": "Real-analytic identities", "anchors": ["fixedIncome/src/stochastics/short_rate_models/affine_yield_curve_models/vasicek_model.py:VasicekModel.zero_coupon_yield", "fixedIncome/src/stochastics/short_rate_models/affine_yield_curve_models/vasicek_model.py:VasicekModel.instantaneous_forward_rate", "fixedIncome/src/stochastics/short_rate_models/affine_yield_curve_models/vasicek_model.py:VasicekModel.yield_convexity", "fixedIncome/src/stochastics/short_rate_models/affine_yield_curve_models/vasicek_model.py:VasicekModel.price_convexities"]}
{"id": "C55", "title": "Vasicek short rate moments", "statement": "The expected short rate solves m' = k(theta - m), m(0) = r; the variance solves v' = sigma^2 - 2kv, v(0) = 0; the average expected rate is the time average of m (ZeroDivisionError at accrual 0); for k > 0 the expectation lies between r and theta, approaches theta at rate e^{-k a}, and the variance lies in [0, sigma^2/(2k)]. The generated path starts at the given rate and each step adds k(theta - r) dt + sigma dW.", "quantifier": "all parameters, times, draws, schedules", "why_tests_cant": "Real-analytic identities", "anchors": ["fixedIncome/src/stochastics/short_rate_models/affine_yield_curve_models/vasicek_model.py:VasicekModel.expected_short_rate", "fixedIncome/src/stochastics/short_rate_models/affine_yield_curve_models/vasicek_model.py:VasicekModel.short_rate_variance", "fixedIncome/src/stochastics/short_rate_models/affine_yield_curve_models/vasicek_model.py:VasicekModel.average_expected_short_rate"]}
{"id": "C56", "title": "Multivariate Vasicek bond prices", "statement": "Whenever the constructor succeeds and no eigenvalue (or sum of two) of the reversion matrix K vanishes, the zero-coupon bond price is F(accrual from purchase to maturity, state at purchase) where F is 1 at accrual 0 and solves dF/dtau = 1/2 sum (SS^T)_ij F_ij + (K(theta - x)).grad F - (mu + g.x)F; the gradient reported is grad F; intercept and coefficients start at 0 and solve B' = -K^T B - g, A' = -mu + B.K theta + 1/2 B.SS^T B; a bond bought on its maturity date costs 1; the generated states follow dX = K(theta - X)dt + S dW step by step and the short rate is mu + g.X. The constructor refuses exactly the models whose sizes differ from their Brownian motion's.", "quantifier": "all dimensions, parameters, maturities, purchase dates, draws and histories of path generation", "why_tests_cant": "Matrix-analytic identity in any dimension", "anchors": ["fixedIncome/src/stochastics/short_rate_models/affine_yield_curve_models/vasicek_model.py:MultivariateVasicekModel"]}
{"id": "C57", "title": "Riskless portfolio weights", "statement": "For n factors and n+1 maturities (any other number raises AssertionError) the weights returned sum to 1, the partial derivative of the weighted portfolio of bond prices in every state variable is 0 at the current state, and the reported convexity is 1/2 sum_k w_k sum (SS^T)_ij d2P_k/dx_i dx_j.", "quantifier": "all dimensions and maturities", "why_tests_cant": "All parameters", "anchors": ["fixedIncome/src/stochastics/short_rate_models/affine_yield_curve_models/vasicek_model.py:MultivariateVasicekModel.weights_for_riskless_portfolio"]}
{"id": "C58", "title": "Yield covariance matrices", "statement": "The yield covariance matrix is symmetric positive semidefinite, its entries are D_i SS^T D_j with D_i the gradient of the i-th reported yield in the state, and its diagonal is the squared reported yield volatility; likewise for instantaneous forwards as reported; price convexities are -1/2 sum (SS^T)_ij d2P/dx_i dx_j. Maturities not after the purchase date raise ValueError for forwards and price convexities.", "quantifier": "all dimensions, maturities", "why_tests_cant": "All dimensions", "anchors": ["fixedIncome/src/stochastics/short_rate_models/affine_yield_curve_models/vasicek_model.py:MultivariateVasicekModel.yield_covariance_matrix"]}
{"id": "C59", "title": "Named multi-factor models have the documented drift", "statement": "A path of the doubly mean reverting model steps by the documented drift (long_speed (mean - l), speed (l - r)) and a noise A.draw whose A A^T is the documented covariance, and the short rate is the second state; equal speeds admit no model. The trebly mean reverting and stochastic market price of risk classes cannot be instantiated (TypeError, abstract calibration methods missing), a subclass of them exactly if it defines all four missing methods, and its paths then follow the documented drift and covariance.", "quantifier": "all parameters, draws, schedules", "why_tests_cant": "All parameters", "anchors": ["fixedIncome/src/stochastics/short_rate_models/affine_yield_curve_models/doubly_mean_reverting_vasicek.py", "fixedIncome/src/stochastics/short_rate_models/affine_yield_curve_models/trebly_mean_reverting_vasicek.py", "fixedIncome/src/stochastics/short_rate_models/affine_yield_curve_models/stochastic_market_price_of_risk.py"]}
{"id": "C60", "title": "Portfolio optimisation problems are the documented ones", "statement": "The gradients handed to the optimiser are the gradients of the objectives handed to it at every weight vector exactly when the covariance matrix is symmetric; and whenever the optimiser delivers a Karush-Kuhn-Tucker point of the problem built, the weights returned form a portfolio (weights sum to 1, non-negative unless short positions are allowed) with the target return and the least variance among all such portfolios, resp. with the greatest expected exponential utility among all portfolios.", "quantifier": "all numbers of assets, means, symmetric positive semidefinite covariances, targets, risk aversions", "why_tests_cant": "Optimality over all portfolios in any dimension", "anchors": ["fixedIncome/src/portfolio/portfolio_optimization.py: PortfolioOptimizer.find_minimum_variance_portfolio, find_maximum_utility_portfolio"]}
{"id": "C61", "title": "Bond price against a discount curve", "statement": "A bond's present value on a curve is the sum of discount factor times amount over exactly the coupons and principal due on or after one business day after the curve's reference date; positive and at most the undiscounted sum when factors are in (0,1]; the knot a bond contributes to curve fitting is its last payment date with its clean price.", "quantifier": "all bonds and curves", "why_tests_cant": "All bonds, curves, dates", "anchors": ["fixedIncome/src/assets/us_treasury_instruments/us_treasury_instruments.py:UsTreasuryBond.present_value", "fixedIncome/src/assets/us_treasury_instruments/us_treasury_instruments.py:UsTreasuryBond.to_knot_value_pair"]}
{"id": "C62", "title": "Bond sensitivities", "statement": "pv_deriv at a yield is the true derivative of the fixed-rate price at a rate within half a basis point, and is negative; the Macaulay duration at the yield is the PV-weighted average time and divided by (1+y/n) is minus the relative derivative; duration() is the modified duration only for principal 100 (otherwise off by principal/100); convexity() always raises.", "quantifier": "all bonds and yields", "why_tests_cant": "Real-valued yields", "anchors": ["fixedIncome/src/assets/us_treasury_instruments/us_treasury_instruments.py:UsTreasuryBond.pv_deriv", "fixedIncome/src/assets/us_treasury_instruments/us_treasury_instruments.py:UsTreasuryBond.duration", "fixedIncome/src/assets/us_treasury_instruments/us_treasury_instruments.py:UsTreasuryBond.convexity", "fixedIncome/src/assets/credit/corporate_bond.py:FixedRateBond.macaulay_duration"]}
{"id": "C63", "title": "Treasury future mark-to-market dates", "statement": "The treasury future class cannot be instantiated: its collection base class is an ABC whose knot and present value methods it leaves abstract, so calling it raises TypeError for all arguments. A subclass that defines both methods can be, and then the cashflow dates are exactly the US business days from settlement to maturity, each once, in order, with unknown amounts, whatever holiday calendar is passed.", "quantifier": "all purchase and maturity dates, calendars and subclasses", "why_tests_cant": "All dates and all subclasses; the tests construct no future", "anchors": ["fixedIncome/src/assets/us_treasury_instruments/us_treasury_instruments.py:UsTreasuryFuture"]}
{"id": "C64", "title": "Swap leg payments", "statement": "Each fixed-leg payment is accrual factor * notional * fixed rate of one accrual period, dated the payment delay after the period's end; each floating payment of a term swap is accrual factor * notional * the rate observed at the fixing date derived from the period's start, dated the same way. With a business-day delay T+0..T+3 no payment precedes the end of its period and all fall on business days. Generating a leg changes nothing but that stored leg, and only when asked to store it.", "quantifier": "all swaps, schedules, rate functions and stored states", "why_tests_cant": "All schedules, delays and rates; the frame property ranges over all object states", "anchors": ["fixedIncome/src/assets/rates/linear_rates/interest_rate_swap.py: generate_fixed_leg_cashflow, TermInterestRateSwap.generate_floating_leg_cashflow"]}
{"id": "C65", "title": "Brownian increments have the requested correlation", "statement": "If the standard-normal draws of a step have uncorrelated unit second moments (over any weighted ensemble) and the lower-triangular factor satisfies L L^T = C, the increments of the step have second-moment matrix C dt.", "quantifier": "all dimensions, ensembles, factors, steps", "why_tests_cant": "A sample can only estimate a covariance; the identity must hold for every factor, dimension and step", "anchors": ["fixedIncome/src/stochastics/brownian_motion.py: BrownianMotion.generate_increments"]}
{"id": "C66", "title": "Re-parameterising a Vasicek model through the calibration dictionary", "statement": "Setting a new long-term mean through the parameter dictionary gives the coefficients of a model freshly built with that mean. Setting volatility s and speed q leaves the stored infinite-maturity convexity stale: for every maturity not at the start the price equals that of a freshly built model exactly when (s/q)^2 = (sigma/k)^2. No setter changes the generated paths, which keep the drift and diffusion given to the constructor, and the state setter reads the SHAPE entry (the mean), not a rate.", "quantifier": "all parameters, new parameters, maturities and paths", "why_tests_cant": "Holds or fails over all parameter pairs and call orders", "anchors": ["fixedIncome/src/stochastics/short_rate_models/affine_yield_curve_models/vasicek_model.py: VasicekModel.set_volatiltiy_parameters_from_dict, set_shape_parameters_from_dict, set_state_variables_from_dict"]}
{"id": "C67", "title": "Multivariate Vasicek yields, expectations and forwards", "statement": "yield * accrual = -log price (ValueError when the maturity is not after the purchase date, TypeError for a plain date); the expected state solves m' = K(theta - m), m(0) = x, and the average expected short rate is its time average; yield minus average expected rate is the reported convexity, which is <= 0. The reported instantaneous forward and price derivative are -d/dT log P and dP/dT when K is symmetric, and in general are off by the state against the skew part of e^{-Ka}: for the doubly mean reverting model the forward is wrong in every state with non-zero long-term level (refuted).", "quantifier": "all dimensions, parameters, maturities, states", "why_tests_cant": "Real-analytic identities in any dimension; the missing transposition is invisible on symmetric or one-factor examples", "anchors": ["fixedIncome/src/stochastics/short_rate_models/affine_yield_curve_models/vasicek_model.py: MultivariateVasicekModel.zero_coupon_bond_yield, expected_state_variables, average_expected_short_rate, yield_convexity, instantaneous_forward_rate"]}
{"id": "C68", "title": "Covariance of the future state", "statement": "The reported covariance of the state variables at a future time solves Sigma' = SS^T - K Sigma - Sigma K^T, Sigma(0) = 0 when the eigenvectors are the coordinate axes, and then the reported variance of the short rate is g.Sigma g; for orthonormal eigenvectors V it is the covariance of V^T X instead; for the doubly mean reverting model with equal uncorrelated volatilities it reports correlation 0 although the true covariance is positive (refuted).", "quantifier": "all dimensions, parameters, times", "why_tests_cant": "Differential equation over all parameters", "anchors": ["fixedIncome/src/stochastics/short_rate_models/affine_yield_curve_models/vasicek_model.py: MultivariateVasicekModel.state_variables_covariance, short_rate_variance"]}
{"id": "C69", "title": "Calibration dictionary of the doubly mean reverting model", "statement": "Setting volatility, shape or state parameters from the dictionary updates the attributes they name (IndexError when entries are missing) and nothing else; in particular prices and paths stay those of the construction parameters. Building a model from parameter lists gives the model constructed with those parameters and its dictionary lists them back.", "quantifier": "all parameters and lists", "why_tests_cant": "All parameter lists and call orders", "anchors": ["fixedIncome/src/stochastics/short_rate_models/affine_yield_curve_models/doubly_mean_reverting_vasicek.py: DoublyMeanRevertingVasicek"]}
{"id": "C70", "title": "Efficient frontier", "statement": "Target returns are evenly spaced from the lower return, all below upper return + step and as many as fit; one volatility and weight vector each; by default all targets lie between the least and greatest mean, which without short positions is exactly when a portfolio meeting the target exists. If the optimiser delivers KKT points the volatilities are the least possible and their squares are convex in the return; Sharpe ratio times volatility is the excess return.", "quantifier": "all inputs with a positive step", "why_tests_cant": "Convexity and optimality over all portfolios and targets", "anchors": ["fixedIncome/src/portfolio/portfolio_optimization.py: PortfolioOptimizer.calculate_efficient_frontier, sharpe_ratio"]}
{"id": "C71", "title": "\"Yield to maturity\" curves from quoted bonds", "statement": "The curve built from yields to maturity interpolates, at each instrument's knot date, the value of the instrument's knot pair; for a bond that is its price, not its yield to maturity (refuted with a note quoted at 99: the curve says 9900 percent, not a yield to maturity of the note); and after any history of calls discounting or valuing anything on it raises TypeError.", "quantifier": "all instrument lists, dates, call histories", "why_tests_cant": "All instruments and call histories", "anchors": ["fixedIncome/src/curves/yield_curves/yield_curve.py: YieldCurveFactory.construct_curve_from_yield_to_maturities"]}
{"id": "C72", "title": "Fitted yield curves reprice their instruments", "statement": "Whatever the root finder does, the fitted curve is indistinguishable from a curve newly built from the point the root finder returned after asking for pricing errors on newly built curves (no trace of the shared curve object); the yield at each knot is the number returned for its instrument, and each instrument is valued on it at its price plus the error left there, so exactly at its price if the point is a root. The answer is not checked: when the root finder gives up a curve is still returned (refuted). For bonds the price matched is the clean price, so an exact fit values a bond at what the buyer pays only if no interest has accrued (refuted otherwise).", "quantifier": "all root-finder behaviours, instrument lists, interpolation methods, dates", "why_tests_cant": "All adaptive root finder runs on a mutable curve with a cache", "anchors": ["fixedIncome/src/curves/yield_curves/yield_curve.py: YieldCurveFactory.construct_yield_curve"]}
{"id": "C73", "title": "Bootstrapped yield curves", "statement": "With instruments in order of distinct knot dates and linear or previous interpolation, bootstrapping runs one root search per instrument, on the error of that instrument on a newly built curve through the yields found so far and the trial yield; later rounds do not disturb earlier ones, the yield kept is the last one tried, and the finished curve values each instrument at its price plus the last error answered in its round. It is defined for every root finder if the instruments can be valued. The solution the root finder returns is dropped (refuted: it returns a root, the curve does not reprice), and out of order the yields go to the wrong knots even if every round found the exact root (refuted).", "quantifier": "all root-finder behaviours, instrument lists, dates", "why_tests_cant": "Locality of later knots and all adaptive root finder runs", "anchors": ["fixedIncome/src/curves/yield_curves/yield_curve.py: YieldCurveFactory.bootstrap_yield_curve"]}
{"id": "C75", "title": "Factorised calibration of the doubly mean reverting model", "statement": "Calibrating fits the yield volatilities over the five volatility parameters, then the zero coupon prices over the long-term mean and the initial state, each time measuring the Euclidean distance between the quotes and a newly built model. Whatever the optimiser does, the model returned has the last point it tried in each stage, so it misses the quotes by exactly the last distances measured, and it reproduces every quote when both optimisations end on an exact fit: the second stage does not disturb the first, as yield volatilities do not depend on mean or state. Of the model given only the volatility entry of its dictionary is changed. Quotes are kept in order of maturity and dates mixed with datetimes raise TypeError. Not true of the code: the optimiser's answer is used (it is thrown away), the calibrated state can be read back from the dictionary (whatever np.empty returned is there), one-factor models can be calibrated, the module can be used when imported (NameError).", "quantifier": "all quotes, models, draws, linear algebra results, and optimisers (any finite adaptive sequence of evaluations)", "why_tests_cant": "The optimiser is an arbitrary adaptive client; a test fixes one run of one algorithm on one data set.", "anchors": ["fixedIncome/src/stochastics/calibrators/factorized_calibrator.py: VolatilityFactorizedCalibrator", "fixedIncome/src/stochastics/short_rate_models/affine_yield_models/doubly_mean_reverting_vasicek.py: from_volatility_shape_parameters"]}
{"id": "C74", "title": "Simulated default times", "statement": "default_bernoulli_paths returns one entry per path: the first multiple j*dt strictly before maturity whose uniform draw is at most hazard(j*dt)*dt, or NaN if there is none, consecutive paths reading consecutive draws. It ends for every positive step (passing on the hazard function's exceptions) and never ends for a zero or negative step. A path survives exactly when every trial's draw exceeds hazard*dt, and a higher hazard never delays the first path's default. Not true of the code: the last interval before maturity is simulated (a maturity of m steps has m-1 trials, so with one step no default is possible), and the monotonicity for later paths (they read other draws).", "quantifier": "all hazard functions, maturities, steps, numbers of paths and draws", "why_tests_cant": "Random draws and an unbounded loop; a test samples a few seeds.", "anchors": ["fixedIncome/src/curves/credit_curves/default_models.py: default_bernoulli_paths"]}
{"id": "C76", "title": "Which instruments can be created", "statement": "A class of instruments can be instantiated exactly when each of its methods, looked up along its bases, is a concrete one; otherwise calling it raises TypeError whatever the arguments. Of the instruments of the library, zero coupons, treasury bonds, fixed rate and callable bonds, loans, term and overnight swaps and one-month SOFR futures can be created; the cashflow collection itself, treasury futures, three-month futures, floating and fixed-to-float bonds and the general swap cannot. A subclass of one of these (other than the swap) can exactly when it defines both the knot and the present value.", "quantifier": "all classes and constructor arguments", "why_tests_cant": "Ranges over all subclasses a user may write and all arguments.", "anchors": ["fixedIncome/src/assets/base_cashflow.py: CashflowCollection", "fixedIncome/src/assets/us_treasury_instruments/us_treasury_instruments.py", "fixedIncome/src/assets/credit/corporate_bond.py", "fixedIncome/src/assets/rates/linear_rates/interest_rate_future.py", "fixedIncome/src/assets/rates/linear_rates/interest_rate_swap.py"]}
{"id": "C77", "title": "Comparing instruments", "statement": "Comparing two instruments answers False (for != True) when their numbers of cashflow legs decide, and raises TypeError otherwise, because iterating an instrument raises; instruments cannot be hashed; searching a list finds an instrument exactly when no other one with as many legs stands before it, else raises. Not true of the code: an instrument equals itself (the comparison raises).", "quantifier": "all pairs of instruments, all lists of instruments", "why_tests_cant": "All pairs of instruments and all lists; the tests compare none.", "anchors": ["fixedIncome/src/assets/base_cashflow.py: CashflowCollection.__iter__, __len__"]}
{"id": "C78", "title": "Stepping through a collection with next()", "statement": "After any history of calls on a key rate collection, next() returns the member at the cursor, and the cursor is the number of next() calls since the last StopIteration (or the construction); so without changes of the collection in between, a full pass returns every member once, in order, and then StopIteration, and the next pass starts anew. A member deleted in the middle of a pass shifts the rest by one. A portfolio likewise. Not true of the code: a pass with next() visits every member even if one is deleted meanwhile.", "quantifier": "all collections and all histories of calls", "why_tests_cant": "Histories of any length; a test runs one.", "anchors": ["fixedIncome/src/risk/key_rate.py: KeyRateCollection.__next__, __iter__", "fixedIncome/src/portfolio/base_portfolio.py: Portfolio.__next__"]}
{"id": "C79", "title": "Inherited sequence methods of a key rate collection", "statement": "On a linked collection: append always and extend of a non-empty iterable raise TypeError and change nothing; in, index and count agree with equality of key rates; pop returns the member at the index and removes exactly it, relinking the neighbours (popping the only member empties the collection and raises ValueError); remove deletes the equal member or raises ValueError; clear empties the collection and raises ValueError whenever there was a member; reverse raises TypeError for two or more members; reversed gives the reverse order. Collections made by the constructor are linked. Assignment c[i] = x replaces the member exactly when the neighbouring dates it records are strictly around x's date; otherwise it raises and changes nothing.", "quantifier": "all linked collections, indices, key rates", "why_tests_cant": "The methods are inherited from collections.abc and untested; the claim ranges over all collections and indices.", "anchors": ["fixedIncome/src/risk/key_rate.py: KeyRateCollection"]}
{"id": "C80", "title": "Instruments without valuation", "statement": "A one-month SOFR future has no present value, knot, last trading date (None) or settlement rate (TypeError), and a portfolio that holds one raises TypeError when valued. A callable bond keeps its price and its call schedule in date order, calls of one date in the order given, and every pricing method raises AttributeError.", "quantifier": "all futures, curves, portfolios, call schedules", "why_tests_cant": "All portfolios and schedules; untested.", "anchors": ["fixedIncome/src/assets/rates/linear_rates/interest_rate_future.py: OneMonthSofrFuture", "fixedIncome/src/assets/credit/corporate_bond.py: CallableFixedRateBond", "fixedIncome/src/portfolio/base_portfolio.py: Portfolio.present_value"]}
{"id": "C81", "title": "Quote adjustments", "statement": "Not true of the code: quote adjustments passed to a yield curve are added to the quotes. Whenever there is an instrument and an adjustment, building the curve raises (AttributeError for numbers, TypeError for the pairs the signature asks for); otherwise the curve is the unadjusted one.", "quantifier": "all knots, adjustments, settings", "why_tests_cant": "All inputs; the tests pass none.", "anchors": ["fixedIncome/src/curves/yield_curves/yield_curve.py: YieldCurve.__init__"]}
{"id": "C82", "title": "Day counts in floating point: accuracy", "statement": "For two dates and every convention, the float compute_accrual_length returns is finite and within a relative 2^-51 of the exact day count, and except for Actual/Actual across a year end no float is nearer. The float program raises exactly when, and as, the exact one does. Not true of the code: Actual/Actual is always the nearest float.", "quantifier": "all conventions, all pairs of dates", "why_tests_cant": "About 10^13 pairs of dates per convention; the tests compare a few values after rounding.", "anchors": ["fixedIncome/src/scheduling_tools/day_count_calculator.py: DayCountCalculator.compute_accrual_length"]}
{"id": "C83", "title": "Day counts in floating point: comparisons", "statement": "If one exact day count is less than another in the same convention, so are the floats; equal day counts give equal floats except under Actual/Actual (not true of the code there). For the conventions other than 30/360, two accruals from the same start compare as floats exactly as their end dates do, and an earlier start gives a strictly larger float.", "quantifier": "all conventions, all pairs of periods", "why_tests_cant": "All pairs of periods; rounding could merge or swap any two.", "anchors": ["fixedIncome/src/scheduling_tools/day_count_calculator.py: DayCountCalculator.compute_accrual_length"]}
{"id": "C84", "title": "Day counts in floating point: additivity", "statement": "Outside 30/360 the floats of two adjacent periods add up to the float of the whole period within 2^-49 of its length. Not true of the code, in any convention: they add up exactly.", "quantifier": "all conventions, all three dates in order", "why_tests_cant": "All triples of dates.", "anchors": ["fixedIncome/src/scheduling_tools/day_count_calculator.py: DayCountCalculator.compute_accrual_length"]}
{"id": "C85", "title": "Timestamped day counts in floating point", "statement": "With timestamps the float is finite and within 2^-46 (years spanned + 3) of the exact day count, raises exactly as the exact program, and for the actual-over-constant conventions moments a millisecond apart get different floats in the right order over 500 years. Not true of the code: midnight timestamps give the same float as their dates.", "quantifier": "all conventions, all pairs of dates or timestamps (microsecond resolution)", "why_tests_cant": "All timestamps.", "anchors": ["fixedIncome/src/scheduling_tools/day_count_calculator.py: DayCountCalculator.compute_accrual_length"]}
{"id": "C86", "title": "Resetting one knot of a curve", "statement": "Resetting the knot at a position (negative ones count from the end) replaces it in place; if the knots stay in date order the curve equals one built from scratch with the new knot, and raises as that construction would. A position outside the list raises IndexError and changes nothing. Not true of the code: the knots are put back in order; a knot moved past another can leave a curve that raises ValueError at every one of its own knots.", "quantifier": "all curves, positions and new knots", "why_tests_cant": "All curves; never tested.", "anchors": ["fixedIncome/src/curves/base_curve.py: Curve.reset_interpolation_value"]}
{"id": "C87", "title": "Key rates in floating point", "statement": "For a key rate with a neighbour and a non-negative bump, the float value at any date is finite, between 0 and the bump, exactly the bump at its own date, exactly 0 from its neighbours on, and within a relative 2^-49 of the exact ramp. For a collection of two or more key rates of one convention (not 30/360) and one bump, the float sum at any date is within a relative 2^-48 of the bump, and exactly the bump at the key rate dates and outside them, under both ways CPython's sum() adds floats. Not true of the code: the sum is exactly the bump everywhere.", "quantifier": "all key rates and histories, all collections, bumps, dates", "why_tests_cant": "All dates and bumps; rounding differs at each.", "anchors": ["fixedIncome/src/risk/key_rate.py: KeyRate.__call__, KeyRateCollection.__call__"]}
{"id": "C88", "title": "Curve interpolation in floating point", "statement": "A linear or previous curve of any convention but 30/360 can be built exactly when no knot precedes the reference date; at a knot it returns that knot's float, between knots a previous curve the float of the knot before, outside them the end float or ValueError as configured. Between two knots the linear curve's float lies between the knots' floats (no overshoot), is monotone, is exactly the common value of equal knots, and is within 2^-48 of the exact interpolation, relative to the knot values and the ratio of axis position to knot distance. Not true of the code: it is exact where the exact value is a float.", "quantifier": "all knot lists (any order, distinct dates), conventions but 30/360, query dates; knot floats up to 2^900 and equal or at least 2^-900 apart for the claims between knots", "why_tests_cant": "All knot values and dates; the roundings differ at each.", "anchors": ["fixedIncome/src/curves/base_curve.py: Curve.__init__, interpolate, date_to_interpolation_axis"]}
{"id": "C89", "title": "Comparing key rates", "statement": "<=, <, >, >= of key rates are those of their dates: a total preorder, consistent with each other. == is an equivalence (same convention and date); equal key rates hash equally and neither is smaller. No history of setting neighbours or bumps changes comparisons or hash. Not true of the code: two key rates each at most the other are equal.", "quantifier": "all key rates, all histories of calls on them", "why_tests_cant": "All pairs and triples of key rates and all their histories; the tests compare a few.", "anchors": ["fixedIncome/src/risk/key_rate.py: KeyRate.__eq__, __le__, __lt__, __gt__, __ge__, __hash__"]}
{"id": "C90", "title": "Operators of key rate collections", "statement": "+ of two collections is their union; + with a collection on one side and anything else (a key rate, a list, a number) on the other raises TypeError and changes nothing; so sum() of collections raises (not true of the code: it adds them up). += with a single key rate leaves the old members and, unless an equal one is present, the new one; += with something not iterable raises TypeError and changes nothing. Adding one key rate with _add_key_rate: at or after the last date IndexError and no change; at another member's date ValueError, with the new one left in the collection; otherwise the collection with it in its place, sorted and linked.", "quantifier": "all collections, operands, set iteration orders", "why_tests_cant": "All collections and operands.", "anchors": ["fixedIncome/src/risk/key_rate.py: KeyRateCollection.__add__, __radd__, __iadd__, _add_key_rate"]}
{"id": "C91", "title": "Present values in floating point", "statement": "With Python's floats, and sum() adding either way CPython does: the present value of a cashflow is finite and within (n+1)/2^47 of the exact sum of discount factor times amount over the n payments on or after the curve's reference date, relative to the sum of their absolute values; that of a portfolio within (n+2)/2^46. It raises exactly when a needed discount factor does, with the first such exception. When nothing is negative the error is relative to the value, which is never negative and positive when the exact one is. The order of positions matters at most twice the bound. Not true of the code: it does not matter.", "quantifier": "all cashflows and portfolios of at most 2^30 entries whose products neither overflow nor underflow, all discount curves", "why_tests_cant": "Rounding errors add up over arbitrarily long sums of arbitrary doubles.", "anchors": ["fixedIncome/src/assets/base_cashflow.py: Cashflow.present_value", "fixedIncome/src/portfolio/base_portfolio.py: Portfolio.present_value"]}
{"id": "C92", "title": "Accrued interest on another date", "statement": "calculate_accrued_interest(d) on a Treasury: if a purchase on d and the bond itself settle on the same side of the first coupon, the date has no effect; if only the former settles by it, interest accrues over the first period up to the bond's own settlement; if only the latter (no coupon paid by its purchase), ValueError. Corporate bonds raise AttributeError on any date; zero coupon bonds give 0. Not true of the code: it is the interest accrued by a bond bought on d.", "quantifier": "all bonds and dates", "why_tests_cant": "All dates, frequencies, calendars; the tests never pass a date.", "anchors": ["fixedIncome/src/assets/us_treasury_instruments/us_treasury_instruments.py: calculate_accrued_interest", "fixedIncome/src/assets/credit/corporate_bond.py: calculate_accrued_interest"]}
{"id": "C93", "title": "Equality of key rate collections", "statement": "== of collections holds when they have as many members and those at the same place have the same convention and date; it is an equivalence. For constructed collections neither the order in which members were given nor the position of next() matters: they are equal iff each member of one is equal to one of the other and conversely. Equal collections with equal bumps adjust every date alike. Not true of the code: without equal bumps.", "quantifier": "all collections and dates", "why_tests_cant": "All pairs and triples of collections.", "anchors": ["fixedIncome/src/risk/key_rate.py: KeyRateCollection.__eq__"]}
{"id": "C94", "title": "Time fractions in floating point", "statement": "time_fraction_in_years of a timedelta is finite and within a relative 1/2^51 of the exact fraction of a year of 365.25 days, monotone, odd, zero only at zero and positive for positive timedeltas; whole seconds give the nearest double and whole years their number. Not true of the code: fractions add up.", "quantifier": "all timedeltas of up to 2^53 microseconds (285 years)", "why_tests_cant": "2^54 arguments.", "anchors": ["fixedIncome/src/scheduling_tools/day_count_calculator.py: DayCountCalculator.time_fraction_in_years"]}
{"id": "C95", "title": "A riskless portfolio earns the short rate", "statement": "In a mean-reverting multivariate Vasicek model with a generated path: for the weights of weights_for_riskless_portfolio, the portfolio's convexity less the weighted derivatives of price in maturity is the short rate on the purchase date times the portfolio's value, the prices solving the model's pricing equation. The reported maturity derivatives are those derivatives when the reversion matrix is symmetric; otherwise each differs by price times a term in the antisymmetric part of the matrix exponential.", "quantifier": "all models, paths, maturities and purchase dates", "why_tests_cant": "A real-analytic identity over all models and states; the tests use one two-factor model.", "anchors": ["fixedIncome/src/stochastics/short_rate_models/affine_yield_curve_models/vasicek_model.py:MultivariateVasicekModel.weights_for_riskless_portfolio, riskless_portfolio_convexity, zero_coupon_price_deriv_wrt_maturity"]}
{"id": "C96", "title": "Business days of datetimes", "statement": "Given a datetime, is_business_day, add_business_days, modified_following_date_adjustment and calculate_settlement_date give what they give for its date under a calendar without holidays, at the same time of day. Not true of the code: that they honour the calendar's holidays (T+1 from 3 July 2024 at 9:00 is 4 July).", "quantifier": "all datetimes and calendars whose holidays can be generated", "why_tests_cant": "All datetimes, calendars and numbers of days.", "anchors": ["fixedIncome/src/scheduling_tools/scheduler.py: Scheduler.is_business_day, add_business_days, modified_following_date_adjustment, calculate_settlement_date"]}
{"id": "C97", "title": "Tenor strings", "statement": "A tenor means n years (months) exactly when it is an integer literal of value n, as int() reads it (spaces around, an optional sign, digits with single underscores between them), followed by Y (M); str(n)+'Y' and str(n)+'M' are read back as n. A bond's dated date is that long before maturity, a swap ends that long after its start. Any other string raises ValueError. Not true of the code: only plain numbers followed by Y or M are accepted (' +1_0 Y' is ten years, '-5Y' minus five).", "quantifier": "all ASCII strings and integers", "why_tests_cant": "All strings.", "anchors": ["fixedIncome/src/assets/us_treasury_instruments/us_treasury_instruments.py:UsTreasuryBond.calculate_dated_date", "fixedIncome/src/assets/credit/corporate_bond.py:FixedRateBond.calculate_dated_date", "fixedIncome/src/assets/rates/linear_rates/interest_rate_swap.py:FixedToFloatInterestRateSwap.calculate_start_end_accrual_dates"]}
{"id": "C98", "title": "Constructing a Brownian motion", "statement": "BrownianMotion(start, end, dimension, matrix) succeeds exactly when dimension is not 0 and the matrix is square with a positive definite lower half (without a matrix: exactly when dimension is positive); 0 raises AssertionError, a negative dimension without a matrix ValueError, any other matrix LinAlgError. The factor kept is the lower triangular root of the matrix. Not true of the code: the dimension must agree with the matrix (such an object is made, but whatever is done with it every generation and every call raises), or the matrix must be a correlation matrix (what is above the diagonal is ignored, the diagonal need not be 1).", "quantifier": "all dimensions, matrices of all sizes, histories of generations", "why_tests_cant": "Positive definiteness for matrices of every size; every history.", "anchors": ["fixedIncome/src/stochastics/brownian_motion.py:BrownianMotion.__init__", "fixedIncome/src/stochastics/brownian_motion.py:BrownianMotion.generate_increments", "fixedIncome/src/stochastics/brownian_motion.py:BrownianMotion.generate_path", "fixedIncome/src/stochastics/brownian_motion.py:BrownianMotion.__call__"]}
{"id": "C99", "title": "Second moments of a Brownian motion", "statement": "Under any expectation for which the standard normal draws are centred, uncorrelated and of variance 1, a motion read at its grid times is centred and the covariance of coordinate i at time s with coordinate j at time t is the matrix entry (i, j) times the day-count length of the grid up to the earlier of s and t; for Act/360, Act/365, Act/365.25 that is the time elapsed.", "quantifier": "all dimensions, matrices, spans, steps, grid times and such expectations (30/360 excepted)", "why_tests_cant": "A statement about the distribution of paths, for every grid.", "anchors": ["fixedIncome/src/stochastics/brownian_motion.py:BrownianMotion.generate_path", "fixedIncome/src/stochastics/brownian_motion.py:BrownianMotion.generate_increments", "fixedIncome/src/stochastics/brownian_motion.py:BrownianMotion.__call__"]}
{"id": "C100", "title": "Mean and mean square of simulated geometric Brownian motion", "statement": "If the normal draws of each step are centred, uncorrelated and of variance 1 given the earlier steps, the k-th column of a path generated from value v has in coordinate i the mean v_i times the product of 1 + mu dt over the steps before it, and the mean square v_i^2 times the product of (1 + mu dt)^2 + sigma^2 C_ii dt. With steps of at most D both are within D times explicit constants of v_i e^(mu T) and v_i^2 e^((2 mu + sigma^2 C_ii) T), T the day-count length of the grid up to that column.", "quantifier": "all drifts, volatilities, correlation matrices, starts, spans, steps and such expectations (one exists for every number of steps and coordinates)", "why_tests_cant": "A statement about the distribution of paths, for every grid.", "anchors": ["fixedIncome/src/stochastics/geometric_brownian_motion.py:GeometricBrownianMotion.generate_path"]}
{"id": "C101", "title": "The simulated Vasicek rate converges to the closed formulas", "statement": "Under such draws the rate of a simulated Vasicek model at each grid time has mean theta + (r0 - theta) prod(1 - k dt) and variance following V' = (1 - k dt)^2 V + sigma^2 dt. Counting actual days over a fixed basis with steps at most D, k > 0 and k D <= 1, they differ from expected_short_rate and short_rate_variance at that time by at most D |r0 - theta| k^2 T / 2 and D (3/2) sigma^2 k T, T being the time from the start.", "quantifier": "all parameters, starting rates, spans, steps, grid times and such expectations", "why_tests_cant": "A statement about the distribution of paths, with an error bound, for every grid.", "anchors": ["fixedIncome/src/stochastics/short_rate_models/affine_yield_curve_models/vasicek_model.py:VasicekModel.expected_short_rate", "fixedIncome/src/stochastics/short_rate_models/affine_yield_curve_models/vasicek_model.py:VasicekModel.short_rate_variance", "fixedIncome/src/stochastics/short_rate_models/base_short_rate_model.py:ShortRateModel.generate_path", "fixedIncome/src/stochastics/base_processes.py:DiffusionProcess.generate_path"]}
{"id": "C102", "title": "Ladder risks add up to the parallel PV01", "statement": "For a continuously compounded curve on an Actual convention and non-negative payments up to its last knot, the PV01s of a ladder over at least two key rates of one Actual convention add up to the PV01 P of a parallel shift of the curve, to second order: the total lies between P and (1 - (A bp/2)^2/2) P, where bp is one basis point and A bounds the accruals from the reference date to the payments.", "quantifier": "all such curves, cashflows, key rate collections and query histories", "why_tests_cant": "Ranges over all collections and cashflows, with an error bound.", "anchors": ["fixedIncome/src/curves/yield_curves/yield_curve.py:YieldCurve.calculate_pv01_risk_ladder", "fixedIncome/src/risk/key_rate.py:KeyRateCollection.__call__"]}
{"id": "C103", "title": "Slices of cashflows and key rate collections", "statement": "For any start, stop and step, negative or out of range, a slice of a cashflow is a cashflow of exactly the payments at the positions Python's slice rules select, in date order; c[:k] and c[k:] split c for every k and their present values add up to that of c; c[::-1] is c if no dates repeat (false otherwise). A slice of a key rate collection holds the selected key rates in date order, linked to each other, and one that selects none raises ValueError; deleting a slice keeps the others, linked.", "quantifier": "all cashflow histories, collections, bounds and steps", "why_tests_cant": "Ranges over all bounds, steps and lengths.", "anchors": ["fixedIncome/src/assets/base_cashflow.py:Cashflow.__getitem__", "fixedIncome/src/assets/base_cashflow.py:Cashflow.present_value", "fixedIncome/src/risk/key_rate.py:KeyRateCollection.__getitem__", "fixedIncome/src/risk/key_rate.py:KeyRateCollection.__delitem__"]}
{"id": "C104", "title": "Portfolio risk ladders are linear and hedging cancels them", "statement": "The PV01 risk ladder of a portfolio is, key rate by key rate, the sum of quantity times the asset's PV01 (cash adds nothing). If hedge quantities solve the linear system of hedge PV01s against a target's PV01s, the hedge portfolio has the target's ladder and the net portfolio's ladder is zero. Unit zero coupon bonds maturing on the key rate dates have a diagonal PV01 matrix with a negative diagonal, so every instrument with a ladder can be hedged by them.", "quantifier": "all linear curves, portfolios of priced assets, targets, hedge sets and quantities", "why_tests_cant": "Ranges over all portfolios, curves and targets.", "anchors": ["fixedIncome/src/curves/yield_curves/yield_curve.py:YieldCurve.calculate_pv01_risk_ladder", "fixedIncome/src/portfolio/base_portfolio.py:Portfolio.present_value", "examples/rates/delta_hedging.py"]}
{"id": "C105", "title": "Par, premium and discount", "statement": "For a 30/360 coupon bond (maturity day up to the 27th, payment dates all business days) valued on a coupon date with the next coupon still to be received: discounting at the coupon rate gives exactly the principal, a lower rate a premium and a higher one a discount. Between coupon dates the value at the coupon rate is the principal grown at that rate over the elapsed part of the period. Under Actual/Actual par is not exact (false).", "quantifier": "all 30/360 bonds, coupon dates, reference dates and rates", "why_tests_cant": "Ranges over all bonds, dates and rates.", "anchors": ["fixedIncome/src/assets/us_treasury_instruments/us_treasury_instruments.py:UsTreasuryInstrument.discount_cashflows_by_fixed_rate", "fixedIncome/src/assets/us_treasury_instruments/us_treasury_instruments.py:UsTreasuryInstrument.create_coupon_payments_cashflow"]}
{"id": "C106", "title": "Simulated states of a multivariate Vasicek model", "statement": "If the normal draws are centred, uncorrelated and of variance 1 given the earlier steps, the generated state has at every grid time the mean of x' = x + K(theta - x)dt and the covariance Q' = (I - K dt)Q(I - K dt)^T + S C S^T dt, C the correlation matrix of the Brownian motion. With steps of at most D both are within D times bounds that do not depend on the step of the mean and covariance of dX = K(theta - X)dt + S dW; for Act/360, Act/365, Act/365.25 that mean is the expected state the model reports. Not true of the code: the covariance reported is that of the simulated states also when the Brownian motions passed in are correlated (the correlation is ignored).", "quantifier": "all dimensions, diagonalisable mean reverting K, levels, volatility and correlation matrices, starting states, spans, steps, grid times and such expectations", "why_tests_cant": "A statement about the distribution of paths and a limit over all grids.", "anchors": ["fixedIncome/src/stochastics/short_rate_models/affine_yield_curve_models/vasicek_model.py:MultivariateVasicekModel", "fixedIncome/src/stochastics/short_rate_models/affine_yield_curve_models/vasicek_model.py:MultivariateVasicekModel.__init__"]}
{"id": "C107", "title": "Loan schedules in floating point", "statement": "With Python's doubles, as long as the payments cover their interest: every balance (the principal less the recorded principal parts, subtracted one by one) is finite, never negative and never growing; the recorded interest is accrual * rate * balance; each payment either is the agreed amount with a principal part strictly below the balance, leaving a positive balance, or clears the balance to exactly 0; once it is 0 every later payment, principal part and interest is 0; principal and interest differ from payment and extra by at most two roundings; and the principal parts paid plus the balance differ from the principal by at most k 2^-53 of it after k payments. Not true of the code: the principal parts of a paid off loan need not add up to the principal exactly.", "quantifier": "all loans with amounts, rate and extra payments between 0 and 2^300, all day counts, frequencies, terms and numbers of payments", "why_tests_cant": "Rounding errors depend on every digit of every amount; tests compare a few amounts to a tolerance.", "anchors": ["fixedIncome/src/assets/credit/loan.py:Loan.generate_payment_schedule", "fixedIncome/src/assets/credit/loan.py:Loan.calculate_interest_payment"]}
{"id": "C108", "title": "Bond amounts in floating point", "statement": "With Python's doubles a bond can be constructed exactly when it can over exact numbers (the same errors otherwise), with the same dates; its coupon is within 4 units of 2^-53 of the exact one, its accrued interest within 16 and its full price within 22 (relative to price plus accrued). Without any rounding error: a zero coupon bond accrues nothing and its full price is the quoted price; accrued interest is 0 when settling at the start of a coupon period, the coupon to the last bit when settling at its end and, except under 30/360, between 0 and the coupon in between.", "quantifier": "all bonds with finite amounts (principal and coupon rate 0 or between 2^-100 and 2^100), all dates, tenors, frequencies, conventions and calendars", "why_tests_cant": "Rounding errors depend on every digit of amounts and dates; tests compare a few values to a tolerance.", "anchors": ["fixedIncome/src/assets/us_treasury_instruments/us_treasury_instruments.py:UsTreasuryBond.__init__", "fixedIncome/src/assets/us_treasury_instruments/us_treasury_instruments.py:calculate_accrued_interest", "fixedIncome/src/assets/us_treasury_instruments/us_treasury_instruments.py:get_full_price", "fixedIncome/src/assets/us_treasury_instruments/us_treasury_instruments.py:calculate_coupon_payment"]}
{"id": "C109", "title": "Overnight compounding and swap legs in floating point", "statement": "With Python's doubles the compounded overnight rate of a period is defined exactly when it is over exact numbers (the same errors otherwise) and, over n business days spanning T years, is within 16 n 2^-53 (1/T + 2|rate|) of the exact one; raising rates never lowers it, it is non-negative (non-positive) when all the rates are, and 0 for zero rates. Swap legs have the same errors, dates and order as over exact numbers; fixed and term payments are within 8 units of 2^-53 of the exact ones, overnight payments within 21 n 2^-53 (1/T + 2|rate|) times accrual times notional. Payer and receiver values are exactly opposite.", "quantifier": "all periods and swaps (every period of a swap on the US calendar qualifies), all callables returning finite rates up to 100%, notionals and fixed rates 0 or between 2^-100 and 2^100", "why_tests_cant": "Rounding errors accumulate over every business day and depend on every digit; tests compare a few values to a tolerance.", "anchors": ["fixedIncome/src/assets/rates/linear_rates/interest_rate_swap.py:OvernightIndexSwap.calculate_annualized_rate", "fixedIncome/src/assets/rates/linear_rates/interest_rate_swap.py:FixedToFloatInterestRateSwap.generate_fixed_leg_cashflow", "fixedIncome/src/assets/rates/linear_rates/interest_rate_swap.py:generate_floating_leg_cashflow", "fixedIncome/src/assets/rates/linear_rates/interest_rate_swap.py:present_value"]}
{"id": "C110", "title": "Implied swap rates in floating point", "statement": "With Python's doubles implied_rate raises exactly when the floating leg, its present value, the fixed schedule or a discount factor does, or the discounted annuity is 0.0. A swap constructed at the implied rate, with both legs generated, is worth 0 up to (n+1) 2^-44 of the floating leg's value (n fixed payments); at any quoted rate x it is worth x times the annuity minus the floating leg's value up to (n+1) 2^-46 of the gross amounts, and so has the sign the quote implies unless the quote is within (n+1) 2^-44 of the implied rate.", "quantifier": "all swaps, floating rate callables and discount callables with non-negative accruals (always so on the US calendar), fixed payments not before the curve's reference date and discount factors between 2^-100 and 2^100; both directions, both ways CPython adds floats", "why_tests_cant": "The errors of the schedule, the discount factors, two sums and a division interact and depend on every digit; tests compare a few values to a tolerance.", "anchors": ["fixedIncome/src/assets/rates/linear_rates/interest_rate_swap.py:FixedToFloatInterestRateSwap.implied_rate", "fixedIncome/src/assets/rates/linear_rates/interest_rate_swap.py:FixedToFloatInterestRateSwap.present_value", "fixedIncome/src/assets/rates/linear_rates/interest_rate_swap.py:FixedToFloatInterestRateSwap.generate_fixed_leg_cashflow"]}
{"id": "C111", "title": "Loan schedules in doubles follow the exact schedules", "statement": "generate_payment_schedule run with Python's doubles raises exactly when the same computation in exact arithmetic does, and with the same exception; otherwise both have the same payment dates and, while payments cover their interest, the balance after k payments, the interest and the principal part of each payment (and, without an extra payment, the payment) differ from the exact ones by at most a small multiple of (k+1) 2^-53 times what the principal would have grown to by then - also when rounding makes one schedule pay off a period earlier than the other. Payments that cover the interest on the whole principal in every period with 16 roundings to spare satisfy the condition.", "quantifier": "all loans, payments and extra payments given as doubles between 0 and 2^300, principal at least 2^-900, all day counts, frequencies and numbers of periods", "why_tests_cant": "Rounding errors are fed back through every later balance and the payoff test can be decided differently; tests compare a few schedules to a tolerance.", "anchors": ["fixedIncome/src/assets/credit/loan.py:Loan.generate_payment_schedule", "fixedIncome/src/assets/credit/loan.py:Loan.calculate_interest_payment"]}
{"id": "C112", "title": "Bond prices at a yield in doubles are accurate", "statement": "discount_cashflows_by_fixed_rate run with Python's doubles raises exactly when the same computation in exact arithmetic on the exact bond does, and otherwise differs from the exact price by at most 14 T + 2 N + 15 units of 2^-53 of it, T the number of coupon periods to the last payment and N the number of coupons. The residual the yield root finder works on is exact up to such roundings of the price and 28 of the target; the numerical derivative pv_deriv and the duration are exact up to 10^4 (16 T + 2 N + 20) (resp. + 50) roundings of the two bumped prices (over the full price), because the division by a basis point magnifies the roundings of the prices.", "quantifier": "all bonds with price, coupon and principal given as doubles of ordinary size, all day counts, calendars, frequencies and reference dates, all yields between -40% and 90% a period, up to 500 periods, every C library pow within one unit in the last place", "why_tests_cant": "Every payment is day-counted, raised to a power, multiplied and added with rounding; tests compare a few prices to a tolerance.", "anchors": ["fixedIncome/src/assets/us_treasury_instruments/us_treasury_instruments.py:UsTreasuryBond.discount_cashflows_by_fixed_rate", "fixedIncome/src/assets/us_treasury_instruments/us_treasury_instruments.py:UsTreasuryBond.yield_to_maturity", "fixedIncome/src/assets/us_treasury_instruments/us_treasury_instruments.py:UsTreasuryBond.pv_deriv", "fixedIncome/src/assets/us_treasury_instruments/us_treasury_instruments.py:UsTreasuryBond.duration", "fixedIncome/src/assets/credit/corporate_bond.py:CorporateBond.discount_cashflows_by_fixed_rate"]}
{"id": "C113", "title": "Vasicek closed forms in doubles are accurate, unless the reversion speed is tiny", "statement": "Run with Python's doubles, a VasicekModel's expected_short_rate, short_rate_variance, forward-rate volatility, price coefficients and zero_coupon_bond_price raise exactly when the same formulas in exact arithmetic do, and otherwise return a finite double close to the exact value. With d = 2^-46 (Y + 3) the error of the accrual when Y calendar years are crossed: the expected rate is within (|r| + |mean|)(2 k d + 10 units of 2^-53); the forward volatility within |vol| (2 k d + 8 units); the variance within vol^2/(2k) (4 k d + 16 units), and never negative when the computed accrual is not; the bond price has relative error at most 54 N + 5 units, N = (d + (1/k + accrual) 2^-53)(|mean| + vol^2/(2k^2) + |r|). So the price degrades like 2^-53/k: with a reversion speed of 2^-60 (accepted by the constructor) a one year bond at a rate of 3 worth less than 1/2 is priced at 1, and a variance above 99/100 is returned as 0, even if exp and ** are correctly rounded.", "quantifier": "every reversion speed in [2^-100, 1000], mean of size at most 1000, volatility 0 or of size in [2^-100, 1000], rate of size at most 1000, every day count, maturity (date or datetime) and purchase time with an accrual in [0, 10000] years, every exp and square within one unit in the last place", "why_tests_cant": "A test compares with one recorded double, usually at ordinary speeds; the loss of accuracy for slow reversion is invisible there, and a bound has to hold at every parameter, date and libm.", "anchors": ["fixedIncome/src/stochastics/short_rate_models/affine_yield_curve_models/vasicek_model.py:VasicekModel.expected_short_rate", "fixedIncome/src/stochastics/short_rate_models/affine_yield_curve_models/vasicek_model.py:VasicekModel.short_rate_variance", "fixedIncome/src/stochastics/short_rate_models/affine_yield_curve_models/vasicek_model.py:VasicekModel.instantaneous_forward_rate_volatility", "fixedIncome/src/stochastics/short_rate_models/affine_yield_curve_models/vasicek_model.py:VasicekModel._create_bond_price_coeffs", "fixedIncome/src/stochastics/short_rate_models/affine_yield_curve_models/vasicek_model.py:VasicekModel.zero_coupon_bond_price"]}
{"id": "C114", "title": "A yield curve's discount factors in doubles are accurate, and its discount curve is missing exactly when a yield is", "statement": "With Python's doubles, a continuously compounded YieldCurve whose yields are finite with |yield * years| at most 400 on every day up to the last knot gives a discount curve from to_discount_curve, whatever discount curves were asked for before under other adjustments. On every such day its factor is a positive finite double within relative error 2^-50 (3 + |yield * years|) of exp(-yield * years), is exactly 1 on the reference date, and is at most 1 for a yield that is not negative if numpy's exp never exceeds 1 there; dates outside raise ValueError. Against the same curve in exact arithmetic the error is 2^-49 (3 + |yield * years|) plus twice the error of the yield times the years. The call fails exactly when some day from the reference date to the last knot has no yield, with the exception of the first such day. A discount-factor curve's own factors come back at the knots as knot plus adjustment; other spaces raise TypeError. A positive yield can still give a factor of exactly 1: for 2^-60 at one day, even with correctly rounded exp.", "quantifier": "every list of knots with distinct dates, Linear or Previous interpolation (splines arbitrary), every day count but 30/360, every boundary behaviour, adjustment function and earlier history of calls, every numpy exp within relative error 2^-50", "why_tests_cant": "A test checks a few dates with a tolerance; the claim bounds the error at every day of every curve, after every history of cached discount curves, and says which single day makes the whole curve fail.", "anchors": ["fixedIncome/src/curves/yield_curves/yield_curve.py:YieldCurve.to_discount_curve", "fixedIncome/src/curves/base_curve.py:Curve.reset_interpolation_values"]}
{"id": "C115", "title": "A yield curve's present values and key rate risks in doubles are accurate", "statement": "With Python's doubles, the present value of a cashflow on a continuously compounded YieldCurve whose payments fall on or before the last knot is a finite double within ((n + K + 2) 2^-46 + 2 g) of the sum of amount * exp(-yield * years), relative to the same sum with absolute amounts; n counts the payments, K bounds |yield * years| and g how far the curve's doubles are from the intended yields, times years. It raises exactly when some payment with an amount falls after the last knot, and then ValueError. calculate_key_rate_deriv is within (n + K + 3) 2^-30 (same scale) of the exact central difference over the double 0.0001, and calculate_pv01_risk within (n + K + 3) 2^-43 of the exact change of value, whatever was asked of the curve before and whatever bump the key rate had; the key rate is left with half a basis point as its bump. The exact central difference is within 2/10^9 of the sum of |amount| (weight * years)^3 * factor of the true derivative of the value in the key rate.", "quantifier": "every list of up to 2^30 payments of zero or ordinary size, every knots, day counts but 30/360, histories of calls, key rates and their day counts but 30/360, K up to 399, both of CPython's sums, every numpy exp within 2^-50", "why_tests_cant": "A test compares a few ladders with a loose tolerance; the claim bounds the rounding error of every present value and of every difference of two nearly equal present values, where cancellation amplifies it.", "anchors": ["fixedIncome/src/curves/yield_curves/yield_curve.py:YieldCurve.present_value", "fixedIncome/src/curves/yield_curves/yield_curve.py:YieldCurve.calculate_key_rate_deriv", "fixedIncome/src/curves/yield_curves/yield_curve.py:YieldCurve.calculate_pv01_risk", "fixedIncome/src/risk/key_rate.py:KeyRate.set_bump_val", "fixedIncome/src/assets/base_cashflow.py:Cashflow.present_value"]}
{"id": "C116", "title": "Macaulay durations in doubles follow the exact ones", "statement": "With Python's doubles, FixedRateBond.macaulay_duration(rate, reference_date) raises exactly when, and the error, the exact computation raises, and is otherwise a finite non-negative double within (14 T + 2 N + 51) 2^-53, relative, of the exact value (up to 2^-1000), N being the number of coupons and T bounding the number of coupon periods to the payments still due at settlement; they must not lie behind the reference date in years (automatic unless the day count is 30/360). Which payments count is decided by the settlement of the purchase and not by the reference date: with a reference date after a coupon still due at settlement the method raises, while the price at that date is defined.", "quantifier": "every corporate bond with ordinary finite terms, a positive principal and a non-negative accrued interest and coupon, every yield between -40% and 90% a period, reference date, T up to 500, every C pow within one unit in the last place", "why_tests_cant": "A test compares a few durations with a loose tolerance; the claim bounds the rounding error for every bond, yield and date.", "anchors": ["fixedIncome/src/assets/credit/corporate_bond.py:FixedRateBond.macaulay_duration", "fixedIncome/src/assets/credit/corporate_bond.py:FixedRateBond.is_payment_received"]}
{"id": "C117", "title": "Risk ladders in doubles: one near-exact risk per key rate, adding up to the parallel DV01", "statement": "On a yield curve of continuously compounded yields, with Python's doubles, the risk ladder of a set of payments over a collection of two or more key rates is defined: one risk per key rate in date order, carrying its date, each a finite double within (n+K+3)/2^43 of the gross value from the exact change of value between half a basis point up and down of that key rate alone, n being the number of payments and K a bound on |yield * years|. The sum of the risks is within that error per key rate, plus 2e-9 of a third-order term, of one basis point times the sensitivity of the payments to a shift of all yields alike. Whatever was computed on the curve and with the key rates before makes no difference; afterwards each key rate holds a bump of half a basis point and other objects are untouched. A key rate whose neighbours leave out every day of the curve has a risk of exactly zero, for any instrument, interpolation space and method.", "quantifier": "every curve, payments up to its last knot, collection of key rates of one Actual day count, heap of key rate objects, earlier use of the curve, numpy exp within its contract, either summation of CPython", "why_tests_cant": "A test compares a ladder with loose expectations; the claim bounds every entry and the sum for every curve, portfolio and collection.", "anchors": ["fixedIncome/src/curves/yield_curves/yield_curve.py:YieldCurve.calculate_pv01_risk_ladder", "fixedIncome/src/risk/risk_metrics.py:RiskLadder", "fixedIncome/src/risk/key_rate.py:KeyRateCollection"]}
{"id": "C118", "title": "Simulated paths in doubles: near-exact Brownian, Vasicek and geometric Brownian paths on the same draws", "statement": "With Python's doubles, generate_increments and generate_path of a BrownianMotion visit the grid of the exact model and raise the exceptions it raises; there is one increment per time step; every time step is within (years+3)/2^46 of the exact accrual. For a dimension n, the path after k steps is finite and within (k+n+3)/2^52 (relative to the sum of the sizes of all products) of the sum over the steps of sqrt(dt) times the Cholesky row times the draw. A cumulative sum of increments is within k/2^52 of the exact sum, relative to the sum of their absolute values, and starts at zero. A Vasicek path with a step that obeys speed*dt <= 1 is finite at every point, and its point k is within k*B/2^49 of the exact Euler recursion on the same increments, B being a bound on the larger of start and long-term level in size plus the sum of the sizes of all shocks. A geometric Brownian path whose relative changes mu*dt and sigma*dW never exceed a quarter in size has relative error at most k/2^50 after k steps against the exact product recursion.", "quantifier": "every start and end datetime, time step, day count, Cholesky matrix, table of draws, dimension, number of steps up to the limit of the program, model parameters within the stated ranges, any numpy @ within its contract", "why_tests_cant": "A test runs a few seeds and checks loose tolerances or shapes; the claim bounds the accumulated rounding of every path for every draw, step size and length.", "anchors": ["fixedIncome/src/stochastics/brownian_motion.py:BrownianMotion.generate_increments", "fixedIncome/src/stochastics/brownian_motion.py:BrownianMotion.generate_path", "fixedIncome/src/stochastics/base_processes.py:DiffusionProcess.generate_path", "fixedIncome/src/stochastics/short_rate_models/affine_yield_curve_models/vasicek_model.py:vasicek_drift_diffusion", "fixedIncome/src/stochastics/geometric_brownian_motion.py:GeometricBrownianMotion.generate_path"]}
{"id": "C119", "title": "Simulated Vasicek rates forget where they started, unless the steps are too long", "statement": "Two simulations of one Vasicek model on the same draws from different starting rates run on the same grid, and at every grid time their difference is the difference of the starting rates times the product of (1 - speed*dt) over the steps so far, whatever the volatility and the draws. If speed*dt is at most one in every step, the difference has shrunk at least to exp(-speed*t) of what it was and the two paths never cross; without volatility the path then moves towards the long-term mean in every step and never past it. If speed*dt is at least 1+q in every step, the difference grows by at least the factor q per step, so a model whose rate should revert to its mean drives apart for q > 1 (no exception, no warning).", "quantifier": "every long-term mean, speed, volatility, Brownian motion, time step, day count other than 30/360, pair of starting arrays, table of draws and grid time", "why_tests_cant": "A test compares a few simulated paths; the claim relates every pair of runs on all draws at every grid time.", "anchors": ["fixedIncome/src/stochastics/short_rate_models/affine_yield_curve_models/vasicek_model.py:VasicekModel", "fixedIncome/src/stochastics/short_rate_models/affine_yield_curve_models/vasicek_model.py:vasicek_drift_diffusion", "fixedIncome/src/stochastics/base_processes.py:DiffusionProcess.generate_path", "fixedIncome/src/stochastics/short_rate_models/base_short_rate_model.py:ShortRateModel.generate_path"]}
{"id": "C120", "title": "The integrated short rate path in double precision", "statement": "The values generate_integrated_path computes in double precision stay within an explicit bound of the exact ones of the same rates: with rates at most M, accruals from the start at most Y and datetimes within N calendar years, the k-th is finite and off by at most k*(M*((k+8)*2^-52*Y + 2^-45*(N+3)) + 2^-1000). The path has the same length, and an exception is raised exactly when the exact program raises one, the same one. The discount factors numpy then takes (exp of minus the integral, within an ulp) are off from exp of minus the exact integral by at most the factor 4/3 of that bound plus 2^-51. Where no rate and no computed accrual is negative, the doubles start at 0 and never fall, and every discount factor lies between 0 and 1, the first being exactly 1.", "quantifier": "every short rate model with a path, list of datetimes (or none), day count convention, and table of rates within the bounds, of at most 2^20 datetimes; rates of any sign", "why_tests_cant": "A test compares a few integrals with a tolerance; the claim bounds the accumulated rounding of every path of every length.", "anchors": ["fixedIncome/src/stochastics/short_rate_models/base_short_rate_model.py:ShortRateModel.generate_integrated_path", "fixedIncome/src/stochastics/short_rate_models/base_short_rate_model.py:ShortRateModel.create_discount_curve", "fixedIncome/src/scheduling_tools/day_count_calculator.py:DayCountCalculator.compute_accrual_length"]}
