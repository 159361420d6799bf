(** Model of fixedIncome/src/stochastics/calibrators/factorized_calibrator.py: VolatilityFactorizedCalibrator.
    scipy.optimize.minimize is any client of the loss function ([solver], YieldFactory.v); what it returns is the point x of
    its result.  An exception raised by the loss ends the calibration.  np.random is seeded with 1 for every path, so all
    paths are generated from the same draws.  The entry STATE_VARIABLES of the dictionary has two numbers where a path is
    generated from it (the dictionary of a doubly mean reverting model has). *)
From Verif Require Import Base PyDate DayCount PyList KeyRate Curve Loan RVec Stochastic ShortRate Vasicek Multi YieldFactory.
From Coq Require Import Reals.
Open Scope Z_scope.

(** factorized_calibrator.py 23-25 *)
Definition calib_input : Type := moment * R.
(** CPython: a date and a datetime cannot be compared *)
Definition is_day (m : moment) : bool := match m with Day _ => true | Stamp _ => false end.
(** CPython: the order of dates, of datetimes *)
Definition moment_key (m : moment) : Z := match m with Day d => d | Stamp t => dt_abs t end.
(** sorted(..., key=maturity_date): dates cannot be compared with datetimes, and every sort compares some date with some
    datetime if there are both *)
Definition sort_inputs (l : list calib_input) : res (list calib_input) :=
  if forallb (fun i : calib_input => is_day (fst i)) l || forallb (fun i : calib_input => negb (is_day (fst i))) l
  then Ok (sort_by (fun i : calib_input => moment_key (fst i)) l) else Err TypeError.
(** factorized_calibrator.py 56-59 *)
Record calibrator := Calibrator { ca_vols : list calib_input; ca_prices : list calib_input }.
(** factorized_calibrator.py 56-59 *)
Definition new_calibrator (vols prices : list calib_input) : res calibrator :=
  do v <- sort_inputs vols; do p <- sort_inputs prices; Ok (Calibrator v p).

(** What the calibrator reads and writes of a model: the three lists in parameter_calibration_dict, and the properties
    start_date_time, end_date_time, dt and day_count_convention *)
Record target := Target {
  tg_vol : list R; tg_shape : list R; tg_state : list R; tg_start : datetime; tg_end : datetime; tg_dt : dt_step; tg_dcc : dcc
}.
(** factorized_calibrator.py 72-75: all the assignments of the loop *)
Definition put_vol (t : target) (x : list R) : target := Target x (tg_shape t) (tg_state t) (tg_start t) (tg_end t) (tg_dt t) (tg_dcc t).
(** factorized_calibrator.py 112-118: all the assignments of the two loops *)
Definition put_shape_state (t : target) (x y : list R) : target := Target (tg_vol t) x y (tg_start t) (tg_end t) (tg_dt t) (tg_dcc t).
(** the attributes of a model the calibrator reads (factorized_calibrator.py 63-81, 101-124) *)
Definition model_target (s : short_rate) (vol shape state : list R) : target :=
  Target vol shape state (bm_start (sr_bm s)) (bm_end (sr_bm s)) (sr_dt s) (bm_dcc (sr_bm s)).
(** doubly_mean_reverting_vasicek.py 60-66; vasicek_model.py 96-100, [garbage] being the np.empty of line 81 *)
Definition doubly_target (d : doubly) : target := model_target (mv_model (do_multi d)) (do_vol_params d) (do_shape_params d) (do_state_params d).
(** the same for a VasicekModel (vasicek_model.py 36-69) *)
Definition vasicek_target (v : vasicek) (garbage : R) : target := model_target (va_model v) (va_vol_params v) (va_shape_params v) [garbage].

Section Oracles.
Variable la : linalg.
(** the draws of the generator seeded with 1 *)
Variable draw : nat -> vec.
(** whether the name DayCountCalculator is bound: the module imports it only under __name__ == '__main__' (167, 173) *)
Variable as_script : bool.

(** DoublyMeanRevertingVasicek.from_volatility_shape_parameters as called in 76-79, 120-123, 150-154, 158-162.  The list
    STATE_VARIABLES is copied before the path is generated (base_processes.py 94), so it is put in a new array. *)
Definition build (garbage : vec) (t : target) : res doubly :=
  let '(a, h) := alloc (Arrays (fun _ _ => 0%R) 0) (vec_of (tg_state t)) in
  do r <- doubly_from_parameters la garbage (tg_vol t) (tg_shape t) (tg_start t) (tg_end t) (tg_dt t) h a draw; Ok (fst r).
(** factorized_calibrator.py 65-68, 104-107: the accruals are not used, but computing them can raise *)
Definition accruals (t : target) (l : list calib_input) : res (list Q) :=
  mapM (fun i : calib_input => if as_script then compute_accrual_length (Stamp (tg_start t)) (fst i) (tg_dcc t) else Err NameError) l.
(** factorized_calibrator.py 84-86, 128-130 *)
Definition distance (xs ys : list R) : R :=
  sqrt (fold_left Rplus (List.map (fun p => (fst p - snd p) * (fst p - snd p))%R (combine xs ys)) 0%R).
(** what np.empty returned in the models built by the losses: never read *)
Variable garbage0 : vec.
(** factorized_calibrator.py 70-86 *)
Definition volatility_loss (l : list calib_input) (x : list R) (t : target) : target * res R :=
  if negb (Nat.eqb (List.length (tg_vol t)) (List.length x)) then (t, Err AssertionError)
  else
    let t := put_vol t x in
    (t, do m <- build garbage0 t;
        do vs <- mapM (fun i : calib_input => mv_yield_volatility (do_multi m) (fst i) None) l;
        Ok (distance vs (List.map snd l))).
(** factorized_calibrator.py 62-97: the model after the call, and the x of the optimiser's result *)
Definition calibrate_volatility (s : solver (list R) R) (l : list calib_input) (t : target) : target * res (list R) :=
  match accruals t l with
  | Err e => (t, Err e)
  | Ok _ => run_solver s (volatility_loss l) t
  end.
(** factorized_calibrator.py 109-130 *)
Definition price_loss (l : list calib_input) (x : list R) (t : target) : target * res R :=
  let n := List.length (tg_shape t) in
  if negb (Nat.eqb (n + List.length (tg_state t)) (List.length x)) then (t, Err AssertionError)
  else
    let t := put_shape_state t (firstn n x) (skipn n x) in
    (t, do m <- build garbage0 t;
        do ps <- mapM (fun i : calib_input => mv_price (do_multi m) (fst i) None) l;
        Ok (distance ps (List.map snd l))).
(** factorized_calibrator.py 100-141 *)
Definition calibrate_shape_state (s : solver (list R) R) (l : list calib_input) (t : target) : target * res (list R) :=
  match accruals t l with
  | Err e => (t, Err e)
  | Ok _ => run_solver s (price_loss l) t
  end.
(** factorized_calibrator.py 143-164: the results of the two minimisations are not used; [g1] and [g2] are the np.empty of the two models built *)
Definition calibrate (s1 s2 : solver (list R) R) (g1 g2 : vec) (c : calibrator) (t : target) : target * res doubly :=
  match calibrate_volatility s1 (ca_vols c) t with
  | (t, Err e) => (t, Err e)
  | (t, Ok _) =>
    (t, do m <- build g1 t;
        match calibrate_shape_state s2 (ca_prices c) (doubly_target m) with
        | (_, Err e) => Err e
        | (u, Ok _) => build g2 (Target (tg_vol u) (tg_shape u) (tg_state u) (tg_start u) (tg_end u) (tg_dt t) (tg_dcc u))
        end)
  end.
End Oracles.
