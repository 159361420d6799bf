(** Model of fixedIncome/src/stochastics/brownian_motion.py, base_processes.py, geometric_brownian_motion.py.
    Arrays of shape (dimension, n) are lists of n columns; a column is a vector.  Floats: day-count fractions exact
    rationals, values reals.  Shapes are assumed to agree (starting value, Brownian motion and drift collection of one
    dimension); numpy's broadcasting or shape errors otherwise are not modelled.  The random generator is an argument
    [draw]: draw k j is the standard normal of step k and coordinate j (any numbers). *)
From Verif Require Import Base PyDate DayCount PyList KeyRate Curve Loan RVec.
From Coq Require Import Reals.
Open Scope Z_scope.

(** datetime arithmetic of CPython: [t + timedelta(microseconds=n)], OverflowError out of range *)
Definition add_us (t : datetime) (n : Z) : res datetime :=
  let a := dt_abs t + n in
  let d := a / us_per_day in
  if (min_date <=? d) && (d <=? max_date) then Ok (DT d (a mod us_per_day)) else Err OverflowError.
(** A timedelta, or a relativedelta of months plus a fixed duration (days, hours, ... as microseconds) *)
Inductive dt_step := StepTimedelta (us : Z) | StepRelative (months us : Z).
(** datetime + timedelta, or datetime + relativedelta (dateutil) *)
Definition add_step (t : datetime) (i : dt_step) : res datetime :=
  match i with
  | StepTimedelta u => add_us t u
  | StepRelative m u => do d <- add_months (dt_date t) m; add_us (DT d (dt_us t)) u
  end.
(** comparison of datetimes *)
Definition dt_leb (s t : datetime) : bool := dt_abs s <=? dt_abs t.
(** CPython datetime: s < t *)
Definition dt_ltb (s t : datetime) : bool := dt_abs s <? dt_abs t.
(** CPython datetime: s == t *)
Definition dt_eqb (s t : datetime) : bool := dt_abs s =? dt_abs t.

(** scheduler.py 136-144, 190-196 on datetimes *)
Definition step_positive (t : datetime) (i : dt_step) : res bool :=
  match i with
  | StepTimedelta u => Ok (0 <=? u)
  | StepRelative _ _ => do t' <- add_step t i; Ok (dt_leb t t')
  end.
(** scheduler.py 146-157 on datetimes (cf. Scheduler.grid_loop) *)
Fixpoint dt_grid_loop (n : nat) (up : bool) (t e : datetime) (i : dt_step) : res (list datetime) :=
  match n with
  | O => Ok []
  | S n =>
    if (if up then dt_leb t e else dt_leb e t)
    then do t' <- add_step t i; do r <- dt_grid_loop n up t' e i; Ok (t :: r)
    else Ok []
  end.
(** scheduler.py 122-157 *)
Definition generate_datetimes (s e : datetime) (i : dt_step) (max_dates : Z) : res (list datetime) :=
  do up <- step_positive s i;
  dt_grid_loop (Z.to_nat (max_dates + 1)) up s e i.

(** CPython bisect.bisect_left *)
Fixpoint bisect_loop (fuel : nat) (g : list datetime) (x : datetime) (lo hi : nat) : nat :=
  match fuel with
  | O => lo
  | S fuel =>
    if Nat.ltb lo hi then
      let mid := Nat.div2 (lo + hi) in
      match nth_error g mid with
      | Some t => if dt_ltb t x then bisect_loop fuel g x (S mid) hi else bisect_loop fuel g x lo mid
      | None => lo
      end
    else lo
  end.
(** CPython bisect.bisect_left(g, x) *)
Definition bisect_left (g : list datetime) (x : datetime) : nat := bisect_loop (S (List.length g)) g x 0 (List.length g).

(** list[i] and array[:, i]; negative indices count from the end *)
Definition item {A} (l : list A) (i : Z) : res A :=
  do n <- py_index l i; match nth_error l n with Some a => Ok a | None => Err IndexError end.

(** brownian_motion.py 20-64.  The divisor is a Python float. *)
Definition datetime_to_path_call (x s e : datetime) (c : dcc) (grid : option (list datetime)) (path : option (list vec)) : res vec :=
  match path with
  | None => Err ValueError
  | Some path =>
    if dt_ltb x s || dt_ltb e x then Err ValueError
    else match grid with
    | None => Err TypeError
    | Some g =>
      let upper := Z.of_nat (bisect_left g x) in
      do gu <- item g upper;
      if dt_eqb x gu then item path upper
      else
        let lower := upper - 1 in
        do gl <- item g lower;
        do since <- compute_accrual_length (Stamp gl) (Stamp x) c;
        do to_next <- compute_accrual_length (Stamp x) (Stamp gu) c;
        if Qeq_bool (to_next + since) 0 then Err ZeroDivisionError
        else
          let factor := Q2R (to_next / (to_next + since)) in
          do prev <- item path lower;
          do next <- item path upper;
          Ok (fun i => next i * factor + prev i * (1 - factor))%R
    end
  end.

(** brownian_motion.py 70-86: attributes.  [bm_chol] is lower_triangular_mat; numpy.linalg.cholesky itself is not
    modelled (its contract, bm_chol bm_chol^T = correlation matrix, is a hypothesis where used). *)
Record brownian := Brownian {
  bm_start : datetime; bm_end : datetime; bm_dim : nat; bm_chol : mat; bm_dcc : dcc;
  bm_path : option (list vec); bm_times : option (list datetime); bm_dts : option (list Q)
}.
(** brownian_motion.py 70-86 *)
Definition new_brownian (s e : datetime) (n : nat) (L : mat) (c : dcc) : brownian := Brownian s e n L c None None None.
(** brownian_motion.py 124-165: assignment of _datetime_values *)
Definition set_times (b : brownian) (g : list datetime) : brownian :=
  Brownian (bm_start b) (bm_end b) (bm_dim b) (bm_chol b) (bm_dcc b) (bm_path b) (Some g) (bm_dts b).
(** brownian_motion.py 124-165: assignment of the time increments *)
Definition set_dts (b : brownian) (l : list Q) : brownian :=
  Brownian (bm_start b) (bm_end b) (bm_dim b) (bm_chol b) (bm_dcc b) (bm_path b) (bm_times b) (Some l).
(** brownian_motion.py 124-165: assignment of the path *)
Definition set_bm_path (b : brownian) (p : list vec) : brownian :=
  Brownian (bm_start b) (bm_end b) (bm_dim b) (bm_chol b) (bm_dcc b) (Some p) (bm_times b) (bm_dts b).

(** brownian_motion.py 112-122 *)
Definition bm_call (b : brownian) (x : datetime) : res vec :=
  datetime_to_path_call x (bm_start b) (bm_end b) (bm_dcc b) (bm_times b) (bm_path b).

(** brownian_motion.py 148-149: column k is L @ (z_k * sqrt(dt_k)); sqrt of a negative number is NaN in numpy, 0 here *)
Definition increment_column (b : brownian) (draw : nat -> vec) (k : nat) (dt : Q) : vec :=
  mvec (bm_dim b) (bm_chol b) (fun j => draw k j * sqrt (Q2R dt))%R.
(** brownian_motion.py 148-149 *)
Fixpoint columns_from (b : brownian) (draw : nat -> vec) (k : nat) (dts : list Q) : list vec :=
  match dts with [] => [] | dt :: dts => increment_column b draw k dt :: columns_from b draw (S k) dts end.

(** brownian_motion.py 124-150.  The attributes are assigned as the method goes (135, 140, 142). *)
Definition generate_increments (b : brownian) (dt : dt_step) (draw : nat -> vec) : brownian * res (list vec * list Q) :=
  match generate_datetimes (bm_start b) (bm_end b) dt 1000000 with
  | Err x => (b, Err x)
  | Ok g =>
    match nth_error g (List.length g - 1) with
    | None => (set_times b g, Err IndexError)
    | Some last =>
      let g := if dt_ltb last (bm_end b) then g ++ [bm_end b] else g in
      match mapM (fun p => compute_accrual_length (Stamp (fst p)) (Stamp (snd p)) (bm_dcc b)) (pairwise g) with
      | Err x => (set_times b g, Err x)
      | Ok dts => (set_dts (set_times b g) dts, Ok (columns_from b draw 0 dts, dts))
      end
    end
  end.

(** brownian_motion.py 159-160: zeros, then the running sums *)
Fixpoint cumsum (v : vec) (incs : list vec) : list vec :=
  match incs with [] => [v] | d :: incs => v :: cumsum (fun i => v i + d i)%R incs end.
(** brownian_motion.py 152-165 *)
Definition bm_generate_path (b : brownian) (dt : dt_step) (set : bool) (draw : nat -> vec) : brownian * res (list vec) :=
  match generate_increments b dt draw with
  | (b, Err x) => (b, Err x)
  | (b, Ok (incs, _)) =>
    let p := cumsum (fun _ => 0%R) incs in
    ((if set then set_bm_path b p else b), Ok p)
  end.

(** base_processes.py 14-21: time and current state to drift, resp. row of the diffusion matrix *)
Record drift_diffusion := DriftDiffusion { dd_drift : R -> vec -> R; dd_diffusion : R -> vec -> vec }.

(** base_processes.py 28-44: attributes.  The collection is the dict's values in insertion order, which is also the row
    order (40-41). *)
Record process := Process {
  pr_coll : list drift_diffusion; pr_bm : brownian; pr_dt : dt_step; pr_path : option (list vec)
}.
(** base_processes.py 28-45 *)
Definition new_process (coll : list drift_diffusion) (b : brownian) (dt : dt_step) : process := Process coll b dt None.

(** base_processes.py 72-82 *)
Definition pr_call (p : process) (x : datetime) : res vec :=
  datetime_to_path_call x (bm_start (pr_bm p)) (bm_end (pr_bm p)) (bm_dcc (pr_bm p)) (bm_times (pr_bm p)) (pr_path p).

(** Arrays are mutable objects: a heap of vectors and the next free address. *)
Record arrays := Arrays { arr : nat -> vec; fresh : nat }.
(** numpy: a new array *)
Definition alloc (h : arrays) (v : vec) : nat * arrays :=
  (fresh h, Arrays (fun a => if Nat.eqb a (fresh h) then v else arr h a) (S (fresh h))).
(** numpy: writing into an array *)
Definition store (h : arrays) (a : nat) (v : vec) : arrays := Arrays (fun b => if Nat.eqb b a then v else arr h b) (fresh h).

(** base_processes.py 98-104: next_step, row by row *)
Definition next_step (n : nat) (coll : list drift_diffusion) (time : R) (cur shock : vec) (dt : Q) : vec :=
  fun i => match nth_error coll i with
           | Some f => (dd_drift f time cur * Q2R dt + dot n (dd_diffusion f time cur) shock)%R
           | None => 0%R
           end.
(** base_processes.py 95-109: the loop; [cur] is the address of current_val, updated in place (106) *)
Fixpoint euler (n : nat) (coll : list drift_diffusion) (h : arrays) (cur : nat) (time : R) (steps : list (vec * Q)) : arrays * list vec :=
  match steps with
  | [] => (h, [arr h cur])
  | (shock, dt) :: steps =>
    let column := arr h cur in
    let d := next_step n coll time column shock dt in
    let h := store h cur (fun i => column i + d i)%R in
    let '(h, sol) := euler n coll h cur (time + Q2R dt)%R steps in
    (h, column :: sol)
  end.
(** base_processes.py 84-113; [start] is the address of the caller's array *)
Definition pr_generate_path (p : process) (h : arrays) (start : nat) (set : bool) (draw : nat -> vec) : process * arrays * res (list vec) :=
  match generate_increments (pr_bm p) (pr_dt p) draw with
  | (b, Err x) => (Process (pr_coll p) b (pr_dt p) (pr_path p), h, Err x)
  | (b, Ok (incs, dts)) =>
    let '(cur, h) := alloc h (arr h start) in
    let '(h, sol) := euler (bm_dim b) (pr_coll p) h cur 0%R (combine incs dts) in
    (Process (pr_coll p) b (pr_dt p) (if set then Some sol else pr_path p), h, Ok sol)
  end.
(** base_processes.py 115-125 *)
Definition pr_set_dt (p : process) (dt : dt_step) : process := Process (pr_coll p) (pr_bm p) dt None.

(** geometric_brownian_motion.py 30-53: attributes; dt defaults to one hour *)
Record gbm := Gbm { g_drift : R; g_vol : R; g_dim : nat; g_dt : dt_step; g_bm : brownian; g_path : option (list vec) }.
(** geometric_brownian_motion.py 38-53: the Brownian motion has the default day count *)
Definition new_gbm (mu sigma : R) (s e : datetime) (n : nat) (L : mat) (dt : dt_step) : gbm := Gbm mu sigma n dt (new_brownian s e n L ACTACT) None.
(** the starting value: an array, or a float, which has no flatten() *)
Inductive start_value := StartArray (v : vec) | StartFloat (r : R).
(** geometric_brownian_motion.py 18-22, 91-98 *)
Fixpoint gbm_loop (mu sigma : R) (cur : vec) (steps : list (vec * Q)) : list vec :=
  match steps with
  | [] => [cur]
  | (shock, dt) :: steps =>
    cur :: gbm_loop mu sigma (fun i => cur i + mu * cur i * Q2R dt + sigma * cur i * shock i)%R steps
  end.
(** geometric_brownian_motion.py 79-103: the increments are generated (87) before flatten() is called (89) *)
Definition gbm_generate_path (g : gbm) (start : start_value) (set : bool) (draw : nat -> vec) : gbm * res (list vec) :=
  match generate_increments (g_bm g) (g_dt g) draw with
  | (b, Err x) => (Gbm (g_drift g) (g_vol g) (g_dim g) (g_dt g) b (g_path g), Err x)
  | (b, Ok (incs, dts)) =>
    match start with
    | StartFloat _ => (Gbm (g_drift g) (g_vol g) (g_dim g) (g_dt g) b (g_path g), Err AttributeError)
    | StartArray v =>
      let sol := gbm_loop (g_drift g) (g_vol g) v (combine incs dts) in
      (Gbm (g_drift g) (g_vol g) (g_dim g) (g_dt g) b (if set then Some sol else g_path g), Ok sol)
    end
  end.
