(** Model of fixedIncome/src/stochastics/short_rate_models/base_short_rate_model.py, and of base_curve.py for curves whose
    knots and queries are datetimes.  The list of datetimes callers may pass is a list of datetimes (not dates).
    Unused attributes (_short_rate_path, _continuously_compounded_accrual_path, the last accrual curve) are left out. *)
From Verif Require Import Base PyDate DayCount PyList KeyRate Curve Loan RVec Stochastic.
From Coq Require Import Reals.
Open Scope Z_scope.

(** base_curve.py 31-49, with interpolation method LINEAR and both ends ERROR, knots datetimes *)
Record tcurve := TCurve { tc_knots : list (datetime * R); tc_dcc : dcc; tc_ref : datetime; tc_pts : list (Q * R) }.
(** base_curve.py 63-74: datetimes are DateLikes *)
Definition taxis (c : dcc) (ref t : datetime) : res Q := compute_accrual_length (Stamp ref) (Stamp t) c.
(** base_curve.py 31-49, 77-89 *)
Definition new_tcurve (knots : list (datetime * R)) (c : dcc) (ref : datetime) : res tcurve :=
  let knots := sort_by (fun kv => dt_abs (fst kv)) knots in
  do xs <- mapM (fun kv => taxis c ref (fst kv)) knots;
  Ok (TCurve knots c ref (combine xs (List.map snd knots))).
(** base_curve.py 59-61, 92-127 *)
Definition tcurve_call (cv : tcurve) (t : datetime) : res R :=
  match tc_knots cv with
  | [] => Err IndexError
  | kv :: _ =>
      if dt_ltb t (fst kv) then Err ValueError
      else if dt_ltb (fst (last (tc_knots cv) kv)) t then Err ValueError
      else do x <- taxis (tc_dcc cv) (tc_ref cv) t; interp1d (fun _ _ _ => 0%R) LINEAR (tc_pts cv) x
  end.

(** base_short_rate_model.py 20-34.  [sr_dt] and [sr_path] are the model's own attributes (base_processes.py 37, 44); the
    Brownian motion is shared with the underlying process, so it is read there. *)
Record short_rate := ShortRate {
  sr_f : vec -> R; sr_proc : process; sr_dt : dt_step;
  sr_path : option (list R); sr_int : option (list R); sr_disc : option tcurve
}.
(** base_short_rate_model.py 20-34 *)
Definition new_short_rate (f : vec -> R) (p : process) : short_rate := ShortRate f p (pr_dt p) None None None.
(** base_short_rate_model.py 20-34: the Brownian motion of the process *)
Definition sr_bm (s : short_rate) : brownian := pr_bm (sr_proc s).

(** base_short_rate_model.py 48-54 *)
Definition sr_call (s : short_rate) (t : datetime) : res R := do v <- pr_call (sr_proc s) t; Ok (sr_f s v).

(** base_short_rate_model.py 56-73: nothing is reset (65 is commented out); the method returns None *)
Definition sr_generate_path (s : short_rate) (h : arrays) (start : nat) (set : bool) (draw : nat -> vec) : short_rate * arrays * res unit :=
  match pr_generate_path (sr_proc s) h start set draw with
  | (p, h, Err e) => (ShortRate (sr_f s) p (sr_dt s) (sr_path s) (sr_int s) (sr_disc s), h, Err e)
  | (p, h, Ok _) =>
    match pr_path p with
    | None => (ShortRate (sr_f s) p (sr_dt s) (sr_path s) (sr_int s) (sr_disc s), h, Err AttributeError)
    | Some cols => (ShortRate (sr_f s) p (sr_dt s) (Some (List.map (sr_f s) cols)) (sr_int s) (sr_disc s), h, Ok tt)
    end
  end.

(** base_processes.py 121-125 with base_short_rate_model.py 76-84: the model's own path, dt and caches *)
Definition sr_set_dt (s : short_rate) (dt : dt_step) : short_rate := ShortRate (sr_f s) (sr_proc s) dt None None None.

(** base_short_rate_model.py 95-99, 135-139, 166-170 *)
Definition sr_datetimes (s : short_rate) (l : option (list datetime)) : res (list datetime) :=
  match l with Some l => Ok l | None => generate_datetimes (bm_start (sr_bm s)) (bm_end (sr_bm s)) (sr_dt s) 1000000 end.

(** base_short_rate_model.py 106, 111-114; min and max of floats *)
Definition trapezoid (a b accrual : R) : R :=
  let mn := Rmin a b in let mx := Rmax a b in
  if Rlt_dec mn 0 then (mx * accrual + (mn - mx) * accrual / 2)%R else (mn * accrual + (mx - mn) * accrual / 2)%R.
(** base_short_rate_model.py 104-117: old_time_accrual (101) is never updated *)
Fixpoint integral_loop (s : short_rate) (old running : R) (ps : list (datetime * datetime)) : res (list R) :=
  match ps with
  | [] => Ok []
  | (t0, t1) :: ps =>
    do a <- sr_call s t0;
    do b <- sr_call s t1;
    do new <- compute_accrual_length (Stamp (bm_start (sr_bm s))) (Stamp t1) (bm_dcc (sr_bm s));
    let running := (running + trapezoid a b (Q2R new - old))%R in
    do r <- integral_loop s old running ps; Ok (running :: r)
  end.
(** base_short_rate_model.py 86-120 *)
Definition sr_generate_integrated (s : short_rate) (l : option (list datetime)) : short_rate * res (list R) :=
  match sr_path s with
  | None => (s, Err ValueError)
  | Some _ =>
    match (do ds <- sr_datetimes s l; do r <- integral_loop s 0 0 (pairwise ds); Ok (0%R :: r)) with
    | Err e => (s, Err e)
    | Ok r => (ShortRate (sr_f s) (sr_proc s) (sr_dt s) (sr_path s) (Some r) (sr_disc s), Ok r)
    end
  end.

(** base_short_rate_model.py 123-154: line 142 passes three arguments to a method taking one (TypeError) *)
Definition sr_accrual_curve (s : short_rate) (l : option (list datetime)) : res tcurve :=
  match sr_path s with
  | None => Err ValueError
  | Some _ =>
    do ds <- sr_datetimes s l;
    match sr_int s with
    | None => Err TypeError
    | Some r => new_tcurve ((bm_start (sr_bm s), 1%R) :: combine ds (List.map exp r)) (bm_dcc (sr_bm s)) (bm_start (sr_bm s))
    end
  end.

(** base_short_rate_model.py 156-187 *)
Definition sr_create_discount (s : short_rate) (l : option (list datetime)) : short_rate * res tcurve :=
  match sr_path s with
  | None => (s, Err ValueError)
  | Some _ =>
    match sr_datetimes s l with
    | Err e => (s, Err e)
    | Ok ds =>
      let '(s, r) := match sr_int s with Some r => (s, Ok r) | None => sr_generate_integrated s (Some ds) end in
      match r with
      | Err e => (s, Err e)
      | Ok r =>
        match new_tcurve (combine ds (List.map (fun x => exp (- x)) r)) (bm_dcc (sr_bm s)) (bm_start (sr_bm s)) with
        | Err e => (s, Err e)
        | Ok c => (ShortRate (sr_f s) (sr_proc s) (sr_dt s) (sr_path s) (sr_int s) (Some c), Ok c)
        end
      end
    end
  end.
