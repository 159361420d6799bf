(** Model of fixedIncome/src/curves/base_curve.py with Python's floats: axis values and curve values are doubles (Curve.v is the
    same program over exact numbers). Knots and query dates are plain dates. *)
From Verif Require Import Base PyDate DayCount PyList KeyRate Curve Float FloatDayCount FloatKeyRate.
From Flocq Require Import BinarySingleNaN.
Open Scope Z_scope.

(** base_curve.py 18-20: KnotValuePair *)
Definition f_knot : Type := (date * f64)%type.
(** An optional adjustment: a Python callable. *)
Definition f_adjust := option (adj_arg -> res f64).
(** base_curve.py 96: the default is constantly the int 0 *)
Definition f_adj_call (a : f_adjust) (x : adj_arg) : res f64 := match a with None => Ok (of_int 0) | Some f => f x end.

(** C's x / y on doubles: no exception *)
Definition cdiv (x y : f64) : f64 := @Bdiv 53 1024 prec_gt prec_lt mode_NE x y.
(** isnan *)
Definition is_nan64 (x : f64) : bool := is_nan x.

(** numpy.interp between two points (compiled_base.c, arr_interp): the slope from the left point, from the right one if that is
    nan, the common value if that is nan too and both are equal *)
Definition f_segment (p0 p1 : f64 * f64) (x : f64) : f64 :=
  let slope := cdiv (fsub (snd p1) (snd p0)) (fsub (fst p1) (fst p0)) in
  let y := fadd (fmul slope (fsub x (fst p0))) (snd p0) in
  if is_nan64 y then
    let y' := fadd (fmul slope (fsub x (fst p1))) (snd p1) in
    if is_nan64 y' && feq (snd p0) (snd p1) then snd p0 else y'
  else y.
(** scipy interp1d(kind='linear') delegates to numpy.interp; [p0] is the last point so far whose x is at most the query. *)
Fixpoint f_np_interp (p0 : f64 * f64) (rest : list (f64 * f64)) (x : f64) : f64 :=
  match rest with
  | [] => snd p0
  | p1 :: rest' => if fle (fst p1) x then f_np_interp p1 rest' x else if feq (fst p0) x then snd p0 else f_segment p0 p1 x
  end.
(** interp1d(kind='previous'): y at the last index whose x is <= the query (it compares with the double below x by <) *)
Fixpoint f_np_previous (p0 : f64 * f64) (rest : list (f64 * f64)) (x : f64) : f64 :=
  match rest with
  | [] => snd p0
  | p1 :: rest' => if fle (fst p1) x then f_np_previous p1 rest' x else snd p0
  end.

Section Splines.
(** Values of scipy's quadratic and cubic splines through the given points: any function. *)
Variable spline : interp_method -> list (f64 * f64) -> f64 -> f64.

(** interp1d(x, y, kind)(x_new): bounds_error is on *)
Definition f_interp1d (m : interp_method) (pts : list (f64 * f64)) (x : f64) : res f64 :=
  match pts with
  | [] => Err IndexError
  | p0 :: rest =>
      if flt x (fst p0) || flt (fst (last pts p0)) x then Err ValueError
      else Ok (match m with
               | LINEAR => f_np_interp p0 rest x
               | PREVIOUS => f_np_previous p0 rest x
               | m => spline m pts x
               end)
  end.

(** base_curve.py 31-49: attributes *)
Record f_curve := FCurve {
  fc_values : list f_knot; fc_method : interp_method; fc_dcc : dcc; fc_ref : date;
  fc_left : end_behavior; fc_right : end_behavior; fc_pts : list (f64 * f64)
}.
(** base_curve.py 63-74 *)
Definition f_axis (c : dcc) (ref d : date) : res f64 := f_acc c ref d.
(** base_curve.py 77-89, kinds linear and previous (splines also check the number and order of the points: make_interp1d) *)
Definition f_create_points (c : dcc) (ref : date) (vals : list f_knot) : res (list (f64 * f64)) :=
  mapM (fun kv => do x <- f_axis c ref (fst kv); Ok (x, snd kv)) vals.
(** base_curve.py 31-49: Curve(...) with a reference date *)
Definition f_new_curve (vals : list f_knot) (m : interp_method) (c : dcc) (ref : date) (l r : end_behavior) : res f_curve :=
  let vals := sort_by fst vals in
  do pts <- f_create_points c ref vals;
  Ok (FCurve vals m c ref l r pts).

(** base_curve.py 92-127, 59-61 (__call__) *)
Definition f_interpolate (cv : f_curve) (d : date) (a : f_adjust) : res f64 :=
  match fc_values cv with
  | [] => Err IndexError
  | kv :: _ =>
      let '(first_date, first_val) := kv in
      let '(last_date, last_val) := last (fc_values cv) kv in
      if d <? first_date then
        match fc_left cv with
        | CONSTANT => do x <- f_adj_call a (ADate d); Ok (fadd first_val x)
        | ERROR => Err ValueError
        end
      else if last_date <? d then
        match fc_right cv with
        | CONSTANT => do x <- f_adj_call a TheClass; Ok (fadd last_val x)
        | ERROR => Err ValueError
        end
      else
        do t <- f_axis (fc_dcc cv) (fc_ref cv) d;
        do v <- f_interp1d (fc_method cv) (fc_pts cv) t;
        do x <- f_adj_call a (ADate d); Ok (fadd v x)
  end.
End Splines.
