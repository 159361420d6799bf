(** Model of fixedIncome/src/curves/yield_curves/yield_curve.py 30-165 with Python's floats (the second half of Curve.v is the same
    program over exact numbers).  Interpolation is linear or previous; splines are a parameter, without scipy's checks of the number
    and order of the points. *)
From Verif Require Import Base PyDate DayCount PyList KeyRate Curve Float FloatDayCount FloatKeyRate FloatCurve FloatCashflow.
From Flocq Require Import BinarySingleNaN.
Open Scope Z_scope.

(** yield_curve.py 30-59: attributes used; [fy_dc] is the cached discount curve object *)
Record f_ycurve := FYC { fy_curve : f_curve; fy_space : interp_space; fy_dc : option f_curve }.

(** yield_curve.py 30-60 *)
Definition f_new_yield_curve (knots : list f_knot) (m : interp_method) (c : dcc) (s : interp_space) (ref : date) (l r : end_behavior) : res f_ycurve :=
  do cv <- f_new_curve knots m c ref l r; Ok (FYC cv s None).

(** base_curve.py 129-134: the values are replaced before the interpolator is rebuilt (which may raise) *)
Definition f_reset_interpolation_values (vals : list f_knot) (cv : f_curve) : f_curve * res unit :=
  let vals := sort_by fst vals in
  match f_create_points (fc_dcc cv) (fc_ref cv) vals with
  | Ok pts => (FCurve vals (fc_method cv) (fc_dcc cv) (fc_ref cv) (fc_left cv) (fc_right cv) pts, Ok tt)
  | Err e => (FCurve vals (fc_method cv) (fc_dcc cv) (fc_ref cv) (fc_left cv) (fc_right cv) (fc_pts cv), Err e)
  end.
(** yield_curve.py 88, 114: the method of the discount curve *)
Definition f_discount_method (cv : f_curve) (s : interp_space) : interp_method :=
  match s with DISCOUNT_FACTOR => fc_method cv | _ => LINEAR end.

Section Numpy.
Variable spline : interp_method -> list (f64 * f64) -> f64 -> f64.
(** numpy's exp, element by element; it never raises *)
Variable ex : f64 -> f64.

(** yield_curve.py 80-83 and 99-110: the interpolation values of the discount curve; - yields * accruals element by element *)
Definition f_discount_values (cv : f_curve) (s : interp_space) (a : f_adjust) : res (list f_knot) :=
  match s with
  | DISCOUNT_FACTOR => mapM (fun kv => do v <- f_interpolate spline cv (fst kv) a; Ok (fst kv, v)) (fc_values cv)
  | CONTINUOUSLY_COMPOUNDED_YIELD =>
      match fc_values cv with
      | [] => Err IndexError
      | kv :: _ =>
          let days := date_range (fc_ref cv) (fst (last (fc_values cv) kv)) in
          do accruals <- mapM (f_axis (fc_dcc cv) (fc_ref cv)) days;
          do yields <- mapM (fun d => f_interpolate spline cv d a) days;
          Ok (combine days (List.map (fun p => ex (fmul (Bopp (fst p)) (snd p))) (combine yields accruals)))
      end
  | _ => Err TypeError                                          (* NotImplemented('...') is not callable *)
  end.

(** yield_curve.py 73-128; the state is the yield curve with its cached discount curve object *)
Definition f_to_discount_curve (y : f_ycurve) (a : f_adjust) : f_ycurve * res f_curve :=
  let cv := fy_curve y in
  match f_discount_values cv (fy_space y) a with
  | Err e => (y, Err e)
  | Ok vals =>
      match fy_dc y with
      | None =>
          match f_new_curve vals (f_discount_method cv (fy_space y)) (fc_dcc cv) (fc_ref cv) ERROR ERROR with
          | Ok dc => (FYC cv (fy_space y) (Some dc), Ok dc)
          | Err e => (y, Err e)
          end
      | Some dc =>
          let '(dc', r) := f_reset_interpolation_values vals dc in
          (FYC cv (fy_space y) (Some dc'), do _ <- r; Ok dc')
      end
  end.

(** base_curve.py 148-169: what a cashflow's present_value sees of a discount curve *)
Definition f_as_discount (cv : f_curve) : f_discount := FDiscount (fc_ref cv) (fun d => f_interpolate spline cv d None).
(** base_curve.py 171-185: the present_value method of an instrument, a function of the discount curve *)
Definition f_instrument := f_curve -> res f64.
(** base_cashflow.py 70-77 *)
Definition f_cashflow_instrument (total : list f64 -> f64) (c : list f_payment) : f_instrument := fun cv => f_cf_present_value total c (f_as_discount cv).

(** yield_curve.py 63-71 *)
Definition f_yc_present_value (y : f_ycurve) (i : f_instrument) (a : f_adjust) : f_ycurve * res f64 :=
  let '(y', r) := f_to_discount_curve y a in (y', do dc <- r; i dc).

(** risk_metrics.py 14: 0.0001 *)
Definition f_basis_point : f64 := flit 7378697629483821 (-66).
(** A KeyRate object and its bump_val (key_rate.py 20-53) *)
Definition f_key := (kr * f64)%type.
(** key_rate.py 90-99: a key rate called as an adjustment; comparing the class [date] with a date raises TypeError *)
Definition f_kr_adjust (k : f_key) : f_adjust := Some (fun x => match x with ADate d => f_kr_call (snd k) (fst k) d | TheClass => Err TypeError end).
(** key_rate.py 121-127 *)
Definition f_set_bump_val (b : f64) (k : f_key) : f_key := (create_adjustment_function (fst k), b).
(** key_rate.py 169-256 *)
Definition f_create_adjustment_function (k : f_key) : f_key := (create_adjustment_function (fst k), snd k).

(** yield_curve.py 130-146: the state is the yield curve and the key rate object *)
Definition f_calculate_key_rate_deriv (y : f_ycurve) (k : f_key) (i : f_instrument) : f_ycurve * f_key * res f64 :=
  let k := f_create_adjustment_function k in
  match fdiv (Bopp f_basis_point) (of_int 2) with
  | Err e => (y, k, Err e)
  | Ok b =>
    let k := f_set_bump_val b k in
    let '(y, neg) := f_yc_present_value y i (f_kr_adjust k) in
    match neg with
    | Err e => (y, k, Err e)
    | Ok neg =>
        let k := f_create_adjustment_function k in
        match fdiv f_basis_point (of_int 2) with
        | Err e => (y, k, Err e)
        | Ok b =>
          let k := f_set_bump_val b k in
          let '(y, pos) := f_yc_present_value y i (f_kr_adjust k) in
          match pos with
          | Err e => (y, k, Err e)
          | Ok pos => let k := f_create_adjustment_function k in (y, k, fdiv (fsub pos neg) f_basis_point)
          end
        end
    end
  end.
(** yield_curve.py 157-165: key rate date and pv01 *)
Definition f_calculate_pv01_risk (y : f_ycurve) (k : f_key) (i : f_instrument) : f_ycurve * f_key * res (date * f64) :=
  let '(y, k, r) := f_calculate_key_rate_deriv y k i in
  (y, k, do v <- r; Ok (kr_date (fst k), fmul v f_basis_point)).
End Numpy.
