(** Model of fixedIncome/src/curves/base_curve.py, curves/yield_curves/yield_curve.py and risk/risk_metrics.py.
    Axis values (accruals) are exact rationals, curve values are reals (exp is needed).  Knots and query dates are plain
    dates. *)
From Verif Require Import Base PyDate DayCount PyList KeyRate.
From Coq Require Export Reals Qreals.
Open Scope Z_scope.

(** curve_enumerations.py 11-15 *)
Inductive interp_method := PREVIOUS | LINEAR | QUADRATIC_SPLINE | CUBIC_SPLINE.
(** curve_enumerations.py 17-23 *)
Inductive interp_space :=
  DISCOUNT_FACTOR | FORWARD_RATES | YIELD | CONTINUOUSLY_COMPOUNDED_YIELD | YIELD_TO_MATURITY | CC_YIELD_TO_MATURITY.
(** curve_enumerations.py 36-38 *)
Inductive end_behavior := ERROR | CONSTANT.

(** base_curve.py 18-20: KnotValuePair *)
Definition knot_value : Type := (date * R)%type.

(** The argument an adjustment is called with: a date, or (line 117) the class [date] itself. *)
Inductive adj_arg := ADate (d : date) | TheClass.
(** An optional adjustment: a Python callable. *)
Definition adjust := option (adj_arg -> res R).
(** base_curve.py 96: the default is constantly 0 *)
Definition adj_call (a : adjust) (x : adj_arg) : res R := match a with None => Ok 0%R | Some f => f x end.

(** A key rate as an adjustment: comparing the class [date] with a date raises TypeError (key_rate.py 90-99). *)
Definition kr_adjust (k : kr) : adjust :=
  Some (fun x => match x with ADate d => do q <- kr_call k d; Ok (Q2R q) | TheClass => Err TypeError end).

(** scipy.interpolate.interp1d(kind='linear') delegates to numpy.interp: with j the last index whose x is <= the query,
    y[j] if x[j] equals the query or j is last, else slope*(x - x[j]) + y[j].  [p0] is the current candidate.  The scan
    agrees with numpy's binary search when the x are sorted. *)
Fixpoint np_interp (p0 : Q * R) (rest : list (Q * R)) (x : Q) : R :=
  match rest with
  | [] => snd p0
  | p1 :: rest' =>
      if Qle_bool (fst p1) x then np_interp p1 rest' x
      else if Qeq_bool (fst p0) x then snd p0
      else ((snd p1 - snd p0) / Q2R (fst p1 - fst p0) * Q2R (x - fst p0) + snd p0)%R
  end.

(** interp1d(kind='previous'): y at the last index whose x is <= the query *)
Fixpoint np_previous (p0 : Q * R) (rest : list (Q * R)) (x : Q) : R :=
  match rest with
  | [] => snd p0
  | p1 :: rest' => if Qle_bool (fst p1) x then np_previous p1 rest' x else snd p0
  end.

(** scipy interp1d: the axis has no repeated point *)
Fixpoint strictly_increasing (l : list (Q * R)) : bool :=
  match l with
  | p :: ((q :: _) as l') => negb (Qle_bool (fst q) (fst p)) && strictly_increasing l'
  | _ => true
  end.

Section Splines.
(** Values of scipy's quadratic and cubic splines through the given points: any function. *)
Variable spline : interp_method -> list (Q * R) -> Q -> R.

(** interp1d(x, y, kind)(x_new): bounds_error is on, so a query outside [x[0], x[-1]] raises ValueError. *)
Definition interp1d (m : interp_method) (pts : list (Q * R)) (x : Q) : res R :=
  match pts with
  | [] => Err IndexError
  | p0 :: rest =>
      if negb (Qle_bool (fst p0) x) || negb (Qle_bool x (fst (last pts p0))) then Err ValueError
      else Ok (match m with
               | LINEAR => np_interp p0 rest x
               | PREVIOUS => np_previous p0 rest x
               | m => spline m pts x
               end)
  end.

(** interp1d construction: splines need 3 (4) points with increasing x, otherwise ValueError. *)
Definition make_interp1d (m : interp_method) (pts : list (Q * R)) : res (list (Q * R)) :=
  match m with
  | LINEAR | PREVIOUS => Ok pts
  | QUADRATIC_SPLINE => if (3 <=? List.length pts)%nat && strictly_increasing pts then Ok pts else Err ValueError
  | CUBIC_SPLINE => if (4 <=? List.length pts)%nat && strictly_increasing pts then Ok pts else Err ValueError
  end.

(** base_curve.py 31-49: attributes.  [c_pts] are the points captured by the interpolator (48, 89).  The index attribute
    plays no part and is left out. *)
Record curve := Curve {
  c_values : list knot_value; c_method : interp_method; c_dcc : dcc; c_ref : date;
  c_left : end_behavior; c_right : end_behavior; c_pts : list (Q * R)
}.

(** base_curve.py 63-74 *)
Definition axis (c : dcc) (ref : date) (d : date) : res Q := acc c ref d.
(** base_curve.py 63-74 *)
Definition date_to_interpolation_axis (cv : curve) (d : date) : res Q := axis (c_dcc cv) (c_ref cv) d.

(** base_curve.py 77-89 *)
Definition create_points (m : interp_method) (c : dcc) (ref : date) (vals : list knot_value) : res (list (Q * R)) :=
  do xs <- mapM (fun kv => axis c ref (fst kv)) vals;
  make_interp1d m (combine xs (List.map snd vals)).

(** base_curve.py 31-49: Curve(...) *)
Definition new_curve (vals : list knot_value) (m : interp_method) (c : dcc) (ref : option date) (l r : end_behavior) : res curve :=
  let vals := sort_by fst vals in
  do ref <- match ref, vals with
            | Some d, _ => Ok d
            | None, kv :: _ => Ok (fst kv)
            | None, [] => Err IndexError
            end;
  do pts <- create_points m c ref vals;
  Ok (Curve vals m c ref l r pts).

(** base_curve.py 92-127, 59-61 (__call__) *)
Definition interpolate (cv : curve) (d : date) (a : adjust) : res R :=
  match c_values cv with
  | [] => Err IndexError
  | kv :: _ =>
      let '(first_date, first_val) := kv in
      let '(last_date, last_val) := last (c_values cv) kv in
      if d <? first_date then
        match c_left cv with
        | CONSTANT => do x <- adj_call a (ADate d); Ok (first_val + x)%R
        | ERROR => Err ValueError
        end
      else if last_date <? d then
        match c_right cv with
        | CONSTANT => do x <- adj_call a TheClass; Ok (last_val + x)%R
        | ERROR => Err ValueError
        end
      else
        do t <- date_to_interpolation_axis cv d;
        do v <- interp1d (c_method cv) (c_pts cv) t;
        do x <- adj_call a (ADate d); Ok (v + x)%R
  end.

(** base_curve.py 129-134: the values are replaced before the interpolator is rebuilt (which may raise). *)
Definition reset_interpolation_values (vals : list knot_value) (cv : curve) : curve * res unit :=
  let vals := sort_by fst vals in
  match create_points (c_method cv) (c_dcc cv) (c_ref cv) vals with
  | Ok pts => (Curve vals (c_method cv) (c_dcc cv) (c_ref cv) (c_left cv) (c_right cv) pts, Ok tt)
  | Err e => (Curve vals (c_method cv) (c_dcc cv) (c_ref cv) (c_left cv) (c_right cv) (c_pts cv), Err e)
  end.

(** base_curve.py 136-140: no sorting *)
Definition reset_interpolation_value (new : knot_value) (i : Z) (cv : curve) : curve * res unit :=
  match py_index (c_values cv) i with
  | Err e => (cv, Err e)
  | Ok n =>
      let vals := replace_nth n new (c_values cv) in
      match create_points (c_method cv) (c_dcc cv) (c_ref cv) vals with
      | Ok pts => (Curve vals (c_method cv) (c_dcc cv) (c_ref cv) (c_left cv) (c_right cv) pts, Ok tt)
      | Err e => (Curve vals (c_method cv) (c_dcc cv) (c_ref cv) (c_left cv) (c_right cv) (c_pts cv), Err e)
      end
  end.

(** ---- yield_curve.py ---- *)
(** yield_curve.py 30-59: attributes used; [y_dc] is the cached discount curve object.  The instruments are represented by
    their knot value pairs (42); quote adjustments are None (a non-empty list raises AttributeError on line 46). *)
Record ycurve := YC { y_curve : curve; y_space : interp_space; y_dc : option curve }.

(** yield_curve.py 30-60 *)
Definition new_yield_curve (knots : list knot_value) (m : interp_method) (c : dcc) (s : interp_space) (ref : date)
    (l r : end_behavior) : res ycurve :=
  do cv <- new_curve knots m c (Some ref) l r; Ok (YC cv s None).

(** pandas date_range(start, end, freq='D').date: every day from start to end, both included *)
Definition date_range (s e : date) : list date := List.map (fun n => s + Z.of_nat n) (seq 0 (Z.to_nat (e - s + 1))).

(** yield_curve.py 80-83 and 99-110: the interpolation values of the discount curve *)
Definition discount_values (cv : curve) (s : interp_space) (a : adjust) : res (list knot_value) :=
  match s with
  | DISCOUNT_FACTOR => mapM (fun kv => do v <- interpolate cv (fst kv) a; Ok (fst kv, v)) (c_values cv)
  | CONTINUOUSLY_COMPOUNDED_YIELD =>
      match c_values cv with
      | [] => Err IndexError
      | kv :: _ =>
          let days := date_range (c_ref cv) (fst (last (c_values cv) kv)) in
          do accruals <- mapM (date_to_interpolation_axis cv) days;
          do yields <- mapM (fun d => interpolate cv d a) days;
          Ok (combine days (List.map (fun p => exp (- fst p * Q2R (snd p))) (combine yields accruals)))
      end
  | _ => Err TypeError                                          (* NotImplemented('...') is not callable *)
  end.
(** yield_curve.py 88, 114: the method of the discount curve *)
Definition discount_method (cv : curve) (s : interp_space) : interp_method :=
  match s with DISCOUNT_FACTOR => c_method cv | _ => LINEAR end.

(** yield_curve.py 73-128.  Returns the (shared, cached) discount curve: the second component is its content on return;
    later calls change the same object. *)
Definition to_discount_curve (y : ycurve) (a : adjust) : ycurve * res curve :=
  let cv := y_curve y in
  match discount_values cv (y_space y) a with
  | Err e => (y, Err e)
  | Ok vals =>
      match y_dc y with
      | None =>
          match new_curve vals (discount_method cv (y_space y)) (c_dcc cv) (Some (c_ref cv)) ERROR ERROR with
          | Ok dc => (YC cv (y_space y) (Some dc), Ok dc)
          | Err e => (y, Err e)
          end
      | Some dc =>
          let '(dc', r) := reset_interpolation_values vals dc in
          (YC cv (y_space y) (Some dc'), do _ <- r; Ok dc')
      end
  end.

(** A PresentValueable: its present_value method, a function of the discount curve (base_curve.py 171-185). *)
Definition instrument := curve -> res R.

(** yield_curve.py 63-71 *)
Definition yc_present_value (y : ycurve) (i : instrument) (a : adjust) : ycurve * res R :=
  let '(y', r) := to_discount_curve y a in (y', do dc <- r; i dc).

(** yield_curve.py 130-146: state is the yield curve and the key rate object *)
Definition calculate_key_rate_deriv (y : ycurve) (k : kr) (i : instrument) : ycurve * kr * res R :=
  let k := create_adjustment_function k in
  let k := set_bump_val (- ONE_BASIS_POINT / inject_Z 2) k in
  let '(y, neg) := yc_present_value y i (kr_adjust k) in
  match neg with
  | Err e => (y, k, Err e)
  | Ok neg =>
      let k := create_adjustment_function k in
      let k := set_bump_val (ONE_BASIS_POINT / inject_Z 2) k in
      let '(y, pos) := yc_present_value y i (kr_adjust k) in
      match pos with
      | Err e => (y, k, Err e)
      | Ok pos =>
          let k := create_adjustment_function k in
          (y, k, Ok ((pos - neg) / Q2R ONE_BASIS_POINT)%R)
      end
  end.

(** risk_metrics.py 18-22 (index left out: always US_TREASURY here) *)
Record risk := Risk { r_date : date; r_pv01 : R }.

(** yield_curve.py 157-165 *)
Definition calculate_pv01_risk (y : ycurve) (k : kr) (i : instrument) : ycurve * kr * res risk :=
  let '(y, k, r) := calculate_key_rate_deriv y k i in
  (y, k, do v <- r; Ok (Risk (kr_date k) (v * Q2R ONE_BASIS_POINT)%R)).

(** yield_curve.py 167-174: the loop over a collection (addresses in the heap of key rates) *)
Fixpoint calculate_pv01_risk_ladder (y : ycurve) (c : list addr) (i : instrument) (h : heap) : ycurve * heap * res (list risk) :=
  match c with
  | [] => (y, h, Ok [])
  | a :: c =>
      let '(y, k, r) := calculate_pv01_risk y (h a) i in
      let h := upd h a k in
      match r with
      | Err e => (y, h, Err e)
      | Ok r => let '(y, h, rs) := calculate_pv01_risk_ladder y c i h in (y, h, do rs <- rs; Ok (r :: rs))
      end
  end.
End Splines.

(** ---- risk_metrics.py 25-76: RiskLadder ---- *)
Record ladder := Ladder { rl_risks : list risk; rl_iter : nat }.
(** risk_metrics.py 26-28 *)
Definition new_ladder (l : list risk) : ladder := Ladder l 0.
(** risk_metrics.py 34-36: the body is [pass], so None, which [in] reads as False *)
Definition rl_contains (l : ladder) (r : risk) : bool := false.
(** risk_metrics.py 38-39 *)
Definition rl_iterate (l : ladder) : list risk := rl_risks l.
(** risk_metrics.py 41-50: None for StopIteration *)
Definition rl_next (l : ladder) : ladder * option risk :=
  match nth_error (rl_risks l) (rl_iter l) with
  | Some r => (Ladder (rl_risks l) (S (rl_iter l)), Some r)
  | None => (Ladder (rl_risks l) 0, None)
  end.
(** risk_metrics.py 52-54 *)
Definition rl_len (l : ladder) : nat := List.length (rl_risks l).
(** risk_metrics.py 65-67 *)
Definition get_key_rate_dates (l : ladder) : list date := List.map r_date (rl_iterate l).
(** risk_metrics.py 69-71 *)
Definition get_pv01s (l : ladder) : list R := List.map r_pv01 (rl_iterate l).
