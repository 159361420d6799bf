(** Model of fixedIncome/src/curves/yield_curves/yield_curve.py 240-357: YieldCurveFactory.  The instruments are a list (not
    an iterator that can be read only once).  scipy.optimize.root is any client of the residual function: it asks for its
    value at finitely many points, each chosen after the answers so far, and returns a point; whether that point is a root
    is not checked by the code.  An exception raised by the residual ends the construction (its class may be changed by
    scipy). *)
From Verif Require Import Base PyDate DayCount PyList KeyRate Curve Cashflow Bond.
Open Scope Z_scope.

(** An instrument as the factory sees it: to_knot_value_pair(), price and present_value (base_curve.py 171-185) *)
Record quoted := Quoted { q_knot : knot_value; q_price : R; q_pv : instrument }.
(** us_treasury_instruments.py 92-120 *)
Definition quoted_bond spline (b : bond) : res quoted :=
  do k <- bond_to_knot b; Ok (Quoted k (price (args b)) (bond_present_value spline b)).
(** base_cashflow.py 166-195 *)
Definition quoted_zero spline (z : zero_coupon) : quoted := Quoted (zc_to_knot z) (zc_price z) (zc_present_value spline z).

(** scipy.optimize.root seen from the residual function *)
Inductive solver (X Y : Type) : Type := Done (x : X) | Ask (x : X) (k : Y -> solver X Y).
Arguments Done {X Y} x. Arguments Ask {X Y} x k.
(** scipy.optimize.root or minimize running on a function with side effects: the first exception ends it *)
Fixpoint run_solver {X Y St : Type} (s : solver X Y) (f : X -> St -> St * res Y) (st : St) : St * res X :=
  match s with
  | Done x => (st, Ok x)
  | Ask x k => match f x st with
               | (st, Ok y) => run_solver (k y) f st
               | (st, Err e) => (st, Err e)
               end
  end.

(** base_curve.py 129-140 on a yield curve *)
Definition yc_reset (kvs : list knot_value) (y : ycurve) : ycurve * res unit :=
  let '(cv, r) := reset_interpolation_values kvs (y_curve y) in (YC cv (y_space y) (y_dc y), r).
(** base_curve.py 136-140 *)
Definition yc_reset_one (kv : knot_value) (i : Z) (y : ycurve) : ycurve * res unit :=
  let '(cv, r) := reset_interpolation_value kv i (y_curve y) in (YC cv (y_space y) (y_dc y), r).

(** yield_curve.py 248-269 *)
Definition construct_curve_from_yield_to_maturities (l : list quoted) (m : interp_method) (ref : date) : res ycurve :=
  new_yield_curve (List.map q_knot l) m ACTACT YIELD_TO_MATURITY ref CONSTANT CONSTANT.

(** yield_curve.py 280-289, 320-329: the initial curve, its values the prices *)
Definition initial_curve (l : list quoted) (m : interp_method) (ref : date) : res ycurve :=
  new_yield_curve (List.map q_knot l) m ACTACT CONTINUOUSLY_COMPOUNDED_YIELD ref CONSTANT CONSTANT.
(** yield_curve.py 292-293, 303-304: zip stops at the shorter *)
Definition knot_values (l : list quoted) (xs : list R) : list knot_value :=
  List.map (fun p => (fst (q_knot (fst p)), snd p)) (combine l xs).

Section Splines.
Variable spline : interp_method -> list (Q * R) -> Q -> R.

(** yield_curve.py 295: the present values in order, on one curve object *)
Fixpoint present_values (l : list quoted) (y : ycurve) : ycurve * res (list R) :=
  match l with
  | [] => (y, Ok [])
  | q :: l =>
    match yc_present_value spline y (q_pv q) None with
    | (y, Err e) => (y, Err e)
    | (y, Ok v) => match present_values l y with (y, r) => (y, do vs <- r; Ok (v :: vs)) end
    end
  end.
(** yield_curve.py 291-296 *)
Definition pv_diffs (l : list quoted) (xs : list R) (y : ycurve) : ycurve * res (list R) :=
  match yc_reset (knot_values l xs) y with
  | (y, Err e) => (y, Err e)
  | (y, Ok _) => match present_values l y with (y, r) => (y, do vs <- r; Ok (List.map (fun p => fst p - snd p)%R (combine vs (List.map q_price l)))) end
  end.
(** yield_curve.py 271-308 *)
Definition construct_yield_curve (s : solver (list R) (list R)) (l : list quoted) (m : interp_method) (ref : date) : res ycurve :=
  do y <- initial_curve l m ref;
  match run_solver s (pv_diffs l) y with
  | (_, Err e) => Err e
  | (y, Ok xs) => match yc_reset (knot_values l xs) y with (y, r) => do _ <- r; Ok y end
  end.

(** yield_curve.py 331-340: [i] is an index into the sorted knots *)
Definition pv_diff (i : nat) (target : R) (inst : instrument) (x : R) (y : ycurve) : ycurve * res R :=
  match nth_error (c_values (y_curve y)) i with
  | None => (y, Err IndexError)
  | Some kv =>
    match yc_reset_one (fst kv, x) (Z.of_nat i) y with
    | (y, Err e) => (y, Err e)
    | (y, Ok _) => match yc_present_value spline y inst None with (y, r) => (y, do v <- r; Ok (v - target)%R) end
    end
  end.
(** yield_curve.py 343-355: the solution is packed into a local that is never used (349); line 353 only refreshes the
    cached discount curve *)
Fixpoint bootstrap_loop (s : nat -> solver R R) (i : nat) (l : list quoted) (y : ycurve) : res ycurve :=
  match l with
  | [] => Ok y
  | q :: l =>
    match run_solver (s i) (pv_diff i (q_price q) (q_pv q)) y with
    | (_, Err e) => Err e
    | (y, Ok _) =>
      if Nat.eqb i 4 then match yc_present_value spline y (q_pv q) None with (y, r) => do _ <- r; bootstrap_loop s (S i) l y end
      else bootstrap_loop s (S i) l y
    end
  end.
(** yield_curve.py 310-357; [s i] is the solver's behaviour in round i *)
Definition bootstrap_yield_curve (s : nat -> solver R R) (l : list quoted) (m : interp_method) (ref : date) : res ycurve :=
  do y <- initial_curve l m ref; bootstrap_loop s 0 l y.
End Splines.
