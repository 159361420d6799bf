(** Model of fixedIncome/src/curves/yield_curves/yield_curve.py 167-174 with Python's floats. *)
From Verif Require Import Base PyDate DayCount PyList KeyRate Curve Float FloatDayCount FloatKeyRate FloatCurve FloatCashflow FloatYieldCurve.
From Flocq Require Import BinarySingleNaN.
Open Scope Z_scope.

(** the KeyRate objects of the program (key_rate.py 20-53), with their bumps *)
Definition f_heap := addr -> f_key.
(** assignment to the attributes of one object *)
Definition f_upd (h : f_heap) (a : addr) (k : f_key) : f_heap := fun b => if Nat.eqb b a then k else h b.

Section Numpy.
Variable spline : interp_method -> list (f64 * f64) -> f64 -> f64.
(** numpy's exp *)
Variable ex : f64 -> f64.
(** yield_curve.py 167-174, risk_metrics.py 26-28: list() of the generator over a collection; key rate date and pv01 of each risk *)
Fixpoint f_calculate_pv01_risk_ladder (y : f_ycurve) (c : list addr) (i : f_instrument) (h : f_heap) : f_ycurve * f_heap * res (list (date * f64)) :=
  match c with
  | [] => (y, h, Ok [])
  | a :: c =>
      let '(y, k, r) := f_calculate_pv01_risk spline ex y (h a) i in
      let h := f_upd h a k in
      match r with
      | Err e => (y, h, Err e)
      | Ok r => let '(y, h, rs) := f_calculate_pv01_risk_ladder y c i h in (y, h, do rs <- rs; Ok (r :: rs))
      end
  end.
End Numpy.
