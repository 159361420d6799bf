(** Model of fixedIncome/src/portfolio/portfolio_optimization.py.
    scipy.optimize.minimize is a parameter: it is handed the problem as the code builds it and gives back results['x'].
    The code returns that vector whether or not the optimiser reports success.  Shapes are assumed to agree. *)
From Verif Require Import Base PyDate DayCount PyList KeyRate Curve RVec Multi.
From Coq Require Import Reals.
Open Scope R_scope.

(** What is passed to minimize.  Bounds are per coordinate, None for an infinite bound.  A constraint of type 'eq' asks
    each component to be 0, one of type 'ineq' asks each component to be non-negative; [c_dim] is the number of
    components. *)
Inductive constraint_type := Eq | Ineq.
(** portfolio_optimization.py 29-47, 118-120: the constraint dictionaries *)
Record constraint := Constraint { c_type : constraint_type; c_dim : nat; c_fun : vec -> vec }.
(** portfolio_optimization.py 54-62, 130-138: the arguments of minimize *)
Record problem := Problem {
  p_dim : nat; p_fun : vec -> R; p_jac : vec -> vec; p_x0 : vec;
  p_lower : option R; p_upper : option R; p_constraints : list constraint
}.
(** scipy.optimize.minimize *)
Definition optimizer := problem -> vec.

(** portfolio_optimization.py 7-12; min and max of no elements raise ValueError *)
Record portfolio_optimizer := PortfolioOptimizer { po_n : nat; po_mean : vec; po_cov : mat; po_min : R; po_max : R }.
(** portfolio_optimization.py 7-12: min(mean) *)
Fixpoint vmin (n : nat) (v : vec) : R := match n with O => v 0%nat | S n => Rmin (vmin n v) (v (S n)) end.
(** portfolio_optimization.py 7-12: max(mean) *)
Fixpoint vmax (n : nat) (v : vec) : R := match n with O => v 0%nat | S n => Rmax (vmax n v) (v (S n)) end.
(** portfolio_optimization.py 7-12 *)
Definition new_optimizer (n : nat) (mean : vec) (cov : mat) : res portfolio_optimizer :=
  match n with O => Err ValueError | S k => Ok (PortfolioOptimizer n mean cov (vmin k mean) (vmax k mean)) end.

(** portfolio_optimization.py 29-32, 34-35: [1.0, ..., 1.0] and the mean vector as the two rows, minus (1, target) *)
Definition return_constraint (o : portfolio_optimizer) (target : R) : constraint :=
  Constraint Eq 2 (fun w => vsub (mvec (po_n o) (fun r => match r with O => fun _ => 1 | _ => po_mean o end) w) (fun r => match r with O => 1 | _ => target end)).
(** portfolio_optimization.py 40-47 *)
Definition long_only_constraint (o : portfolio_optimizer) : constraint := Constraint Ineq (po_n o) (fun w => w).
(** portfolio_optimization.py 118-120 *)
Definition budget_constraint (o : portfolio_optimizer) : constraint := Constraint Eq 1 (fun w _ => dot (po_n o) (fun _ => 1) w - 1).
(** portfolio_optimization.py 60, 136 *)
Definition equal_weights (o : portfolio_optimizer) : vec := fun _ => 1 / INR (po_n o).
(** portfolio_optimization.py 48, 50, 132, 134 *)
Definition lower_bound (short : bool) : option R := if short then None else Some 0.
(** portfolio_optimization.py 48, 50, 132, 134 *)
Definition upper_bound (short : bool) : option R := if short then None else Some 1.

(** portfolio_optimization.py 23-65: the problem handed over *)
Definition variance_problem (o : portfolio_optimizer) (target : R) (short : bool) : problem :=
  Problem (po_n o)
    (fun w => dot (po_n o) w (mvec (po_n o) (po_cov o) w))
    (fun w => vscal 2 (mvec (po_n o) (po_cov o) w))
    (equal_weights o) (lower_bound short) (upper_bound short)
    (return_constraint o target :: (if short then [] else [long_only_constraint o])).
(** portfolio_optimization.py 23-65 *)
Definition find_minimum_variance_portfolio (minimize : optimizer) (o : portfolio_optimizer) (target : R) (short : bool) : vec :=
  minimize (variance_problem o target short).

(** portfolio_optimization.py 101-140: the problem handed over *)
Definition utility_problem (o : portfolio_optimizer) (wealth param : R) (short : bool) : problem :=
  Problem (po_n o)
    (fun w => - dot (po_n o) w (po_mean o) + dot (po_n o) w (mvec (po_n o) (po_cov o) w) * (param * wealth / 2))
    (fun w => vadd (fun i => - po_mean o i) (vscal (2 * (param * wealth / 2)) (mvec (po_n o) (po_cov o) w)))
    (equal_weights o) (lower_bound short) (upper_bound short) [budget_constraint o].
(** portfolio_optimization.py 101-140 *)
Definition find_maximum_utility_portfolio (minimize : optimizer) (o : portfolio_optimizer) (wealth param : R) (short : bool) : vec :=
  minimize (utility_problem o wealth param short).

(** np.arange(start, stop, step) for a step other than 0 (0 is left out): start + k step for k below
    ceil((stop - start) / step), nothing when that is not positive.  [up x] is the least integer above x. *)
Definition ceil (x : R) : Z := (1 - up (- x))%Z.
(** numpy np.arange(start, stop, step) *)
Definition arange (start stop step : R) : list R :=
  List.map (fun k => start + INR k * step) (seq 0 (Z.to_nat (ceil ((stop - start) / step)))).
(** portfolio_optimization.py 68-89: (returns, volatilities, weights); np.sqrt of a negative number (nan) is left out *)
Definition efficient_frontier (minimize : optimizer) (o : portfolio_optimizer) (lower upper : option R) (inc : R) (short : bool) : list R * list R * list vec :=
  let lo := match lower with Some l => l | None => po_min o + inc end in
  let hi := match upper with Some u => u | None => po_max o - inc end in
  let returns := arange lo (hi + inc) inc in
  let weights := List.map (fun t => find_minimum_variance_portfolio minimize o t short) returns in
  (returns, List.map (fun w => sqrt (dot (po_n o) w (mvec (po_n o) (po_cov o) w))) weights, weights).
(** portfolio_optimization.py 91-99; division by a zero volatility (inf or nan) is left out *)
Definition sharpe_ratio (returns volatilities : list R) (risk_free : R) : list R :=
  List.map (fun rv => (fst rv - risk_free) / snd rv) (combine returns volatilities).
