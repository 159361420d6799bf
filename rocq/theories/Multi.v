(** Model of fixedIncome/src/stochastics/short_rate_models/affine_yield_curve_models/vasicek_model.py:
    MultivariateVasicekModel, and of the three models built on it (doubly_mean_reverting_vasicek.py,
    trebly_mean_reverting_vasicek.py, stochastic_market_price_of_risk.py).
    Simplifications: array shapes agree where the code does not check them; the dictionaries price_state_variable_coeffs
    and yield_state_variable_coeffs are always rebuilt by a method before it reads them, so they are returned instead of
    stored; numpy float division by zero (a warning and inf or nan) is left unspecified and excluded by hypotheses; the
    eigenvalues are real.  numpy.linalg is a parameter with the contract [linalg_ok]. *)
From Verif Require Import Base PyClass PyDate DayCount PyList KeyRate Curve Loan RVec Stochastic ShortRate Vasicek.
From Coq Require Import Reals.
Open Scope Z_scope.

(** ---- numpy ---- *)
(** v @ M *)
Definition vmat (n : nat) (v : vec) (M : mat) : vec := fun j => sumn n (fun i => v i * M i j)%R.
(** c * v *)
Definition vscal (c : R) (v : vec) : vec := fun i => (c * v i)%R.
(** numpy a + b *)
Definition vadd (a b : vec) : vec := fun i => (a i + b i)%R.
(** numpy a - b *)
Definition vsub (a b : vec) : vec := fun i => (a i - b i)%R.
(** numpy A - B *)
Definition msub (A B : mat) : mat := fun i j => (A i j - B i j)%R.
(** np.diag of a vector *)
Definition diag (d : vec) : mat := fun i j => (delta i j * d i)%R.

(** numpy.linalg: eig gives (eigenvalues, eigenvectors in columns), None when they are not real (not modelled further);
    inv, solve and cholesky raise LinAlgError when they give None. *)
Record linalg := Linalg {
  la_eig : nat -> mat -> option (vec * mat); la_inv : nat -> mat -> option mat;
  la_solve : nat -> mat -> vec -> option vec; la_cholesky : nat -> mat -> option mat
}.
(** What is assumed of numpy.linalg.  cholesky reads the diagonal and below only and does not check symmetry. *)
Record linalg_ok (la : linalg) : Prop := LinalgOk {
  eig_ok : forall n K lam V, la_eig la n K = Some (lam, V) -> forall i j, (i < n)%nat -> (j < n)%nat -> mmul n K V i j = (V i j * lam j)%R;
  inv_ok : forall n V W, la_inv la n V = Some W -> forall i j, (i < n)%nat -> (j < n)%nat -> mmul n V W i j = delta i j /\ mmul n W V i j = delta i j;
  solve_ok : forall n M b w, la_solve la n M b = Some w -> forall i, (i < n)%nat -> mvec n M w i = b i;
  cholesky_ok : forall n M L, la_cholesky la n M = Some L -> forall i j, (i < n)%nat -> (j <= i)%nat -> mmul n L (tr L) i j = M i j;
  cholesky_lower : forall n M L, la_cholesky la n M = Some L -> forall i j, (i < j < n)%nat -> L i j = 0%R
}.
(** numpy raises LinAlgError when there is no answer *)
Definition or_lin {A} (o : option A) : res A := match o with Some a => Ok a | None => Err LinAlgError end.

(** ---- MultivariateVasicekModel ---- *)
(** vasicek_model.py 31-35 *)
Definition affine_function (n : nat) (g : vec) (mu : R) : vec -> R := fun x => (mu + dot n g x)%R.
(** vasicek_model.py 38-45 *)
Definition constant_pair (n : nat) (level speed diffusion : vec) : drift_diffusion :=
  DriftDiffusion (fun _ x => dot n speed (vsub level x)) (fun _ _ => diffusion).

(** vasicek_model.py 401-443: attributes *)
Record multi := Multi {
  mv_mu : R; mv_g : vec; mv_level : vec; mv_K : mat; mv_S : mat;
  mv_lam : vec; mv_V : mat; mv_Vi : mat; mv_C : mat; mv_model : short_rate
}.
(** vasicek_model.py 401-443; [rows] are the lengths of volatility_matrix, reversion_level and reversion_matrix *)
Definition new_multi (la : linalg) (mu : R) (g level : vec) (K S : mat) (rows : nat * nat * nat) (b : brownian) (dt : dt_step) : res multi :=
  let n := bm_dim b in
  let '(nS, nl, nK) := rows in
  if negb (Nat.eqb n nS && Nat.eqb n nl && Nat.eqb n nK) then Err AssertionError
  else match la_eig la n K with
       | None => Err ValueError
       | Some (lam, V) =>
         do Vi <- or_lin (la_inv la n V);
         let C := mmul n S (tr S) in
         let coll := map (fun i => constant_pair n level (K i) (S i)) (seq 0 n) in
         Ok (Multi mu g level K S lam V Vi C (new_short_rate (affine_function n g mu) (new_process coll b dt)))
       end.

(** vasicek_model.py 388-464: the number of state variables *)
Definition mv_n (m : multi) : nat := bm_dim (sr_bm (mv_model m)).
(** vasicek_model.py 388-464: start_date_time *)
Definition mv_start (m : multi) : datetime := bm_start (sr_bm (mv_model m)).
(** vasicek_model.py 388-464: day_count_convention *)
Definition mv_dcc (m : multi) : dcc := bm_dcc (sr_bm (mv_model m)).
(** "if purchase_date is None: purchase_date = self.start_date_time" *)
Definition mv_purchase (m : multi) (p : option datetime) : datetime := match p with Some p => p | None => mv_start m end.
(** self.state_variables_diffusion_process(purchase_date) *)
Definition mv_state (m : multi) (p : option datetime) : res vec := pr_call (sr_proc (mv_model m)) (mv_purchase m p).
(** vasicek_model.py: DayCountCalculator.compute_accrual_length from the purchase date, as every method begins *)
Definition mv_accrual (m : multi) (t : moment) (p : option datetime) : res R :=
  do q <- compute_accrual_length (Stamp (mv_purchase m p)) t (mv_dcc m); Ok (Q2R q).
(** maturity_date <= purchase_date: Python refuses to compare a date with a datetime *)
Definition matures_by (t : moment) (p : datetime) : res bool :=
  match t with Day _ => Err TypeError | Stamp t => Ok (dt_leb t p) end.

(** eigenvectors @ diag(exp(-eigenvalues * accrual)) @ eigenvectors_inv: 477-479, 699-702, 916-919 *)
Definition exp_reversion (m : multi) (a : R) : mat :=
  mmul (mv_n m) (mmul (mv_n m) (mv_V m) (diag (fun i => exp (- mv_lam m i * a)))) (mv_Vi m).
(** vasicek_model.py 685-687 *)
Definition reversion_inv (m : multi) : mat :=
  mmul (mv_n m) (mmul (mv_n m) (mv_V m) (diag (fun i => 1 / mv_lam m i)%R)) (mv_Vi m).

(** vasicek_model.py 467-483 *)
Definition expected_state (m : multi) (t : moment) (p : option datetime) : res vec :=
  do a <- mv_accrual m t p;
  let E := exp_reversion m a in
  do x <- mv_state m p;
  Ok (vadd (mvec (mv_n m) E x) (mvec (mv_n m) (msub delta E) (mv_level m))).
(** vasicek_model.py 486-496; the transformation is that of the base class *)
Definition mv_expected_short_rate (m : multi) (t : moment) (p : option datetime) : res R :=
  do x <- expected_state m t p; Ok (sr_f (mv_model m) x).
(** vasicek_model.py 498-521 *)
Definition mv_average_expected (m : multi) (t : moment) (p : option datetime) : res R :=
  do bad <- matures_by t (mv_purchase m p);
  if bad then Err ValueError
  else
    do a <- mv_accrual m t p;
    let d := fun i => ((1 - exp (- mv_lam m i * a)) / (mv_lam m i * a))%R in
    let avg := mmul (mv_n m) (mmul (mv_n m) (mv_V m) (diag d)) (mv_Vi m) in
    do x <- mv_state m p;
    let term1 := mvec (mv_n m) avg x in
    let term2 := vsub (mv_level m) (mvec (mv_n m) avg (mv_level m)) in
    Ok (sr_f (mv_model m) (vadd term1 term2)).
(** vasicek_model.py 523-540 *)
Definition state_covariance (m : multi) (t : moment) (p : option datetime) : res mat :=
  do a <- mv_accrual m t p;
  let s := fun i j : nat => (mv_lam m j + mv_lam m i)%R in
  let H := mmul (mv_n m) (mmul (mv_n m) (mv_Vi m) (mv_C m)) (mv_V m) in
  Ok (fun i j => ((1 - exp (- s i j * a)) * H i j / s i j)%R).
(** vasicek_model.py 543-554 *)
Definition mv_rate_variance (m : multi) (t : moment) (p : option datetime) : res R :=
  do c <- state_covariance m t p; Ok (dot (mv_n m) (vmat (mv_n m) (mv_g m) c) (mv_g m)).

(** vasicek_model.py 694-706 *)
Definition coefficient_term (m : multi) (a : R) : vec :=
  mvec (mv_n m) (mmul (mv_n m) (msub (tr (exp_reversion m a)) delta) (tr (reversion_inv m))) (mv_g m).
(** vasicek_model.py 708-744 *)
Definition intercept_term (m : multi) (a : R) : R :=
  let n := mv_n m in let V := mv_V m in let Vi := mv_Vi m in let C := mv_C m in let lam := mv_lam m in let g := mv_g m in
  let u := mvec n (tr (reversion_inv m)) g in
  let Dt := diag (fun i => (1 - exp (- lam i * a)) / lam i)%R in
  let tD := mmul n (mmul n V Dt) Vi in
  let M := mmul n (mmul n Vi C) (tr Vi) in
  let s := fun i j : nat => (lam j + lam i)%R in
  let F := fun i j => (M i j * (1 - exp (- s i j * a)) / s i j)%R in
  let inv := diag (fun i => 1 / lam i)%R in
  let int_1 := (- mv_mu m * a)%R in
  let int_2 := dot n g (vsub (mvec n tD (mv_level m)) (fun i => mv_level m i * a)%R) in
  let int_3_d := (dot n (vmat n (vscal (1 / 2) u) C) u * a)%R in
  let int_3_c := dot n (vmat n (vmat n (vscal (- (1 / 2)) u) tD) C) u in
  let int_3_b := dot n (vmat n (vmat n (vmat n (vmat n (vmat n (vscal (- (1 / 2)) u) C) (tr Vi)) Dt) inv) (tr V)) g in
  let int_3_a := dot n (vmat n (vmat n (vmat n (vmat n (vscal (1 / 2) u) V) F) inv) (tr V)) g in
  (int_1 + int_2 + (int_3_a + int_3_b + int_3_c + int_3_d))%R.
(** vasicek_model.py 677-692: (intercept, coefficients) *)
Definition mv_price_coeffs (m : multi) (t : moment) (p : option datetime) : res (R * vec) :=
  do a <- mv_accrual m t p; Ok (intercept_term m a, coefficient_term m a).
(** vasicek_model.py 557-569 *)
Definition mv_price (m : multi) (t : moment) (p : option datetime) : res R :=
  do ab <- mv_price_coeffs m t p; do x <- mv_state m p; Ok (exp (fst ab + dot (mv_n m) (snd ab) x)).
(** vasicek_model.py 571-582 *)
Definition price_gradient (m : multi) (t : moment) (p : option datetime) : res vec :=
  do P <- mv_price m t p; do ab <- mv_price_coeffs m t p; Ok (vscal P (snd ab)).

(** vasicek_model.py 584-614 *)
Definition riskless_weights (la : linalg) (m : multi) (ts : list moment) (p : option datetime) : res (list R) :=
  let n := mv_n m in
  if negb (Nat.eqb (List.length ts) (n + 1)) then Err AssertionError
  else match nth_error ts n with
       | None => Err IndexError
       | Some last =>
         do d_last <- price_gradient m last p;
         do cols <- mapM (fun t => do d <- price_gradient m t p; Ok (vsub d d_last)) (firstn n ts);
         let M := fun i j => nth j cols (fun _ => 0%R) i in
         do w <- or_lin (la_solve la n M (fun i => - d_last i)%R);
         let l := map w (seq 0 n) in
         Ok (l ++ [1 - fold_left Rplus l 0]%R)
       end.
(** vasicek_model.py 616-641 *)
Definition riskless_convexity (la : linalg) (m : multi) (ts : list moment) (p : option datetime) : res R :=
  let n := mv_n m in
  if negb (Nat.eqb (List.length ts) (n + 1)) then Err AssertionError
  else
    do ws <- riskless_weights la m ts p;
    do D <- (fix loop (l : list (R * moment)) (D : mat) : res mat :=
               match l with
               | [] => Ok D
               | (w, t) :: l =>
                 do P <- mv_price m t p; do ab <- mv_price_coeffs m t p;
                 loop l (fun i j => D i j + P * w * (snd ab i * snd ab j))%R
               end) (combine ws ts) (fun _ _ => 0%R);
    Ok (1 / 2 * sumn n (fun i => mmul n (mmul n (tr (mv_S m)) D) (mv_S m) i i))%R.

(** vasicek_model.py 659-674 *)
Definition mv_yield_coeffs (m : multi) (t : moment) (p : option datetime) : res (R * vec) :=
  do ab <- mv_price_coeffs m t p; do a <- mv_accrual m t p;
  Ok (- fst ab / a, fun i => - snd ab i / a)%R.
(** vasicek_model.py 643-656 *)
Definition mv_yield (m : multi) (t : moment) (p : option datetime) : res R :=
  do bad <- matures_by t (mv_purchase m p);
  if bad then Err ValueError
  else do x <- mv_state m p; do ab <- mv_yield_coeffs m t p; Ok (fst ab + dot (mv_n m) (snd ab) x)%R.
(** vasicek_model.py 769-780 *)
Definition mv_yield_convexity (m : multi) (t : moment) (p : option datetime) : res R :=
  do bad <- matures_by t (mv_purchase m p);
  if bad then Err ValueError
  else do y <- mv_yield m t p; do e <- mv_average_expected m t p; Ok (y - e)%R.
(** vasicek_model.py 782-801; [columns] are those of beta_mat *)
Definition gram (m : multi) (columns : list vec) : mat :=
  let beta := fun i j => nth j columns (fun _ => 0%R) i in
  mmul (mv_n m) (mmul (mv_n m) (tr beta) (mv_C m)) beta.
(** vasicek_model.py 782-801 *)
Definition yield_covariance (m : multi) (ts : list moment) (p : option datetime) : res mat :=
  do cols <- mapM (fun t => do ab <- mv_yield_coeffs m t p; Ok (snd ab)) ts; Ok (gram m cols).
(** math.sqrt *)
Definition msqrt (x : R) : res R := if Rlt_dec x 0 then Err ValueError else Ok (sqrt x).
(** vasicek_model.py 803-815 *)
Definition mv_yield_volatility (m : multi) (t : moment) (p : option datetime) : res R :=
  do c <- yield_covariance m [t] p; msqrt (c 0%nat 0%nat).
(** vasicek_model.py 746-767, maturities all datetimes *)
Definition mv_price_convexities (m : multi) (ts : list datetime) (p : option datetime) : res (list R) :=
  if some_matures_by ts (mv_purchase m p) then Err ValueError
  else
    do cov <- yield_covariance m (map Stamp ts) p;
    do accs <- mapM (fun t => mv_accrual m (Stamp t) p) ts;
    do prices <- mapM (fun t => mv_price m (Stamp t) p) ts;
    Ok (map (fun j => - (1 / 2) * nth j prices 0 * (nth j accs 0 * nth j accs 0) * cov j j)%R (seq 0 (List.length ts))).

(** vasicek_model.py 911-921: no transposition *)
Definition coefficient_deriv (m : multi) (a : R) : vec := fun i => (- mvec (mv_n m) (exp_reversion m a) (mv_g m) i)%R.
(** vasicek_model.py 923-931 *)
Definition intercept_deriv (m : multi) (B : vec) : R :=
  (- mv_mu m + dot (mv_n m) (vmat (mv_n m) B (mv_K m)) (mv_level m) + dot (mv_n m) (vmat (mv_n m) (vscal (1 / 2) B) (mv_C m)) B)%R.
(** vasicek_model.py 892-909 *)
Definition mv_coeff_derivs (m : multi) (t : moment) (p : option datetime) : res (R * vec) :=
  do ab <- mv_price_coeffs m t p; do a <- mv_accrual m t p;
  Ok (intercept_deriv m (snd ab), coefficient_deriv m a).
(** vasicek_model.py 817-829 *)
Definition mv_forward (m : multi) (t : moment) (p : option datetime) : res R :=
  do d <- mv_coeff_derivs m t p; do x <- mv_state m p; Ok (- fst d - dot (mv_n m) (snd d) x)%R.
(** vasicek_model.py 831-852, maturities all datetimes.  The yield coefficients computed first (849) are not used. *)
Definition forward_covariance (m : multi) (ts : list datetime) (p : option datetime) : res mat :=
  if some_matures_by ts (mv_purchase m p) then Err ValueError
  else
    do cols <- mapM (fun t => do _ <- mv_yield_coeffs m (Stamp t) p; do d <- mv_coeff_derivs m (Stamp t) p; Ok ((fun i => - snd d i)%R : vec)) ts;
    Ok (gram m cols).
(** vasicek_model.py 854-867 *)
Definition mv_forward_volatility (m : multi) (t : datetime) (p : option datetime) : res R :=
  do c <- forward_covariance m [t] p; msqrt (c 0%nat 0%nat).
(** vasicek_model.py 869-890 *)
Definition price_maturity_deriv (m : multi) (t : moment) (p : option datetime) : res R :=
  do d <- mv_coeff_derivs m t p; do P <- mv_price m t p; do x <- mv_state m p;
  Ok (P * (fst d + dot (mv_n m) (snd d) x))%R.

(** generate_path of the base class (base_short_rate_model.py 56-73) *)
Definition mv_generate (m : multi) (h : arrays) (start : nat) (set : bool) (draw : nat -> vec) : multi * arrays * res unit :=
  let '(s, h, r) := sr_generate_path (mv_model m) h start set draw in
  (Multi (mv_mu m) (mv_g m) (mv_level m) (mv_K m) (mv_S m) (mv_lam m) (mv_V m) (mv_Vi m) (mv_C m) s, h, r).

(** ---- classes ---- *)
Open Scope string_scope.
(** vasicek_model.py 445-464: the names defined with @abstractmethod *)
Definition calibration_names : list string :=
  ["parameter_calibration_dict"; "set_volatiltiy_parameters_from_dict"; "set_shape_parameters_from_dict"; "set_state_variables_from_dict"].
(** collections.abc.Callable; base_processes.py 24, 72; base_short_rate_model.py 18; names that play no part are left out *)
Definition callable_class : pyclass := Class Root ["__call__"] [].
(** base_processes.py 24 *)
Definition diffusion_class : pyclass := Class callable_class [] ["__call__"; "__init__"; "generate_path"].
(** base_short_rate_model.py 18 *)
Definition short_rate_class : pyclass := Class diffusion_class [] ["__call__"; "__init__"; "generate_path"].
(** vasicek_model.py 388-464 *)
Definition multi_class : pyclass := Class short_rate_class calibration_names ["__init__"].
(** doubly_mean_reverting_vasicek.py 18, 110-136 *)
Definition doubly_class : pyclass := Class multi_class [] ("__init__" :: calibration_names).
(** trebly_mean_reverting_vasicek.py 15; stochastic_market_price_of_risk.py 13 *)
Definition trebly_class : pyclass := Class multi_class [] ["__init__"].
(** stochastic_market_price_of_risk.py 13 *)
Definition market_price_class : pyclass := Class multi_class [] ["__init__"].
Close Scope string_scope.

(** np.array of rows *)
Definition vec_of (l : list R) : vec := fun i => nth i l 0%R.
(** numpy np.array(list of rows) *)
Definition mat_of (l : list (list R)) : mat := fun i j => nth j (nth i l []) 0%R.

(** ---- DoublyMeanRevertingVasicek ---- *)
(** doubly_mean_reverting_vasicek.py 27-66: attributes.  State variables: long-term level, short rate.
    [do_initial] is starting_state_variables, np.empty at first. *)
Record doubly := Doubly {
  do_speed : R; do_vol : R; do_mean : R; do_long_speed : R; do_long_vol : R; do_corr : R;
  do_initial : vec; do_vol_params : list R; do_shape_params : list R; do_state_params : list R; do_multi : multi
}.
(** doubly_mean_reverting_vasicek.py 27-80; [garbage] is what np.empty returns *)
Definition new_doubly (la : linalg) (garbage : vec) (speed vol mean long_speed long_vol corr : R) (s e : datetime) (dt : dt_step) : res doubly :=
  instantiate doubly_class
   (let K := mat_of [[long_speed; 0]; [- speed; speed]]%R in
    let across := (vol * long_vol * corr)%R in
    let variance := mat_of [[long_vol * long_vol; across]; [across; vol * vol]]%R in
    do S <- or_lin (la_cholesky la 2 variance);
    do L <- or_lin (la_cholesky la 2 delta);
    let b := new_brownian s e 2 L ACTACT in
    do m <- new_multi la 0 (vec_of [0; 1]%R) (vec_of [mean; mean]) K S (2, 2, 2)%nat b dt;
    Ok (Doubly speed vol mean long_speed long_vol corr garbage [long_speed; long_vol; speed; vol; corr] [mean] [garbage 0%nat; garbage 1%nat] m)).
(** doubly_mean_reverting_vasicek.py 82-108: (model with its path generated or the exception of the generation) *)
Definition doubly_from_parameters (la : linalg) (garbage : vec) (vol_params shape_params : list R) (s e : datetime) (dt : dt_step)
    (h : arrays) (start : nat) (draw : nat -> vec) : res (doubly * arrays) :=
  match vol_params, shape_params with
  | ls :: lv :: sp :: v :: c :: _, mean :: _ =>
    do d <- new_doubly la garbage sp v mean ls lv c s e dt;
    let '(m, h, r) := mv_generate (do_multi d) h start true draw in
    do _ <- r;
    Ok (Doubly (do_speed d) (do_vol d) (do_mean d) (do_long_speed d) (do_long_vol d) (do_corr d) (do_initial d) (do_vol_params d) (do_shape_params d) (do_state_params d) m, h)
  | _, _ => Err IndexError
  end.
(** the caller replaces the lists in the dictionary *)
Definition do_put (d : doubly) (vol_params shape_params state_params : list R) : doubly :=
  Doubly (do_speed d) (do_vol d) (do_mean d) (do_long_speed d) (do_long_vol d) (do_corr d) (do_initial d) vol_params shape_params state_params (do_multi d).
(** doubly_mean_reverting_vasicek.py 114-121, for five parameters *)
Definition doubly_set_vol (d : doubly) : res doubly :=
  match do_vol_params d with
  | ls :: lv :: sp :: v :: c :: _ => Ok (Doubly sp v (do_mean d) ls lv c (do_initial d) (do_vol_params d) (do_shape_params d) (do_state_params d) (do_multi d))
  | _ => Err IndexError
  end.
(** doubly_mean_reverting_vasicek.py 123-126 *)
Definition doubly_set_shape (d : doubly) : res doubly :=
  match do_shape_params d with
  | mean :: _ => Ok (Doubly (do_speed d) (do_vol d) mean (do_long_speed d) (do_long_vol d) (do_corr d) (do_initial d) (do_vol_params d) (do_shape_params d) (do_state_params d) (do_multi d))
  | [] => Err IndexError
  end.
(** doubly_mean_reverting_vasicek.py 127-131, for at most two values *)
Definition doubly_set_state (d : doubly) : res doubly :=
  let l := do_state_params d in
  if (2 <? Z.of_nat (List.length l)) then Err IndexError
  else Ok (Doubly (do_speed d) (do_vol d) (do_mean d) (do_long_speed d) (do_long_vol d) (do_corr d)
             (fun i => nth i l (do_initial d i)) (do_vol_params d) (do_shape_params d) (do_state_params d) (do_multi d)).

(** ---- TreblyMeanRevertingVasicek ---- *)
(** trebly_mean_reverting_vasicek.py 26-88: the body of __init__ (attributes kept by name only are left out).
    State variables: long-term, medium-term, short rate. *)
Definition trebly_init (la : linalg) (speed vol med_speed med_vol mean long_speed long_vol corr_sm corr_sl corr_ml : R) (s e : datetime) (dt : dt_step) : res multi :=
  do L <- or_lin (la_cholesky la 3 delta);
  let b := new_brownian s e 3 L ACTACT in
  let K := mat_of [[long_speed; 0; 0]; [- med_speed; med_speed; 0]; [0; - speed; speed]]%R in
  let variance := mat_of [[long_vol * long_vol; long_vol * med_vol * corr_ml; long_vol * vol * corr_sl];
                          [long_vol * med_vol * corr_ml; med_vol * med_vol; med_vol * vol * corr_sm];
                          [long_vol * vol * corr_sl; med_vol * vol * corr_sm; vol * vol]]%R in
  do S <- or_lin (la_cholesky la 3 variance);
  new_multi la 0 (vec_of [0; 0; 1]%R) (vec_of [mean; mean; mean]) K S (3, 3, 3)%nat b dt.
(** trebly_mean_reverting_vasicek.py 25-86 *)
Definition new_trebly (la : linalg) (speed vol med_speed med_vol mean long_speed long_vol corr_sm corr_sl corr_ml : R) (s e : datetime) (dt : dt_step) : res multi :=
  instantiate trebly_class (trebly_init la speed vol med_speed med_vol mean long_speed long_vol corr_sm corr_sl corr_ml s e dt).

(** ---- StochasticMarketPriceOfRisk ---- *)
(** stochastic_market_price_of_risk.py 26-97: the body of __init__.  State variables: market price of risk, medium rate,
    short rate. *)
Definition market_price_init (la : linalg) (speed vol med_speed med_vol med_mean risk_speed risk_vol risk_mean corr_sm corr_sr corr_mr : R) (s e : datetime) (dt : dt_step) : res multi :=
  do L <- or_lin (la_cholesky la 3 delta);
  let b := new_brownian s e 3 L ACTACT in
  let K := mat_of [[risk_speed; 0; 0]; [- med_vol; med_speed; 0]; [0; - speed; speed]]%R in
  do avg <- fdiv (med_vol * risk_mean) med_speed;
  let level := vec_of [risk_mean; med_mean + avg; med_mean + avg]%R in
  let variance := mat_of [[risk_vol * risk_vol; risk_vol * med_vol * corr_mr; risk_vol * vol * corr_sr];
                          [risk_vol * med_vol * corr_mr; med_vol * med_vol; med_vol * vol * corr_sm];
                          [risk_vol * vol * corr_sr; med_vol * vol * corr_sm; vol * vol]]%R in
  do S <- or_lin (la_cholesky la 3 variance);
  new_multi la 0 (vec_of [0; 0; 1]%R) level K S (3, 3, 3)%nat b dt.
(** stochastic_market_price_of_risk.py 25-95 *)
Definition new_market_price (la : linalg) (speed vol med_speed med_vol med_mean risk_speed risk_vol risk_mean corr_sm corr_sr corr_mr : R) (s e : datetime) (dt : dt_step) : res multi :=
  instantiate market_price_class (market_price_init la speed vol med_speed med_vol med_mean risk_speed risk_vol risk_mean corr_sm corr_sr corr_mr s e dt).
