(** Model of simulated paths in binary64: fixedIncome/src/stochastics/brownian_motion.py 124-165, base_processes.py 84-113 for the
    Vasicek model (vasicek_model.py 48-62) and geometric_brownian_motion.py 79-103.  Stochastic.v and Vasicek.v are the same
    programs over exact numbers.  The standard normal numbers drawn are a parameter, as there: [draw k j] is row j, column k. *)
From Verif Require Import Base PyDate DayCount Loan Stochastic Float FloatDayCount.
From Flocq Require Import BinarySingleNaN.
Open Scope Z_scope.

(** an array of floats *)
Definition f_vec := nat -> f64.
(** numpy.sqrt: the correctly rounded square root, NaN for a negative number *)
Definition f_sqrt (x : f64) : f64 := @Bsqrt 53 1024 prec_gt prec_lt mode_NE x.

(** brownian_motion.py 70-86: the attributes used; [fb_chol] is lower_triangular_mat *)
Record f_brownian := FBrownian { fb_start : datetime; fb_end : datetime; fb_dim : nat; fb_chol : nat -> nat -> f64; fb_dcc : dcc }.

Section Blas.
(** numpy's @ on two one-dimensional arrays of the given length, or on a row and a column: the order of the additions, and whether
    they are fused with the multiplications, is up to the library; its accuracy is a hypothesis of the theorems *)
Variable fdot : nat -> f_vec -> f_vec -> f64.

(** brownian_motion.py 148-149: column k is L @ (z_k * sqrt(dt_k)) *)
Definition f_increment_column (b : f_brownian) (draw : nat -> f_vec) (k : nat) (dt : f64) : f_vec :=
  fun i => fdot (fb_dim b) (fb_chol b i) (fun j => fmul (draw k j) (f_sqrt dt)).
(** brownian_motion.py 148-149 *)
Fixpoint f_columns_from (b : f_brownian) (draw : nat -> f_vec) (k : nat) (dts : list f64) : list f_vec :=
  match dts with [] => [] | dt :: dts => f_increment_column b draw k dt :: f_columns_from b draw (S k) dts end.
(** brownian_motion.py 124-150: the increments with the lengths of their time steps, without the assignments of attributes *)
Definition f_generate_increments (b : f_brownian) (dt : dt_step) (draw : nat -> f_vec) : res (list f_vec * list f64) :=
  do g <- generate_datetimes (fb_start b) (fb_end b) dt 1000000;
  match nth_error g (List.length g - 1) with
  | None => Err IndexError
  | Some last =>
    let g := if dt_ltb last (fb_end b) then g ++ [fb_end b] else g in
    do dts <- mapM (fun p => f_compute_accrual_length (Stamp (fst p)) (Stamp (snd p)) (fb_dcc b)) (pairwise g);
    Ok (f_columns_from b draw 0 dts, dts)
  end.

(** numpy.cumsum along the rows: the first column is copied, then each is added to the sum before it *)
Fixpoint f_cumsum_from (v : f_vec) (incs : list f_vec) : list f_vec :=
  match incs with [] => [v] | d :: incs => v :: f_cumsum_from (fun i => fadd (v i) (d i)) incs end.
(** brownian_motion.py 159-160: a column of zeros, then the running sums *)
Definition f_cumsum (incs : list f_vec) : list f_vec :=
  (fun _ => of_int 0) :: match incs with [] => [] | d :: incs => f_cumsum_from d incs end.
(** brownian_motion.py 152-165 *)
Definition f_bm_generate_path (b : f_brownian) (dt : dt_step) (draw : nat -> f_vec) : res (list f_vec) :=
  do r <- f_generate_increments b dt draw; Ok (f_cumsum (fst r)).

(** base_processes.py 98-106 with vasicek_model.py 55-59: one step of the Vasicek rate *)
Definition f_vasicek_step (level speed vol cur : f64) (shock : f_vec) (dt : f64) : f64 :=
  let drift_increment := fmul (fmul speed (fsub level cur)) dt in
  let diffusion_shock := fdot 1 (fun _ => vol) shock in
  fadd cur (fadd drift_increment diffusion_shock).
(** base_processes.py 95-109; the running time, which the model's drift ignores, is left out *)
Fixpoint f_vasicek_loop (level speed vol cur : f64) (steps : list (f_vec * f64)) : list f64 :=
  match steps with
  | [] => [cur]
  | (shock, dt) :: steps => cur :: f_vasicek_loop level speed vol (f_vasicek_step level speed vol cur shock dt) steps
  end.
(** base_processes.py 84-113 for the Vasicek model *)
Definition f_vasicek_path (level speed vol : f64) (b : f_brownian) (dt : dt_step) (start : f64) (draw : nat -> f_vec) : res (list f64) :=
  do r <- f_generate_increments b dt draw; Ok (f_vasicek_loop level speed vol start (combine (fst r) (snd r))).

(** geometric_brownian_motion.py 18-22, 94-96: one step of one component *)
Definition f_gbm_step (mu sigma cur shock dt : f64) : f64 :=
  let drift_increment := fmul (fmul mu cur) dt in
  let diffusion_shock := fmul (fmul sigma cur) shock in
  fadd (fadd cur drift_increment) diffusion_shock.
(** geometric_brownian_motion.py 91-99 *)
Fixpoint f_gbm_loop (mu sigma : f64) (cur : f_vec) (steps : list (f_vec * f64)) : list f_vec :=
  match steps with
  | [] => [cur]
  | (shock, dt) :: steps => cur :: f_gbm_loop mu sigma (fun i => f_gbm_step mu sigma (cur i) (shock i) dt) steps
  end.
(** geometric_brownian_motion.py 79-103, from an array *)
Definition f_gbm_path (mu sigma : f64) (b : f_brownian) (dt : dt_step) (start : f_vec) (draw : nat -> f_vec) : res (list f_vec) :=
  do r <- f_generate_increments b dt draw; Ok (f_gbm_loop mu sigma start (combine (fst r) (snd r))).
End Blas.
