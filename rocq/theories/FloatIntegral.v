(** Model of the integrated short rate path in binary64: fixedIncome/src/stochastics/short_rate_models/base_short_rate_model.py
    86-120, 156-187 (ShortRate.v is the same program over exact numbers).  The value of self(datetime) - a lookup in the generated
    path, modelled in ShortRate.v - is a field: a double or an exception for each time. *)
From Verif Require Import Base PyDate DayCount Loan Stochastic Float FloatDayCount.
From Flocq Require Import BinarySingleNaN.
Open Scope Z_scope.

(** base_short_rate_model.py 20-35: what the integral reads *)
Record f_short_rate := FShortRate { fsr_start : datetime; fsr_end : datetime; fsr_dt : dt_step; fsr_dcc : dcc; fsr_rate : datetime -> res f64 }.

(** Python's min(a, b): the first unless the second is less *)
Definition f_min (a b : f64) : f64 := if flt b a then b else a.
(** Python's max(a, b): the first unless the second is greater *)
Definition f_max (a b : f64) : f64 := if flt a b then b else a.
(** base_short_rate_model.py 106, 111-114 *)
Definition f_trapezoid (a b accrual : f64) : res f64 :=
  let mn := f_min a b in let mx := f_max a b in
  if flt mn (of_int 0)
  then do h <- fdiv (fmul (fsub mn mx) accrual) (of_int 2); Ok (fadd (fmul mx accrual) h)
  else do h <- fdiv (fmul (fsub mx mn) accrual) (of_int 2); Ok (fadd (fmul mn accrual) h).
(** base_short_rate_model.py 104-117: old_time_accrual (101), the integer 0, is never updated *)
Fixpoint f_integral_loop (s : f_short_rate) (running : f64) (ps : list (datetime * datetime)) : res (list f64) :=
  match ps with
  | [] => Ok []
  | (t0, t1) :: ps =>
    do a <- fsr_rate s t0;
    do b <- fsr_rate s t1;
    do new <- f_compute_accrual_length (Stamp (fsr_start s)) (Stamp t1) (fsr_dcc s);
    do v <- f_trapezoid a b (fsub new (of_int 0));
    let running := fadd running v in
    do r <- f_integral_loop s running ps; Ok (running :: r)
  end.
(** base_short_rate_model.py 94-120, the path being there *)
Definition f_generate_integrated (s : f_short_rate) (l : option (list datetime)) : res (list f64) :=
  do ds <- match l with Some l => Ok l | None => generate_datetimes (fsr_start s) (fsr_end s) (fsr_dt s) 1000000 end;
  do r <- f_integral_loop s (of_int 0) (pairwise ds); Ok (of_int 0 :: r).

Section Libm.
(** numpy.exp: its accuracy is a hypothesis of the theorems *)
Variable ex : f64 -> res f64.
(** base_short_rate_model.py 174: np.exp(-self._integrated_path) *)
Definition f_discount_values (integrals : list f64) : res (list f64) := mapM (fun x => ex (Bopp x)) integrals.
End Libm.
