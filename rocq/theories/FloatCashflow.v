(** Model of the present values of fixedIncome/src/assets/base_cashflow.py and portfolio/base_portfolio.py with Python's floats
    (Cashflow.v is the same program over exact numbers).  The discount curve is its reference date and what calling it with a date
    does: any callable.  [total] is the builtin sum of floats, [f_sum] or [f_sum_compensated] (FloatKeyRate.v). *)
From Verif Require Import Base PyDate PyList Float FloatKeyRate.
From Flocq Require Import BinarySingleNaN.
Open Scope Z_scope.

(** base_cashflow.py 18-21 *)
Record f_payment := FPayment { fp_date : date; fp_amount : option f64 }.
(** what present_value uses of a discount curve (base_curve.py 148-169) *)
Record f_discount := FDiscount { fd_ref : date; fd_call : date -> res f64 }.

(** base_cashflow.py 70-77: the terms of the sum, in order *)
Fixpoint f_pv_terms (c : list f_payment) (dc : f_discount) : res (list f64) :=
  match c with
  | [] => Ok []
  | p :: c' =>
      match fp_amount p with
      | None => f_pv_terms c' dc
      | Some a =>
          if fd_ref dc <=? fp_date p
          then do df <- fd_call dc (fp_date p); do l <- f_pv_terms c' dc; Ok (fmul df a :: l)
          else f_pv_terms c' dc
      end
  end.
(** base_cashflow.py 70-77; the int 0 of the sum of no terms is the float 0 here *)
Definition f_cf_present_value (total : list f64 -> f64) (c : list f_payment) (dc : f_discount) : res f64 :=
  do l <- f_pv_terms c dc; Ok (total l).

(** base_portfolio.py 8-20: quantity and present_value method *)
Record f_entry := FEntry { fe_quantity : f64; fe_pv : f_discount -> res f64 }.
(** base_portfolio.py 40-45 *)
Definition f_pf_present_value (total : list f64 -> f64) (l : list f_entry) (cash : f64) (dc : f_discount) : res f64 :=
  do ts <- mapM (fun e => do v <- fe_pv e dc; Ok (fmul (fe_quantity e) v)) l; Ok (fadd (total ts) cash).
