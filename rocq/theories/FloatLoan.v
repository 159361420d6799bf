(** Model of fixedIncome/src/assets/credit/loan.py in binary64: the amortisation schedule.  Dates are those of Loan.v. *)
From Verif Require Import Base PyDate DayCount Scheduler Loan Float FloatDayCount.
Open Scope Z_scope.

(** loan.py 20-23 with base_cashflow.py 18-21, amounts as doubles *)
Record f_loan_payment := FLoanPayment { flp_date : date; flp_payment : f64; flp_principal : f64; flp_interest : f64 }.
(** loan.py 28-44: the amounts as doubles (an int principal is taken as already converted); of [fl_terms] only the dates, day
    count, frequency and payment time are read *)
Record f_loan := FLoan { fl_terms : loan; fl_principal : f64; fl_rate : f64 }.

(** loan.py 112-123: None, a float, or an iterable of floats *)
Inductive f_extra := FNoExtra | FFloatExtra (x : f64) | FListExtra (l : list f64).
(** loan.py 112-123 *)
Definition f_unpack_extra (x : f_extra) (n : nat) : list f64 :=
  match x with
  | FNoExtra => repeat (of_int 0) n
  | FFloatExtra x => repeat x n
  | FListExtra l => if Nat.leb (List.length l) n then l ++ repeat (of_int 0) (n - List.length l) else firstn n l
  end.
(** loan.py 150-168: accrual_factor * interest_rate * principal *)
Definition f_calculate_interest_payment (l : f_loan) (s e : date) (rate principal : f64) : res f64 :=
  do a <- f_compute_accrual_length (Day s) (Day e) (l_dcc (fl_terms l)); Ok (fmul (fmul a rate) principal).
(** loan.py 125-145: the loop, over (extra, (start, end)); [pay] is payment_amount (reassigned on payoff), [rem] the
    remaining principal *)
Fixpoint f_amortize (l : f_loan) (periods : list (f64 * (date * date))) (pay rem : f64) : res (list f_loan_payment) :=
  match periods with
  | [] => Ok []
  | (x, (s, e)) :: rest =>
      do i <- f_calculate_interest_payment l s e (fl_rate l) rem;
      let pp := fadd (fsub pay i) x in
      if fle rem pp
      then do r <- f_amortize l rest (fadd rem i) (fsub rem rem); Ok (FLoanPayment e (fadd rem i) rem i :: r)
      else do r <- f_amortize l rest pay (fsub rem pp); Ok (FLoanPayment e pay pp i :: r)
  end.
(** loan.py 70-147 *)
Definition f_generate_payment_schedule (l : f_loan) (payment_amount : f64) (x : f_extra) : res (list f_loan_payment) :=
  do s <- schedule_start (fl_terms l);
  do e <- add_increment s (l_term (fl_terms l));
  do m <- loan_step (l_freq (fl_terms l));
  do dates <- payment_dates s e m;
  f_amortize l (combine (f_unpack_extra x (List.length dates)) (pairwise dates)) payment_amount (fl_principal l).
