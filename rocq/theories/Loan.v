(** Model of fixedIncome/src/assets/credit/loan.py. *)
From Verif Require Import Base PyDate DayCount Scheduler KeyRate Curve Bond.
Open Scope Z_scope.

(** schedule_enumerations.py 67-70 *)
Inductive payment_time := END_OF_MONTH | START_OF_MONTH | FIXED_DATE.

(** loan.py 20-23 with base_cashflow.py 18-21 *)
Record loan_payment := LoanPayment { lp_date : date; lp_payment : R; lp_principal : R; lp_interest : R }.

(** loan.py 28-44: attributes (the end date is computed by the constructor) *)
Record loan := Loan { l_principal : R; l_rate : R; l_origination : date; l_term : increment; l_dcc : dcc; l_freq : frequency; l_time : payment_time; l_end : date }.
(** loan.py 28-44 *)
Definition new_loan (principal rate : R) (orig : date) (term : increment) (c : dcc) (f : frequency) (t : payment_time) : res loan :=
  do e <- add_increment orig term; Ok (Loan principal rate orig term c f t e).

(** loan.py 51-66.  [**] on a non-positive base is outside the model, as in Bond.fixed_df. *)
Definition calculate_fixed_payment_amount (l : loan) : res R :=
  do years <- acc (l_dcc l) (l_origination l) (l_end l);
  let n := per_year (l_freq l) in
  if n =? 0 then Err ZeroDivisionError
  else
    let r := (l_rate l / IZR n)%R in
    if Rlt_dec 0 (1 + r) then
      let compound := Rpower (1 + r) (Q2R (years * inject_Z n)) in
      let numerator := (l_principal l * compound)%R in
      if Req_EM_T r 0 then Err ZeroDivisionError
      else
        let denominator := ((1 - compound) / - r)%R in
        if Req_EM_T denominator 0 then Err ZeroDivisionError else Ok (numerator / denominator)%R
    else Err ValueError.

(** loan.py 77-91: calendar.monthrange(year, 11) is November's: 30 days *)
Definition schedule_start (l : loan) : res date :=
  let d := l_origination l in
  match l_time l with
  | END_OF_MONTH => mk_date (year d) (month d) (days_in_month (year d) 11)
  | START_OF_MONTH => if month d =? 12 then mk_date (year d + 1) 1 1 else mk_date (year d) (month d + 1) 1
  | FIXED_DATE => Err ValueError
  end.

(** loan.py 95-105: months between payments *)
Definition loan_step (f : frequency) : res Z :=
  match f with MONTHLY => Ok 1 | QUARTERLY => Ok 3 | SEMI_ANNUAL => Ok 6 | ANNUAL => Ok 12 | ZERO_COUPON => Err ValueError end.

(** loan.py 107-110: the while loop; the date moves at least a day each step, so e - d + 2 tests suffice *)
Fixpoint while_le (fuel : nat) (d e : date) (m : Z) : res (list date) :=
  match fuel with
  | O => Err OutOfFuel
  | S fuel => if d <=? e then do d' <- add_months d m; do r <- while_le fuel d' e m; Ok (d :: r) else Ok []
  end.
(** loan.py 107-110 *)
Definition payment_dates (d e : date) (m : Z) : res (list date) := while_le (S (Z.to_nat (e - d + 1))) d e m.

(** loan.py 112-123: a float, a list, nothing; an int raises TypeError in list() *)
Inductive extra := NoExtra | FloatExtra (x : R) | ListExtra (l : list R) | IntExtra (x : Z).
(** loan.py 112-123 *)
Definition unpack_extra (x : extra) (n : nat) : res (list R) :=
  match x with
  | NoExtra => Ok (repeat 0%R n)
  | FloatExtra x => Ok (repeat x n)
  | ListExtra l => if Nat.leb (List.length l) n then Ok (l ++ repeat 0%R (n - List.length l)) else Ok (firstn n l)
  | IntExtra _ => Err TypeError
  end.

(** loan.py 150-168 *)
Definition calculate_interest_payment (l : loan) (s e : date) (rate principal : R) : res R :=
  do a <- acc (l_dcc l) s e; Ok (Q2R a * rate * principal)%R.

(** itertools.pairwise *)
Fixpoint pairwise {A} (l : list A) : list (A * A) :=
  match l with
  | a :: (b :: _) as l' => (a, b) :: pairwise l'
  | _ => []
  end.

(** loan.py 125-145: the loop, over (extra, (start, end)); [pay] is payment_amount (reassigned on payoff), [rem] the
    remaining principal *)
Fixpoint amortize (l : loan) (periods : list (R * (date * date))) (pay rem : R) : res (list loan_payment) :=
  match periods with
  | [] => Ok []
  | (x, (s, e)) :: rest =>
      do i <- calculate_interest_payment l s e (l_rate l) rem;
      let pp := (pay - i + x)%R in
      if Rle_dec rem pp
      then do r <- amortize l rest (rem + i)%R (rem - rem)%R; Ok (LoanPayment e (rem + i)%R rem i :: r)
      else do r <- amortize l rest pay (rem - pp)%R; Ok (LoanPayment e pay pp i :: r)
  end.

(** loan.py 70-147 *)
Definition generate_payment_schedule (l : loan) (payment_amount : R) (x : extra) : res (list loan_payment) :=
  do s <- schedule_start l;
  do e <- add_increment s (l_term l);
  do m <- loan_step (l_freq l);
  do dates <- payment_dates s e m;
  do extras <- unpack_extra x (List.length dates);
  amortize l (combine extras (pairwise dates)) payment_amount (l_principal l).

(** loan.py 191-194: generate_payment_schedule is called without its argument *)
Definition loan_present_value (l : loan) (dc : curve) : res R := Err TypeError.
