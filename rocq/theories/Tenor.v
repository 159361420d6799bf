(** Model of the tenor strings of us_treasury_instruments.py 199-216, corporate_bond.py 164-180 and interest_rate_swap.py
    159-179: length = int(tenor[slice(-1)]), then a match on tenor[-1].  Strings are ASCII.  Left out: CPython's limit of 4300
    digits (a ValueError). *)
From Verif Require Import Base Bond.
From Coq Require Import Ascii.
Open Scope Z_scope.

(** CPython Objects/longobject.c PyLong_FromString: Py_ISSPACE *)
Definition is_space (c : ascii) : bool := let n := nat_of_ascii c in ((9 <=? n) && (n <=? 13) || (n =? 32))%nat.
(** longobject.c: _PyLong_DigitValue for base 10 *)
Definition digit (c : ascii) : option Z := let n := nat_of_ascii c in if ((48 <=? n) && (n <=? 57))%nat then Some (Z.of_nat n - 48) else None.
(** longobject.c: while Py_ISSPACE( *str) ++str *)
Fixpoint skip_spaces (l : list ascii) : list ascii :=
  match l with
  | c :: l' => if is_space c then skip_spaces l' else l
  | [] => []
  end.
(** longobject.c long_from_string_base: digits with single underscores between them; None for a syntax error *)
Fixpoint scan_digits (after_digit : bool) (v : Z) (l : list ascii) : option (Z * list ascii) :=
  match l with
  | c :: l' =>
      match digit c with
      | Some k => scan_digits true (10 * v + k) l'
      | None => if Ascii.eqb c "_" then (if after_digit then scan_digits false v l' else None)
                else if after_digit then Some (v, l) else None
      end
  | [] => if after_digit then Some (v, []) else None
  end.
(** int(s) in base 10: spaces, an optional sign, digits, spaces; ValueError otherwise *)
Definition int_of_str (l : list ascii) : res Z :=
  let l := skip_spaces l in
  let '(sg, l) := match l with c :: l' => if Ascii.eqb c "+" then (1, l') else if Ascii.eqb c "-" then (-1, l') else (1, l) | [] => (1, l) end in
  match scan_digits false 0 l with
  | Some (v, rest) => match skip_spaces rest with [] => Ok (sg * v) | _ => Err ValueError end
  | None => Err ValueError
  end.
(** us_treasury_instruments.py 204-214, corporate_bond.py 168-178, interest_rate_swap.py 167-177.  int('') raises before tenor[-1] is looked at. *)
Definition parse_tenor (s : string) : tenor :=
  let l := list_ascii_of_string s in
  match int_of_str (removelast l) with
  | Err _ => BadTenor
  | Ok n => let u := last l Ascii.zero in if Ascii.eqb u "Y" then Years n else if Ascii.eqb u "M" then Months n else BadTenor
  end.
(** UsTreasuryBond(..., tenor=s, ...) and FixedRateBond *)
Definition with_tenor (s : string) (a : bond_args) : bond_args :=
  BondArgs (cls a) (price a) (coupon_rate a) (principal a) (parse_tenor s) (purchase_date a) (maturity_date a) (b_settlement a) (freq a) (b_dcc a) (b_adjust a) (b_cal a).
(** us_treasury_instruments.py 50-78 on a tenor string *)
Definition new_bond_str (s : string) (a : bond_args) : res bond := new_bond (with_tenor s a).
