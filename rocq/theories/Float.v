(** IEEE-754 binary64, the type float of CPython, taken from Flocq (no payload in NaN); rounding to nearest, ties to even.
    The rest of the model computes with exact numbers; the files whose name begins with Float compute as the program does. *)
From Verif Require Import Base.
From Coq Require Import Reals.
From Flocq Require Import Core BinarySingleNaN.
Open Scope Z_scope.

(** float *)
Definition f64 := binary_float 53 1024.
(** 53 bits *)
Definition prec_gt : Prec_gt_0 53 := eq_refl.
(** exponents up to 1024 *)
Definition prec_lt : Prec_lt_emax 53 1024 := eq_refl.

(** m * 2^e rounded: float(n) is [flit n 0], and a literal such as 365.25 is [flit 1461 (-2)]. float(n) raises OverflowError
    for |n| >= 2^1024, which the numbers of the program stay far below. *)
Definition flit (m e : Z) : f64 := binary_normalize 53 1024 prec_gt prec_lt mode_NE m e false.
(** float(n) *)
Definition of_int (n : Z) : f64 := flit n 0.
(** x + y *)
Definition fadd (x y : f64) : f64 := @Bplus 53 1024 prec_gt prec_lt mode_NE x y.
(** x - y *)
Definition fsub (x y : f64) : f64 := @Bminus 53 1024 prec_gt prec_lt mode_NE x y.
(** x * y *)
Definition fmul (x y : f64) : f64 := @Bmult 53 1024 prec_gt prec_lt mode_NE x y.
(** x == 0 *)
Definition fzero (x : f64) : bool := match x with B754_zero _ => true | _ => false end.
(** x / y: ZeroDivisionError for a zero divisor *)
Definition fdiv (x y : f64) : res f64 :=
  if fzero y then Err ZeroDivisionError else Ok (@Bdiv 53 1024 prec_gt prec_lt mode_NE x y).
(** n / m for ints (CPython's long_true_divide: the correctly rounded quotient; for ints up to 2^53, as here, it converts both
    and divides) *)
Definition int_div (n m : Z) : res f64 := fdiv (of_int n) (of_int m).
(** x < y *)
Definition flt (x y : f64) : bool := Bltb x y.
(** x <= y *)
Definition fle (x y : f64) : bool := Bleb x y.
(** x == y *)
Definition feq (x y : f64) : bool := Beqb x y.
