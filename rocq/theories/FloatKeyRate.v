(** Model of the values of fixedIncome/src/risk/key_rate.py with Python's floats. The objects (dates, conventions, captured
    dates) are those of KeyRate.v; the bump of a key rate, there an exact number, is here a float given beside it. *)
From Verif Require Import Base PyDate DayCount KeyRate Float FloatDayCount.
From Flocq Require Import BinarySingleNaN.
Open Scope Z_scope.

(** accrual between two plain dates *)
Definition f_acc (c : dcc) (s e : date) : res f64 := f_compute_accrual_length (Day s) (Day e) c.

(** key_rate.py 178-246 *)
Definition f_adjustment (c : dcc) (bump : f64) (captured : option date * date * option date) (d : date) : res f64 :=
  let '(prior, middle, next) := captured in
  match prior, next with
  | None, following =>
      if d <=? middle then Ok bump
      else match following with
           | None => Err TypeError
           | Some f =>
               if f <=? d then Ok (of_int 0)
               else do t <- f_acc c d f; do total <- f_acc c middle f; do r <- fdiv t total; Ok (fmul bump r)
           end
  | Some p, None =>
      if middle <=? d then Ok bump
      else if d <=? p then Ok (of_int 0)
      else do t <- f_acc c p d; do total <- f_acc c p middle; do r <- fdiv t total; Ok (fmul r bump)
  | Some p, Some f =>
      if (f <=? d) || (d <=? p) then Ok (of_int 0)
      else if d <=? middle then do t <- f_acc c p d; do total <- f_acc c p middle; do r <- fdiv t total; Ok (fmul r bump)
      else do t <- f_acc c d f; do total <- f_acc c middle f; do r <- fdiv t total; Ok (fmul r bump)
  end.

(** key_rate.py 90-99; [bump] is its bump_val *)
Definition f_kr_call (bump : f64) (k : kr) (d : date) : res f64 := f_adjustment (kr_dcc k) bump (kr_fun k) d.

(** sum() of floats: the int 0, then one float addition per term (CPython up to 3.11; 3.12 adds the rounding errors back at
    the end, see [f_sum_compensated]) *)
Definition f_sum (xs : list f64) : f64 := fold_left fadd xs (of_int 0).

(** one step of CPython 3.12's sum: high and low part *)
Definition cs_add (t : f64 * f64) (x : f64) : f64 * f64 :=
  let '(hi, lo) := t in
  let s := fadd hi x in
  let e := if fle (@Babs 53 1024 x) (@Babs 53 1024 hi) then fadd (fsub hi s) x else fadd (fsub x s) hi in
  (s, fadd lo e).
(** sum() of floats in CPython 3.12 and later (bltinmodule.c, cs_add and cs_to_double) *)
Definition f_sum_compensated (xs : list f64) : f64 :=
  let '(hi, lo) := fold_left cs_add xs (of_int 0, of_int 0) in
  if negb (fzero lo) && is_finite lo then fadd hi lo else hi.

(** key_rate.py 496-504, all key rates having the bump [bump], with [total] for sum *)
Definition f_coll_call (total : list f64 -> f64) (bump : f64) (h : heap) (col : collection) (d : date) : res f64 :=
  do vs <- mapM (fun a => f_kr_call bump (h a) d) col; Ok (total vs).
