(** Small independent specification of the calendar and of the US holiday rules, in terms of (year, month, day,
    weekday) only.  Nothing here is used by the model of the code. *)
From Coq Require Import ZArith List Bool.
Import ListNotations.
Open Scope Z_scope.

Definition leap_year (y : Z) : Prop := (4 | y) /\ (~ (100 | y) \/ (400 | y)).

Inductive month_length (y : Z) : Z -> Z -> Prop :=
| ML31 m : In m [1; 3; 5; 7; 8; 10; 12] -> month_length y m 31
| ML30 m : In m [4; 6; 9; 11] -> month_length y m 30
| ML29 : leap_year y -> month_length y 2 29
| ML28 : ~ leap_year y -> month_length y 2 28.

(** The day after (y, m, d). *)
Inductive next_day : Z * Z * Z -> Z * Z * Z -> Prop :=
| ND_day y m d l : month_length y m l -> d < l -> next_day (y, m, d) (y, m, d + 1)
| ND_month y m d : month_length y m d -> m < 12 -> next_day (y, m, d) (y, m + 1, 1)
| ND_year y d : month_length y 12 d -> next_day (y, 12, d) (y + 1, 1, 1).

(** Observance within the holiday's own year of a holiday fixed on day [hd] of month [hm]:
    weekday: itself; Saturday: the Friday before; Sunday: the Monday after.  (weekday: 0 = Monday) *)
Definition fixed_observed (hm hd m d w : Z) : bool :=
  (m =? hm) && (((d =? hd) && (w <=? 4)) || ((d =? hd - 1) && (w =? 4)) || ((d =? hd + 1) && (w =? 0))).
(** n-th weekday [hw] of month [hm]: days 7(n-1)+1 .. 7n *)
Definition nth_observed (hm hw n m d w : Z) : bool :=
  (m =? hm) && (w =? hw) && (7 * (n - 1) <? d) && (d <=? 7 * n).

(** US federal holidays as documented in holidays.py 65-77 (comments), observed within their own year. *)
Definition us_observed (m d w : Z) : bool :=
  fixed_observed 1 1 m d w       (* New Year *)
  || fixed_observed 1 17 m d w   (* MLK, as documented: Jan 17th *)
  || nth_observed 2 0 3 m d w    (* Presidents: third Monday of February *)
  || fixed_observed 5 30 m d w   (* Memorial, as documented: May 30th *)
  || fixed_observed 6 19 m d w   (* Juneteenth *)
  || fixed_observed 7 4 m d w    (* Independence *)
  || nth_observed 9 0 1 m d w    (* Labor: first Monday of September *)
  || nth_observed 10 0 2 m d w   (* Columbus: second Monday of October *)
  || fixed_observed 11 11 m d w  (* Veterans *)
  || nth_observed 11 3 4 m d w   (* Thanksgiving: fourth Thursday of November *)
  || fixed_observed 12 25 m d w. (* Christmas *)

Definition us_business (m d w : Z) : bool := (w <=? 4) && negb (us_observed m d w).
