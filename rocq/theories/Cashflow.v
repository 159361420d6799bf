(** Model of fixedIncome/src/assets/base_cashflow.py and portfolio/base_portfolio.py. *)
From Verif Require Import Base PyClass PyDate DayCount PyList KeyRate Curve.
Open Scope Z_scope.

(** base_cashflow.py 18-21 *)
Record payment := Payment { payment_date : date; amount : option R }.

(** base_cashflow.py 24-31: a cashflow is its schedule *)
Definition cashflow := list payment.

(** base_cashflow.py 26-27 *)
Definition new_cashflow (l : list payment) : cashflow := sort_by payment_date l.

(** base_cashflow.py 36-37 *)
Definition cf_len (c : cashflow) : nat := List.length c.

(** base_cashflow.py 39-46: integer index, and slice i:j of non-negative bounds (a new cashflow) *)
Definition cf_getitem (c : cashflow) (i : Z) : res payment :=
  do n <- py_index c i; match nth_error c n with Some p => Ok p | None => Err IndexError end.
(** base_cashflow.py 39-46 *)
Definition cf_getslice (c : cashflow) (i j : nat) : cashflow := new_cashflow (slice i j c).

(** base_cashflow.py 48-54 *)
Definition get_payment_amounts (c : cashflow) : list (option R) := List.map amount c.
(** base_cashflow.py 52-54 *)
Definition get_payment_dates (c : cashflow) : list date := List.map payment_date c.

(** base_cashflow.py 56-60 *)
Definition add_payment (p : payment) (c : cashflow) : cashflow := insort payment_date p c.

(** Python's sum, from 0 *)
Definition rsum (l : list R) : R := fold_left Rplus l 0%R.

(** base_cashflow.py 79-90 *)
Definition create_from_iterables (dates : list date) (amounts : list (option R)) : res cashflow :=
  if Nat.eqb (List.length dates) (List.length amounts)
  then Ok (new_cashflow (List.map (fun p => Payment (fst p) (snd p)) (combine dates amounts)))
  else Err ValueError.

Section Splines.
Variable spline : interp_method -> list (Q * R) -> Q -> R.

(** base_cashflow.py 70-77: the terms of the sum, in order *)
Fixpoint pv_terms (c : cashflow) (dc : curve) : res (list R) :=
  match c with
  | [] => Ok []
  | p :: c' =>
      match amount p with
      | None => pv_terms c' dc
      | Some a =>
          if c_ref dc <=? payment_date p
          then do df <- interpolate spline dc (payment_date p) None; do l <- pv_terms c' dc; Ok ((df * a)%R :: l)
          else pv_terms c' dc
      end
  end.
(** base_cashflow.py 70-77 *)
Definition cf_present_value (c : cashflow) (dc : curve) : res R := do l <- pv_terms c dc; Ok (rsum l).
End Splines.

(** base_cashflow.py 92-99 *)
Inductive cf_key := SINGLE_PAYMENT | COUPON_PAYMENTS | FIXED_LEG | FLOATING_LEG | PROTECTION_LEG | PREMIUM_LEG | MARK_TO_MARKET.
(** base_cashflow.py 92-99: equality of the dictionary keys *)
Definition key_eqb (a b : cf_key) : bool :=
  match a, b with
  | SINGLE_PAYMENT, SINGLE_PAYMENT | COUPON_PAYMENTS, COUPON_PAYMENTS | FIXED_LEG, FIXED_LEG | FLOATING_LEG, FLOATING_LEG
  | PROTECTION_LEG, PROTECTION_LEG | PREMIUM_LEG, PREMIUM_LEG | MARK_TO_MARKET, MARK_TO_MARKET => true
  | _, _ => false
  end.

(** A Python dict: insertion ordered, assignment to a present key keeps its place. *)
Definition dict := list (cf_key * option cashflow).
(** Python dict: d[k] = v *)
Fixpoint dict_set (d : dict) (k : cf_key) (v : option cashflow) : dict :=
  match d with
  | [] => [(k, v)]
  | (k', v') :: d => if key_eqb k' k then (k', v) :: d else (k', v') :: dict_set d k v
  end.
(** Python dict: d.get(k); outer None for a missing key *)
Fixpoint dict_get (d : dict) (k : cf_key) : option (option cashflow) :=
  match d with
  | [] => None
  | (k', v) :: d => if key_eqb k' k then Some v else dict_get d k
  end.

(** base_cashflow.py 106-110: attributes *)
Record cf_collection := CFC { cfc_list : list (option cashflow); cfc_keys : list cf_key; cfc_dict : dict }.
(** base_cashflow.py 106-110: zip stops at the shorter *)
Definition new_cf_collection (l : list (option cashflow)) (keys : list cf_key) : cf_collection :=
  CFC l keys (fold_left (fun d p => dict_set d (fst p) (snd p)) (combine keys l) []).
(** base_cashflow.py 112-114 *)
Definition cfc_len (c : cf_collection) : nat := List.length (cfc_dict c).
(** base_cashflow.py 116-121 *)
Definition cfc_contains (c : cf_collection) (k : cf_key) : bool := match dict_get (cfc_dict c) k with Some _ => true | None => false end.
(** base_cashflow.py 122-124: iter() of a dict view that is no iterator *)
Definition cfc_iter (c : cf_collection) : res (list (cf_key * option cashflow)) := Err TypeError.
(** base_cashflow.py 126-134: on a missing key [item.value] (an int) is looked up, which is missing too: KeyError *)
Definition cfc_getitem (c : cf_collection) (k : cf_key) : res (option cashflow) :=
  match dict_get (cfc_dict c) k with Some v => Ok v | None => Err KeyError end.
(** base_cashflow.py 136-145 *)
Definition cfc_setitem (k : cf_key) (v : option cashflow) (c : cf_collection) : cf_collection :=
  if cfc_contains c k then CFC (cfc_list c) (cfc_keys c) (dict_set (cfc_dict c) k v)
  else CFC (cfc_list c ++ [v]) (cfc_keys c ++ [k]) (dict_set (cfc_dict c) k v).

Open Scope string_scope.
(** collections.abc.Set *)
Definition set_class : pyclass := Class Root ["__contains__"; "__iter__"; "__len__"] ["__le__"; "__lt__"; "__gt__"; "__ge__"; "__eq__"].
(** base_cashflow.py 101-163 *)
Definition collection_class : pyclass :=
  Class set_class ["to_knot_value_pair"; "present_value"] ["__init__"; "__len__"; "__contains__"; "__iter__"; "__getitem__"; "__setitem__"].
Close Scope string_scope.

(** base_cashflow.py 166-173: ZeroCoupon *)
Record zero_coupon := ZeroCoupon { zc_date : date; zc_price : R; zc_cfs : cf_collection }.
(** base_cashflow.py 166-173 *)
Definition new_zero_coupon (d : date) (price : R) : zero_coupon :=
  ZeroCoupon d price (new_cf_collection [Some (new_cashflow [Payment d (Some 1%R)])] [SINGLE_PAYMENT]).
(** base_cashflow.py 183-188 *)
Definition zc_to_knot (z : zero_coupon) : knot_value := (zc_date z, zc_price z).
(** base_cashflow.py 190-195 *)
Definition zc_present_value spline (z : zero_coupon) (dc : curve) : res R :=
  do c <- cfc_getitem (zc_cfs z) SINGLE_PAYMENT;
  match c with Some c => cf_present_value spline c dc | None => Err AttributeError end.

(** portfolio/base_portfolio.py 8-20: entries (quantity, present_value method, knot date) and the cash amount *)
Record entry := Entry { quantity : R; asset_pv : instrument; asset_knot : date }.
(** base_portfolio.py 13-20 *)
Record portfolio := Portfolio { assets : list entry; cash_amount : R }.
(** base_portfolio.py 40-45 *)
Definition pf_present_value (p : portfolio) (dc : curve) : res R :=
  do l <- mapM (fun e => do v <- asset_pv e dc; Ok (quantity e * v)%R) (assets p);
  Ok (rsum l + cash_amount p)%R.
(** base_portfolio.py 47-55: one new key rate per asset (consecutive addresses from [a]), then the collection *)
Fixpoint alloc_key_rates (c : dcc) (l : list date) (a : addr) : prog (list addr) :=
  match l with
  | [] => ret []
  | d :: l => fun h => (let* r := alloc_key_rates c l (S a) in ret (a :: r)) (upd h a (new_key_rate c d None None))
  end.
(** base_portfolio.py 47-55 *)
Definition to_key_rate_collection (p : portfolio) (c : dcc) (fresh : addr) : prog collection :=
  let* l := alloc_key_rates c (List.map asset_knot (assets p)) fresh in new_collection l.
