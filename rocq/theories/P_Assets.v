(** Property theorems C76, C77, C80 (which instruments can be created; comparing instruments; stub instruments). *)
From Verif Require Import Base PyClass PyDate DayCount PyList KeyRate Curve Cashflow CashflowFacts Bond Assets.
From Coq Require Import Reals Permutation Sorted.
Open Scope Z_scope.

(** ---- C76: creating instruments ---- *)
(** What looking a method up finds: the definition in the most derived class that has one. *)
Inductive definition := Abstract | Concrete.
Fixpoint lookup (c : pyclass) (name : string) : option definition :=
  match c with
  | Root => None
  | Class b abs conc =>
      if existsb (String.eqb name) abs then Some Abstract
      else if existsb (String.eqb name) conc then Some Concrete else lookup b name
  end.

Lemma abstract_lookup c name : In name (abstract_methods c) <-> lookup c name = Some Abstract.
Proof.
  induction c as [|b IH abs conc]; cbn [abstract_methods lookup]; [split; [intros []|discriminate]|].
  rewrite in_app_iff, filter_In, IH, negb_true_iff, existsb_app, orb_false_iff.
  assert (E : existsb (String.eqb name) abs = true <-> In name abs).
  { rewrite existsb_exists. split; [intros (x & I & Q); apply String.eqb_eq in Q; subst; exact I|]. intros I. exists name. split; [exact I|apply String.eqb_refl]. }
  destruct (existsb (String.eqb name) abs).
  - split; [reflexivity|]. intros _. left. apply E. reflexivity.
  - split; [intros [I|[L [_ C]]]; [apply E in I; discriminate|rewrite C; exact L]|]. intros H.
    destruct (existsb (String.eqb name) conc) eqn:C; [discriminate|]. right. auto.
Qed.

(** A class can be instantiated exactly when every method it has, looked up, is a concrete one; otherwise calling it raises
    TypeError, whatever the arguments. *)
Theorem C76_rule : forall A c (init : res A),
  ((forall name, lookup c name <> Some Abstract) -> instantiate c init = init) /\
  ((exists name, lookup c name = Some Abstract) -> instantiate c init = Err TypeError).
Proof.
  intros A c init. unfold instantiate. split.
  - intros N. destruct (abstract_methods c) as [|s l] eqn:E; [reflexivity|]. exfalso. apply (N s). apply abstract_lookup. rewrite E. left. reflexivity.
  - intros (s & L). apply abstract_lookup in L. destruct (abstract_methods c) as [|s' l]; [destruct L|reflexivity].
Qed.
Print Assumptions C76_rule.

(** The instruments that can be created, and those that cannot. *)
Definition creatable : list pyclass :=
  [zero_coupon_class; treasury_bond_class; fixed_rate_bond_class; callable_bond_class; loan_class; term_swap_class; overnight_swap_class; one_month_future_class].
Definition not_creatable : list pyclass :=
  [collection_class; treasury_future_class; rate_future_class; three_month_future_class; fixed_to_float_bond_class; floating_rate_bond_class; fixed_to_float_swap_class].
Theorem C76_table : forall A (init : res A),
  Forall (fun c => instantiate c init = init) creatable /\ Forall (fun c => instantiate c init = Err TypeError) not_creatable.
Proof. intros A init. split; repeat constructor. Qed.
Print Assumptions C76_table.

(** A subclass of one of the latter (other than the swap) can be created exactly when it defines both the knot and the
    present value. *)
Theorem C76_completed : forall A (init : res A) c names, In c not_creatable -> c <> fixed_to_float_swap_class ->
  ((In "to_knot_value_pair" names /\ In "present_value" names)%string -> instantiate (Class c [] names) init = init) /\
  (~ (In "to_knot_value_pair" names /\ In "present_value" names)%string -> instantiate (Class c [] names) init = Err TypeError).
Proof.
  intros A init c names I N.
  assert (E : forall n, existsb (String.eqb n) names = true <-> In n names).
  { intros n. rewrite existsb_exists. split; [intros (x & J & Q); apply String.eqb_eq in Q; subst; exact J|]. intros J. exists n. split; [exact J|apply String.eqb_refl]. }
  assert (M : abstract_methods c = ["to_knot_value_pair"; "present_value"]%string).
  { repeat destruct I as [<- | I]; try reflexivity; [congruence|destruct I]. }
  unfold instantiate. cbn [abstract_methods app]. rewrite M. cbn [filter].
  rewrite <- !E. destruct (existsb (String.eqb "to_knot_value_pair") names), (existsb (String.eqb "present_value") names); cbn [negb]; split; intros H; try reflexivity; exfalso.
  - apply H. auto.
  - destruct H; discriminate.
  - destruct H; discriminate.
  - destruct H; discriminate.
Qed.
Print Assumptions C76_completed.
Example C76_case : instantiate (Class treasury_future_class [] ["present_value"; "to_knot_value_pair"]%string) (Ok 1) = Ok 1.
Proof. reflexivity. Qed.

(** ---- C77: comparing instruments ---- *)
(** No comparison of two instruments ever answers True.  Those that the numbers of cashflows decide answer False (or, for
    !=, True); all others raise TypeError, because iterating an instrument does. *)
Theorem C77_comparisons : forall a b : cf_collection,
  let n := cfc_len a in let m := cfc_len b in
  cfc_eq a b = (if Nat.eqb n m then Err TypeError else Ok false) /\
  cfc_ne a b = (if Nat.eqb n m then Err TypeError else Ok true) /\
  cfc_le a b = (if Nat.leb n m then Err TypeError else Ok false) /\
  cfc_ge a b = (if Nat.leb m n then Err TypeError else Ok false) /\
  cfc_lt a b = (if Nat.ltb n m then Err TypeError else Ok false) /\
  cfc_gt a b = (if Nat.ltb m n then Err TypeError else Ok false) /\
  cfc_isdisjoint a b = Err TypeError /\ cfc_hash a = Err TypeError.
Proof.
  intros a b. cbn zeta. unfold cfc_eq, cfc_ne, cfc_lt, cfc_gt, cfc_le, cfc_ge, cfc_eq, cfc_isdisjoint, all_in, cfc_iter, cfc_hash. cbn [bind].
  unfold cfc_eq, cfc_le, all_in, cfc_iter. cbn [bind].
  destruct (Nat.ltb_spec (cfc_len b) (cfc_len a)), (Nat.ltb_spec (cfc_len a) (cfc_len b)), (Nat.eqb_spec (cfc_len a) (cfc_len b)), (Nat.leb_spec (cfc_len a) (cfc_len b)), (Nat.leb_spec (cfc_len b) (cfc_len a)); try lia; cbn [bind negb]; auto 20.
Qed.
Print Assumptions C77_comparisons.

(** In particular an instrument is not equal to itself. *)
Theorem C77_equality_refuted : forall a, cfc_eq a a = Err TypeError /\ cfc_ne a a = Err TypeError.
Proof. intros a. destruct (C77_comparisons a a) as (E & N & _). rewrite Nat.eqb_refl in E, N. auto. Qed.
Print Assumptions C77_equality_refuted.

(** Looking for an instrument in a Python list finds the object itself if no other with as many cashflows comes before it;
    otherwise it raises TypeError. *)
Theorem C77_in_list : forall objs l x,
  list_contains objs l x =
  match List.find (fun y => Nat.eqb y x || Nat.eqb (cfc_len (objs y)) (cfc_len (objs x))) l with
  | Some y => if Nat.eqb y x then Ok true else Err TypeError
  | None => Ok false
  end.
Proof.
  intros objs l x. induction l as [|y l IH]; [reflexivity|]. cbn [list_contains List.find]. destruct (Nat.eqb y x) eqn:E; cbn [orb]; [rewrite E; reflexivity|].
  rewrite (proj1 (C77_comparisons (objs y) (objs x))). destruct (Nat.eqb (cfc_len (objs y)) (cfc_len (objs x))); cbn [bind]; [rewrite E; reflexivity|exact IH].
Qed.
Print Assumptions C77_in_list.

Example C77_case : cfc_eq (zc_cfs (new_zero_coupon 738886 1%R)) (zc_cfs (new_zero_coupon 738886 1%R)) = Err TypeError.
Proof. reflexivity. Qed.

(** ---- C80: stub instruments ---- *)
(** A SOFR future has no present value, knot, last trading date or settlement rate, whatever the rates and curve. *)
Theorem C80_sofr_future : forall f dc rate k, sf_present_value f dc = Ok None /\ sf_to_knot f = Ok None /\ sf_last_trading_date f = Ok None /\
  sf_settlement_rate f rate = Err TypeError /\ sf_len f = Err AttributeError /\ sf_getitem f k = Err AttributeError.
Proof. intros. repeat split. Qed.
Print Assumptions C80_sofr_future.

(** So a portfolio that holds one, after assets that can be valued, raises TypeError when valued. *)
Theorem C80_portfolio : forall before q f d after cash dc, (forall e, In e before -> exists v, asset_pv e dc = Ok v) ->
  pf_present_value (Portfolio (before ++ sofr_entry q f d :: after) cash) dc = Err TypeError.
Proof.
  intros before q f d after cash dc. unfold pf_present_value. cbn [assets]. intros V.
  assert (M : mapM (fun e => do v <- asset_pv e dc; Ok (quantity e * v)%R) (before ++ sofr_entry q f d :: after) = Err TypeError).
  { induction before as [|e l IH]; [reflexivity|]. cbn [app mapM]. destruct (V e (or_introl eq_refl)) as [v ->]. cbn [bind].
    rewrite IH by (intros e' I; apply V; right; exact I). reflexivity. }
  rewrite M. reflexivity.
Qed.
Print Assumptions C80_portfolio.

(** A callable bond keeps its price and its calls in date order (calls of one date in the order given), and can do nothing
    else: every pricing method raises AttributeError, because FixedRateBond's constructor is never run. *)
Theorem C80_callable : forall price calls dc rate ref, let b := new_callable_bond price calls in
  cb_get_price b = Ok price /\ Permutation (cb_calls b) calls /\ StronglySorted Z.le (List.map fst (cb_calls b)) /\
  (forall k, filter (fun c => fst c =? k) (cb_calls b) = filter (fun c => fst c =? k) calls) /\
  cb_to_knot b = Err AttributeError /\ cb_present_value b dc = Err AttributeError /\ cb_get_full_price b ref = Err AttributeError /\
  cb_yield_to_maturity b ref = Err AttributeError /\ cb_discount_by_fixed_rate b rate ref = Err AttributeError /\ cb_accrued_interest b ref = Err AttributeError.
Proof.
  intros price calls dc rate ref b. split; [reflexivity|]. split; [apply sort_by_perm|]. split; [apply (sort_by_sorted fst)|].
  split; [intros k; apply (sort_by_stable fst)|]. repeat split; destruct ref; reflexivity.
Qed.
Print Assumptions C80_callable.
Example C80_case : cb_calls (new_callable_bond 100%R [(738886, 101%R); (738521, 102%R)]) = [(738521, 102%R); (738886, 101%R)].
Proof. reflexivity. Qed.

(** ---- C81: quote adjustments ---- *)
(** Adjustments never change a quote: without any (or without instruments) the curve is the unadjusted one, otherwise
    building it raises (AttributeError for numbers, TypeError for the pairs the signature asks for). *)
Theorem C81_adjustments_refuted : forall knots adj m c s ref l r,
  new_adjusted_yield_curve knots adj m c s ref l r =
  match knots, adj with
  | _ :: _, Some (AdjNumber _ :: _) => Err AttributeError
  | _ :: _, Some (AdjPair _ :: _) => Err TypeError
  | _, _ => new_yield_curve knots m c s ref l r
  end.
Proof.
  intros. unfold new_adjusted_yield_curve. destruct knots as [|k knots]; [reflexivity|]. destruct adj as [[|[a|a] adj]|]; reflexivity.
Qed.
Print Assumptions C81_adjustments_refuted.
Example C81_case : exists y, new_adjusted_yield_curve [(738886, 5%R); (738986, 6%R)] None LINEAR ACT365 YIELD 738886 ERROR ERROR = Ok y /\
  new_adjusted_yield_curve [(738886, 5%R); (738986, 6%R)] (Some [AdjNumber 0%R]) LINEAR ACT365 YIELD 738886 ERROR ERROR = Err AttributeError.
Proof. eexists. split; reflexivity. Qed.
