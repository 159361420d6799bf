(** Property theorems C39, C40, C61, C62, C63 (bond yields, received payments, curve prices, durations, futures). *)
From Verif Require Import Base PyClass LoopFacts PyDate PyDateFacts DayCount DayCountFacts Holidays Scheduler SchedulerFacts UsFacts ModFollFacts CalendarSpec PyList KeyRate KeyRateFacts Curve CurveFacts Cashflow CashflowFacts Bond BondFacts YieldFacts P_DayCount P_Scheduler P_Bond.
From Coq Require Import Sorting.Sorted Permutation Lra Lqa Reals Ranalysis.
Open Scope Z_scope.
Ltac lra := first [Lra.lra | Lqa.lra].
Ltac nra := first [Lra.nra | Lqa.nra].
Local Opaque add_business_days.

(** ---- Specification ---- *)
(** the payments whose unadjusted date is on or after sd *)
Definition remaining (b : bond) (sd : date) : list bond_payment := filter (fun p => sd <=? bp_unadjusted p) (coupons b ++ redemption b).
(** their amounts and times in years from ref *)
Definition remaining_flows (b : bond) (ref sd : date) (fl : list (R * R)) : Prop :=
  Forall2 (fun p f => fst f = bp_amount p /\
    exists q, compute_accrual_length (Day ref) (Day (bp_date p)) (b_dcc (args b)) = Ok q /\ snd f = Q2R q) (remaining b sd) fl.
(** flows (amount, years) at an annual rate compounded n times a year *)
Definition fixed_rate_price (n : Z) (fl : list (R * R)) (rate : R) : R :=
  rsum (List.map (fun f => fst f / Rpower (1 + rate / IZR n) (snd f * IZR n))%R fl).
(** 30/360 counts at least one day from s to a later e, except 28 to 29 February and 30th to 31st of one month *)
Definition countable (c : dcc) (s e : date) : Prop :=
  c <> THIRTY360 \/ ~ (year s = year e /\ month s = month e /\ ((month s = 2 /\ day s = 28 /\ day e = 29) \/ (day s = 30 /\ day e = 31))).

(** ---- the payments of a bond ---- *)
Lemma grid_dates_ok n : forall up d e i l, date_ok d -> grid_loop n up d e i = Ok l -> Forall date_ok l.
Proof.
  induction n as [|n IH]; intros up d e i l O; cbn [grid_loop]; [intros [= <-]; constructor|].
  destruct (if up then d <=? e else e <=? d); [|intros [= <-]; constructor].
  destruct (add_increment d i) as [d'|] eqn:A; cbn [bind]; [|discriminate].
  destruct (grid_loop n up d' e i) as [r|] eqn:G; cbn [bind]; [|discriminate]. intros [= <-]. constructor; auto.
  apply (IH up d' e i r); auto. destruct i as [k us|m k]; cbn [add_increment] in A.
  - apply add_days_ok in A. destruct A as [-> A]. exact A.
  - destruct (add_months d m); cbn [bind] in A; [|discriminate]. apply add_days_ok in A. destruct A as [-> A]. exact A.
Qed.

Lemma bond_payments a b : new_bond a = Ok b -> date_ok (maturity_date a) -> forall p, In p (coupons b ++ redemption b) ->
  date_ok (bp_unadjusted p) /\ adjustment_function a (bp_unadjusted p) = Ok (bp_date p) /\ bp_amount p = calculate_coupon_payment a \/
  date_ok (bp_unadjusted p) /\ adjustment_function a (bp_unadjusted p) = Ok (bp_date p) /\ bp_amount p = principal a.
Proof.
  intros B O p I. destruct (new_bond_inv _ _ B) as (_ & _ & _ & Ec & Ep & _). apply in_app_or in I. destruct I as [I|I].
  - left. apply coupons_spec in Ec. destruct (coupon_step (freq a)) as [[m|]|]; [|rewrite Ec in I; contradiction|contradiction].
    destruct Ec as (l & G & _ & P & _ & A). destruct (A p I) as [A1 A2]. split; [|auto].
    unfold generate_dates_by_increments in G. destruct (positive_increment _ _) as [up|]; cbn [bind] in G; [|discriminate].
    apply grid_dates_ok in G; auto. rewrite Forall_forall in G. apply G. apply (Permutation_in _ P). apply in_map. auto.
  - right. unfold create_principal_repayment_cashflow in Ep. destruct (adjustment_function a (maturity_date a)) as [d|] eqn:A; cbn [bind] in Ep; [|discriminate].
    injection Ep as Ep. rewrite <- Ep in I. destruct I as [<-|[]]. cbn. auto.
Qed.

Lemma redemption_is a b : new_bond a = Ok b -> exists d, adjustment_function a (maturity_date a) = Ok d /\ redemption b = [BondPayment d (principal a) (maturity_date a)].
Proof.
  intros B. destruct (new_bond_inv _ _ B) as (_ & _ & _ & _ & Ep & _). unfold create_principal_repayment_cashflow in Ep.
  destruct (adjustment_function a (maturity_date a)) as [d|]; cbn [bind] in Ep; [|discriminate]. injection Ep as Ep. eauto.
Qed.

(** a payment due on or after a business day is paid on or after it *)
Lemma paid_after a sd u r : isbd (b_cal a) sd -> date_ok u -> sd <= u -> adjustment_function a u = Ok r -> sd <= r.
Proof.
  intros B O L. unfold adjustment_function. destruct (b_adjust a).
  - unfold following_date_adjustment. rewrite add0. intros H. apply seek_up_iff in H; auto. destruct H as [H _]. lia.
  - intros H. apply mf_spec in H; auto. destruct H as (_ & c & F & [[_ ->] | [M P]]); [destruct F; lia|].
    destruct F as (Lc & Bc & N). destruct P as (Lr & Br & Nr).
    assert (sd < u \/ sd = u) as [Lt | ->] by lia.
    + destruct (Z_le_gt_dec sd r); auto. exfalso. apply (bd_excl (b_cal a) sd B). apply Nr. lia.
    + exfalso. assert (c = u \/ u < c) as [-> | Lu] by lia; [congruence|]. apply (bd_excl (b_cal a) u B). apply N. lia.
Qed.

Lemma t_plus_one cal ref sd : date_ok ref -> add_business_days ref 1 cal = Ok sd -> ref < sd /\ isbd cal sd.
Proof.
  intros O H. split; [|apply (abd_isbd cal 1 ref); auto]. apply abd_pos in H; [|auto|lia]. destruct H as (t & F & m & N & <-).
  destruct F as [F _]. destruct N as [N _]. lia.
Qed.

(** ---- C40 ---- *)
(** Which payments a buyer at ref receives: those whose unadjusted date is on or after the first business day after the
    T+0 date; without a date, on or after the bond's settlement date. *)
Theorem C40_received : forall b p ref sd, add_business_days ref 1 (b_cal (args b)) = Ok sd ->
  exists r, is_payment_received b p (Some ref) = Ok r /\ (r = true <-> sd <= bp_unadjusted p).
Proof.
  intros b p ref sd H. unfold is_payment_received. rewrite H. cbn [bind]. exists (sd <=? bp_unadjusted p). split; auto. lia.
Qed.
Theorem C40_received_at_settlement : forall b p,
  exists r, is_payment_received b p None = Ok r /\ (r = true <-> settlement_date b <= bp_unadjusted p).
Proof. intros b p. eexists. split; [reflexivity|]. cbn. lia. Qed.
Print Assumptions C40_received_at_settlement.
(** Received payments are paid strictly after ref, in a bond's own schedule. *)
Theorem C40_paid_later : forall a b p ref, new_bond a = Ok b -> date_ok (maturity_date a) -> date_ok ref ->
  In p (coupons b ++ redemption b) -> is_payment_received b p (Some ref) = Ok true -> ref < bp_date p.
Proof.
  intros a b p ref B Om Or I H. destruct (new_bond_inv _ _ B) as (Ea & _).
  assert (X : exists sd, add_business_days ref 1 (b_cal a) = Ok sd /\ sd <= bp_unadjusted p).
  { unfold is_payment_received in H. rewrite Ea in H. destruct (add_business_days ref 1 (b_cal a)) as [sd|]; cbn [bind] in H; [|discriminate].
    exists sd. split; [reflexivity|]. inversion H as [H']. apply Z.leb_le. exact H'. }
  destruct X as (sd & E & U). destruct (t_plus_one _ _ _ Or E) as [L Bd].
  assert (Lp : sd <= bp_date p).
  { destruct (bond_payments a b B Om p I) as [(O & A & _)|(O & A & _)]; exact (paid_after a sd (bp_unadjusted p) (bp_date p) Bd O U A). }
  exact (Z.lt_le_trans _ _ _ L Lp).
Qed.
(** Buying later never gains a payment. *)
Theorem C40_monotone : forall b p ref ref' r, date_ok ref -> date_ok ref' -> ref <= ref' ->
  is_payment_received b p (Some ref') = Ok true -> is_payment_received b p (Some ref) = Ok r -> r = true.
Proof.
  intros b p ref ref' r O O' L. unfold is_payment_received.
  destruct (add_business_days ref' 1 (b_cal (args b))) as [s'|] eqn:E'; cbn [bind]; [|discriminate].
  destruct (add_business_days ref 1 (b_cal (args b))) as [s|] eqn:E; cbn [bind]; [|discriminate]. intros H [= <-].
  pose proof (abd_mono _ _ _ _ _ _ O O' L E E'). injection H as H. lia.
Qed.
(** The settlement convention plays no part when a reference date is given: a T+3 bond bought on 9 August 2024 (settling
    14 August) and one bought T+1 (settling 12 August) count the same payments; with a coupon on 13 August the T+3
    buyer is credited a coupon that falls before settlement. *)
Theorem C40_convention_ignored_refuted : exists mat purch b p, mk_date 2026 2 13 = Ok mat /\ mk_date 2024 8 9 = Ok purch /\
  new_bond (BondArgs UsTreasury 99 5 100 (Years 3) purch mat T_PLUS_THREE_BUSINESS SEMI_ANNUAL ACTACT FOLLOWING US_FEDERAL_HOLIDAYS) = Ok b /\
  In p (coupons b) /\ is_payment_received b p (Some purch) = Ok true /\ bp_unadjusted p < settlement_date b /\ bp_date p < settlement_date b.
Proof.
  eexists. eexists. eexists. exists (BondPayment (ymd2ord 2024 8 13) (100 * 5 / (100 * 2))%R (ymd2ord 2024 8 13)).
  split; [vm_compute; reflexivity|]. split; [vm_compute; reflexivity|].
  split; [build_bond|]. split; [cbn; right; right; left; reflexivity|]. split; [vm_compute; reflexivity|]. split; vm_compute; reflexivity.
Qed.
Print Assumptions C40_received. Print Assumptions C40_paid_later. Print Assumptions C40_monotone. Print Assumptions C40_convention_ignored_refuted.

(** ---- C39: value ---- *)
Lemma add_discounted_spec b rate ref sd n l : per_year (freq (args b)) = n -> 0 < n -> (0 < 1 + rate / IZR n)%R ->
  add_business_days ref 1 (b_cal (args b)) = Ok sd -> forall pv,
  add_discounted b rate ref l pv =
  do ts <- mapM (fun p => acc (b_dcc (args b)) ref (bp_date p)) (filter (fun p => sd <=? bp_unadjusted p) l);
  Ok (pv + fixed_rate_price n (List.map (fun x => (bp_amount (fst x), Q2R (snd x))) (combine (filter (fun p => sd <=? bp_unadjusted p) l) ts)) rate)%R.
Proof.
  intros E N P S. unfold fixed_rate_price. induction l as [|p l IH]; intros pv.
  - cbn [add_discounted filter mapM bind combine List.map]. rewrite rsum_nil. f_equal. lra.
  - cbn [add_discounted filter]. unfold is_payment_received. rewrite S. cbn [bind].
    destruct (sd <=? bp_unadjusted p); [|apply IH]. cbn [mapM].
    destruct (acc (b_dcc (args b)) ref (bp_date p)) as [q|]; cbn [bind]; [|reflexivity].
    unfold fixed_df. rewrite E. replace (n =? 0) with false by lia.
    destruct (Rlt_dec 0 (1 + rate / IZR n)) as [_|C]; [|contradiction]. cbn [bind]. rewrite IH.
    destruct (mapM _ _) as [ts|]; cbn [bind]; [|reflexivity]. f_equal. cbn [combine List.map fst snd]. rewrite rsum_cons. cbn [fst snd].
    rewrite Q2R_mult. replace (Q2R (inject_Z n)) with (IZR n) by (unfold Q2R, inject_Z; cbn; field). unfold Rdiv. ring.
Qed.

Lemma flows_of_times {A} (f : A -> R) (g : A -> res Q) l ts : Forall2 (fun a t => g a = Ok t) l ts ->
  Forall2 (fun p fl => fst fl = f p /\ exists q, g p = Ok q /\ snd fl = Q2R q) l (List.map (fun x => (f (fst x), Q2R (snd x))) (combine l ts)).
Proof. induction 1; cbn; constructor; cbn; eauto. Qed.
Lemma times_of_flows {A} (f : A -> R) (g : A -> res Q) l fl : Forall2 (fun p fl => fst fl = f p /\ exists q, g p = Ok q /\ snd fl = Q2R q) l fl ->
  exists ts, Forall2 (fun a t => g a = Ok t) l ts /\ fl = List.map (fun x => (f (fst x), Q2R (snd x))) (combine l ts).
Proof.
  induction 1 as [|p [a x] l fl (E & q & G & E') F (ts & F' & ->)]; [exists []; split; constructor|].
  cbn in E, E'. subst. exists (q :: ts). split; [constructor; auto|reflexivity].
Qed.

Definition frp_app n fl fl' r : fixed_rate_price n (fl ++ fl') r = (fixed_rate_price n fl r + fixed_rate_price n fl' r)%R.
Proof. unfold fixed_rate_price. rewrite map_app. apply rsum_app. Qed.

Section Value.
  Context (a : bond_args) (b : bond) (rate : R) (ref : date).
  Hypothesis (B : new_bond a = Ok b) (N : 0 < per_year (freq a)) (P : (0 < 1 + rate / IZR (per_year (freq a)))%R).
  Let n := per_year (freq a).

  Lemma value_intro sd fl : add_business_days ref 1 (b_cal a) = Ok sd -> remaining_flows b ref sd fl ->
    discount_cashflows_by_fixed_rate b rate (Some ref) = Ok (fixed_rate_price n fl rate).
  Proof.
    intros S F. destruct (new_bond_inv _ _ B) as (Ea & _). unfold remaining_flows, remaining in F. rewrite Ea in F.
    unfold discount_cashflows_by_fixed_rate. rewrite filter_app in F. apply Forall2_app_inv_l in F. destruct F as (f1 & f2 & F1 & F2 & ->).
    destruct (times_of_flows bp_amount (fun p => acc (b_dcc a) ref (bp_date p)) _ _ F1) as (t1 & T1 & ->).
    destruct (times_of_flows bp_amount (fun p => acc (b_dcc a) ref (bp_date p)) _ _ F2) as (t2 & T2 & ->).
    assert (En : per_year (freq (args b)) = n) by (rewrite Ea; reflexivity).
    assert (S' : add_business_days ref 1 (b_cal (args b)) = Ok sd) by (rewrite Ea; auto).
    rewrite (add_discounted_spec b rate ref sd n (coupons b) En N P S'), Ea. apply mapM_Forall2 in T1. rewrite T1. cbn [bind].
    rewrite (add_discounted_spec b rate ref sd n (redemption b) En N P S'), Ea. apply mapM_Forall2 in T2. rewrite T2. cbn [bind].
    f_equal. rewrite frp_app. lra.
  Qed.
  Lemma value_elim v : discount_cashflows_by_fixed_rate b rate (Some ref) = Ok v ->
    exists sd fl, add_business_days ref 1 (b_cal a) = Ok sd /\ remaining_flows b ref sd fl /\ v = fixed_rate_price n fl rate.
  Proof.
    intros H. destruct (new_bond_inv _ _ B) as (Ea & _). destruct (redemption_is a b B) as (d & Ad & Er).
    assert (En : per_year (freq (args b)) = n) by (rewrite Ea; reflexivity).
    destruct (add_business_days ref 1 (b_cal a)) as [sd|e] eqn:S.
    - assert (S' : add_business_days ref 1 (b_cal (args b)) = Ok sd) by (rewrite Ea; auto).
      unfold discount_cashflows_by_fixed_rate in H. rewrite (add_discounted_spec b rate ref sd n (coupons b) En N P S') in H.
      destruct (mapM _ (filter _ (coupons b))) as [t1|] eqn:T1; cbn [bind] in H; [|discriminate].
      rewrite (add_discounted_spec b rate ref sd n (redemption b) En N P S') in H.
      destruct (mapM _ (filter _ (redemption b))) as [t2|] eqn:T2; cbn [bind] in H; [|discriminate]. injection H as <-.
      apply mapM_Forall2 in T1. apply mapM_Forall2 in T2. rewrite Ea in T1, T2.
      eexists sd, (_ ++ _). split; [reflexivity|]. split.
      + unfold remaining_flows, remaining. rewrite filter_app, Ea. apply Forall2_app; [apply (flows_of_times bp_amount _ _ _ T1) | apply (flows_of_times bp_amount _ _ _ T2)].
      + rewrite frp_app. lra.
    - exfalso. unfold discount_cashflows_by_fixed_rate in H. destruct (add_discounted b rate ref (coupons b) 0) as [pv|]; cbn [bind] in H; [|discriminate].
      rewrite Er in H. cbn [add_discounted] in H. unfold is_payment_received in H. rewrite Ea, S in H. cbn [bind] in H. discriminate.
  Qed.
End Value.

(** The fixed rate value of a bond is the sum over its remaining payments (T+1 business day after ref) of the amount over
    (1 + rate/n)^(n * time in years); without a reference date, from the purchase date. *)
Theorem C39_value : forall a b rate ref v, new_bond a = Ok b -> 0 < per_year (freq a) -> (0 < 1 + rate / IZR (per_year (freq a)))%R ->
  (discount_cashflows_by_fixed_rate b rate (Some ref) = Ok v <->
   exists sd fl, add_business_days ref 1 (b_cal a) = Ok sd /\ remaining_flows b ref sd fl /\ v = fixed_rate_price (per_year (freq a)) fl rate) /\
  discount_cashflows_by_fixed_rate b rate None = discount_cashflows_by_fixed_rate b rate (Some (purchase_date a)).
Proof.
  intros a b rate ref v B N P. split; [split|].
  - apply value_elim; auto.
  - intros (sd & fl & S & F & ->). apply (value_intro a b rate ref B N P sd fl S F).
  - destruct (new_bond_inv _ _ B) as (Ea & _). unfold discount_cashflows_by_fixed_rate. rewrite Ea. reflexivity.
Qed.
Print Assumptions C39_value.

Lemma flows_fun b ref sd fl fl' : remaining_flows b ref sd fl -> remaining_flows b ref sd fl' -> fl = fl'.
Proof.
  unfold remaining_flows. generalize (remaining b sd). intros l H. revert fl'.
  induction H as [|p [x y] l fl (E & q & G & E') F IH]; intros fl' H'; [inversion H'; auto|].
  inversion H' as [|? [x' y'] ? fl2 (E2 & q' & G' & E2') F2]; subst. cbn in *. rewrite G in G'. injection G' as <-. subst. f_equal. auto.
Qed.

(** Defined at one admissible rate, defined at all; at rate 0 it is the plain sum of the remaining payments. *)
Theorem C39_undiscounted : forall a b ref rate v, new_bond a = Ok b -> 0 < per_year (freq a) -> (0 < 1 + rate / IZR (per_year (freq a)))%R ->
  discount_cashflows_by_fixed_rate b rate (Some ref) = Ok v ->
  exists sd, add_business_days ref 1 (b_cal a) = Ok sd /\
  discount_cashflows_by_fixed_rate b 0 (Some ref) = Ok (rsum (List.map bp_amount (remaining b sd))).
Proof.
  intros a b ref rate v B N P H. destruct (value_elim a b rate ref B N P v H) as (sd & fl & S & F & _). exists sd. split; [auto|].
  assert (P0 : (0 < 1 + 0 / IZR (per_year (freq a)))%R) by (unfold Rdiv; rewrite Rmult_0_l; lra).
  rewrite (value_intro a b 0 ref B N P0 sd fl S F). f_equal. unfold fixed_rate_price.
  replace (1 + 0 / IZR (per_year (freq a)))%R with 1%R by (unfold Rdiv; ring).
  unfold remaining_flows in F. clear -F. induction F as [|p f l fl (E & _) F IH]; [reflexivity|]. cbn [List.map]. rewrite !rsum_cons, IH, E. f_equal.
  unfold Rpower. rewrite ln_1, Rmult_0_r, exp_0. lra.
Qed.
Print Assumptions C39_undiscounted.

Lemma frp_pv n fl r : fixed_rate_price n fl r = power_value (List.map (fun f => (fst f, snd f * IZR n)%R) fl) (1 + r / IZR n).
Proof. unfold fixed_rate_price, power_value. rewrite map_map. reflexivity. Qed.

Lemma accrual_pos c s e : real_date s -> real_date e -> s < e -> countable c s e -> exists q, acc c s e = Ok q /\ (0 < q)%Q.
Proof.
  intros Rs Re L C. assert (c = THIRTY360 \/ c <> THIRTY360) as [-> | Nc] by (destruct c; auto; right; discriminate).
  - destruct C as [C|C]; [congruence|]. destruct (C03_value s e ltac:(lia)) as (q & Hq & _). exists q. split; [exact Hq|].
    destruct (C03_sign s e q ltac:(lia) Hq) as [S1 S2]. destruct (Qlt_le_dec 0 q) as [|Lq]; auto. exfalso.
    apply Qle_lteq in Lq. destruct Lq as [Lq|Lq].
    + apply S1 in Lq. apply C. intuition congruence.
    + apply S2 in Lq. destruct Lq as [-> | Lq]; [lia|]. apply C. intuition congruence.
  - destruct (acc_order c s e e Nc Rs Re ltac:(lia)) as (q & r & Eq & _ & _ & Pq & _). exists q. split; auto.
Qed.

(** What the strict results need: a coupon bond with non-negative coupon and positive principal, not yet matured. *)
Definition ordinary (a : bond_args) (b : bond) (ref : date) : Prop :=
  new_bond a = Ok b /\ 0 < per_year (freq a) /\ (0 <= coupon_rate a)%R /\ (0 < principal a)%R /\ date_ok (maturity_date a) /\ real_date ref /\
  (forall p, In p (coupons b ++ redemption b) -> countable (b_dcc a) ref (bp_date p)) /\
  (forall sd, add_business_days ref 1 (b_cal a) = Ok sd -> sd <= maturity_date a).

Lemma coupon_nonneg a : (0 <= coupon_rate a)%R -> (0 < principal a)%R -> (0 <= calculate_coupon_payment a)%R.
Proof.
  intros C P. unfold calculate_coupon_payment. destruct (freq a); try lra; cbn [per_year];
    (apply Rmult_le_pos; [apply Rmult_le_pos; lra | left; apply Rinv_0_lt_compat; lra]).
Qed.

Lemma remaining_accrual a b ref sd p : ordinary a b ref -> add_business_days ref 1 (b_cal a) = Ok sd -> In p (remaining b sd) ->
  exists q, compute_accrual_length (Day ref) (Day (bp_date p)) (b_dcc a) = Ok q /\ (0 < q)%Q.
Proof.
  intros (B & N & C & P & Om & Rr & Cn & Mt) S I. apply filter_In in I. destruct I as [I U]. assert (U' : sd <= bp_unadjusted p) by lia.
  destruct (t_plus_one _ _ _ (proj1 Rr) S) as [Ls Bs].
  assert (D : date_ok (bp_unadjusted p) /\ adjustment_function a (bp_unadjusted p) = Ok (bp_date p)) by (destruct (bond_payments a b B Om p I) as [(X & Y & _)|(X & Y & _)]; auto).
  destruct D as [Du Au]. pose proof (paid_after a sd _ _ Bs Du U' Au) as Lp. pose proof (adjust_isbd a _ _ Du Au) as [Op _].
  assert (Rp : real_date (bp_date p)). { split; auto. destruct Rr as [_ Yr]. pose proof (year_mono ref (bp_date p) ltac:(lia)). lia. }
  exact (accrual_pos (b_dcc a) ref (bp_date p) Rr Rp ltac:(lia) (Cn p I)).
Qed.

Lemma ordinary_flows_exist a b ref sd : ordinary a b ref -> add_business_days ref 1 (b_cal a) = Ok sd -> exists fl, remaining_flows b ref sd fl.
Proof.
  intros Or S. pose proof Or as (B & _). destruct (new_bond_inv _ _ B) as (Ea & _). unfold remaining_flows. rewrite Ea.
  assert (H : forall p, In p (remaining b sd) -> exists q, compute_accrual_length (Day ref) (Day (bp_date p)) (b_dcc a) = Ok q).
  { intros p I. destruct (remaining_accrual a b ref sd p Or S I) as (q & E & _). eauto. }
  revert H. generalize (remaining b sd). induction l as [|p l IH]; intros H; [exists []; constructor|].
  destruct (H p (or_introl eq_refl)) as (q & E). destruct IH as (fl & F); [intros; apply H; right; auto|].
  exists ((bp_amount p, Q2R q) :: fl). constructor; cbn; eauto.
Qed.

Lemma ordinary_flows a b ref sd fl : ordinary a b ref -> add_business_days ref 1 (b_cal a) = Ok sd -> remaining_flows b ref sd fl ->
  let sc := List.map (fun f => (fst f, snd f * IZR (per_year (freq a)))%R) fl in
  Forall good_flow sc /\ Forall (fun f => (0 < snd f)%R) sc /\ Exists live_flow sc /\ Forall (fun f => (0 <= fst f)%R) fl /\ Forall (fun f => (0 < snd f)%R) fl.
Proof.
  intros Or S F. pose proof Or as (B & N & C & P & Om & Rr & Cn & Mt). cbv zeta. set (n := per_year (freq a)) in *.
  assert (Nr : (0 < IZR n)%R) by (apply IZR_lt; auto).
  destruct (new_bond_inv _ _ B) as (Ea & _).
  assert (T : Forall2 (fun p f => (0 <= fst f)%R /\ (0 < snd f)%R /\ (In p (redemption b) -> (0 < fst f)%R)) (remaining b sd) fl).
  { unfold remaining_flows in F. assert (Sub : forall p, In p (remaining b sd) -> In p (coupons b ++ redemption b) /\ sd <= bp_unadjusted p).
    { intros p I. apply filter_In in I. destruct I. split; auto. lia. }
    revert Sub. induction F as [|p f l fl' (E & q & G & E') F IH]; intros Sub; constructor.
    - destruct (Sub p (or_introl eq_refl)) as [I U].
      destruct (remaining_accrual a b ref sd p Or S ltac:(apply filter_In; split; auto; lia)) as (q' & Eq & Pq). rewrite Ea, Eq in G. injection G as <-.
      pose proof (coupon_nonneg a C P). split; [|split].
      + rewrite E. destruct (bond_payments a b B Om p I) as [(_ & _ & ->) | (_ & _ & ->)]; lra.
      + rewrite E'. apply Qlt_Rlt in Pq. replace (Q2R 0) with 0%R in Pq by (unfold Q2R; cbn; lra). auto.
      + intros Ir. rewrite E. destruct (redemption_is a b B) as (d & _ & Er). rewrite Er in Ir. destruct Ir as [<-|[]]. cbn. auto.
    - apply IH. intros p' I'. apply Sub. right. auto. }
  assert (Er : exists p, In p (remaining b sd) /\ In p (redemption b)).
  { destruct (redemption_is a b B) as (d & _ & Er). eexists. split; [apply filter_In; split; [apply in_or_app; right|]|]; try (rewrite Er; left; reflexivity).
    cbn. specialize (Mt sd S). lia. }
  destruct Er as (p0 & I0 & Ir0). clear F. revert I0. generalize (remaining b sd) as l, T. clear T. intros l T I0.
  assert (Sc : forall f : R * R, (0 < snd f)%R -> (0 < snd f * IZR n)%R) by (intros; apply Rmult_lt_0_compat; auto).
  split; [|split; [|split; [|split]]].
  - clear I0. induction T as [|p f l fl (X & Y & _) T IH]; cbn; constructor; auto. split; cbn; auto. left. auto.
  - clear I0. induction T as [|p f l fl (X & Y & _) T IH]; cbn; constructor; auto. cbn. auto.
  - induction T as [|p f l fl (X & Y & Z') T IH]; [contradiction|]. destruct I0 as [-> | I0]; cbn; [apply Exists_cons_hd|apply Exists_cons_tl; auto].
    split; cbn; auto.
  - clear I0. induction T as [|p f l fl (X & Y & _) T IH]; constructor; auto.
  - clear I0. induction T as [|p f l fl (X & Y & _) T IH]; constructor; auto.
Qed.

Lemma rate_base n r r' : 0 < n -> (r < r' -> 1 + r / IZR n < 1 + r' / IZR n)%R.
Proof. intros N L. apply IZR_lt in N. apply Rplus_lt_compat_l. apply Rmult_lt_compat_r; auto. apply Rinv_0_lt_compat. auto. Qed.

(** Defined at every admissible rate. *)
Theorem C39_defined : forall a b ref sd r, ordinary a b ref -> add_business_days ref 1 (b_cal a) = Ok sd ->
  (0 < 1 + r / IZR (per_year (freq a)))%R -> exists v, discount_cashflows_by_fixed_rate b r (Some ref) = Ok v.
Proof.
  intros a b ref sd r Or S P. destruct (ordinary_flows_exist a b ref sd Or S) as (fl & F). pose proof Or as (B & N & _).
  eexists. apply (value_intro a b r ref B N P sd fl S F).
Qed.
Print Assumptions C39_defined.
(** Strictly decreasing in the rate. *)
Theorem C39_decreasing : forall a b ref r r' v v', ordinary a b ref -> (0 < 1 + r / IZR (per_year (freq a)))%R -> (r < r')%R ->
  discount_cashflows_by_fixed_rate b r (Some ref) = Ok v -> discount_cashflows_by_fixed_rate b r' (Some ref) = Ok v' -> (v' < v)%R.
Proof.
  intros a b ref r r' v v' Or P L H H'. pose proof Or as (B & N & _). pose proof (rate_base _ _ _ N L) as Lb.
  destruct (value_elim a b r ref B N P v H) as (sd & fl & S & F & ->).
  destruct (value_elim a b r' ref B N ltac:(lra) v' H') as (sd' & fl' & S' & F' & ->).
  rewrite S in S'. injection S' as <-. rewrite (flows_fun _ _ _ _ _ F' F), !frp_pv.
  destruct (ordinary_flows a b ref sd fl Or S F) as (G & _ & E & _). apply pv_sdecr; auto.
Qed.
Lemma combo_pos t x y : (0 <= t <= 1 -> 0 < x -> 0 < y -> 0 < t * x + (1 - t) * y)%R.
Proof. intros T X Y. destruct (Req_dec t 0) as [->|Nz]; [lra|]. assert (0 < t * x)%R by (apply Rmult_lt_0_compat; lra). assert (0 <= (1 - t) * y)%R by (apply Rmult_le_pos; lra). lra. Qed.
(** Convex in the rate. *)
Theorem C39_convex : forall a b ref r1 r2 t v1 v2 v, ordinary a b ref ->
  (0 < 1 + r1 / IZR (per_year (freq a)))%R -> (0 < 1 + r2 / IZR (per_year (freq a)))%R -> (0 <= t <= 1)%R ->
  discount_cashflows_by_fixed_rate b r1 (Some ref) = Ok v1 -> discount_cashflows_by_fixed_rate b r2 (Some ref) = Ok v2 ->
  discount_cashflows_by_fixed_rate b (t * r1 + (1 - t) * r2) (Some ref) = Ok v -> (v <= t * v1 + (1 - t) * v2)%R.
Proof.
  intros a b ref r1 r2 t v1 v2 v Or P1 P2 T H1 H2 H. pose proof Or as (B & N & _). set (n := per_year (freq a)) in *.
  assert (Nr : (0 < IZR n)%R) by (apply IZR_lt; auto).
  assert (Eb : (1 + (t * r1 + (1 - t) * r2) / IZR n = t * (1 + r1 / IZR n) + (1 - t) * (1 + r2 / IZR n))%R) by (field; lra).
  assert (P : (0 < 1 + (t * r1 + (1 - t) * r2) / IZR n)%R) by (rewrite Eb; apply combo_pos; auto).
  destruct (value_elim a b r1 ref B N P1 v1 H1) as (sd & fl & S & F & ->).
  destruct (value_elim a b r2 ref B N P2 v2 H2) as (sd2 & fl2 & S2 & F2 & ->). rewrite S in S2. injection S2 as <-. rewrite (flows_fun _ _ _ _ _ F2 F).
  destruct (value_elim a b _ ref B N P v H) as (sd3 & fl3 & S3 & F3 & ->). rewrite S in S3. injection S3 as <-. rewrite (flows_fun _ _ _ _ _ F3 F).
  fold n. rewrite !frp_pv, Eb. destruct (ordinary_flows a b ref sd fl Or S F) as (G & _). apply pv_convex; auto.
Qed.
Print Assumptions C39_decreasing. Print Assumptions C39_convex.

(** Exactly one yield reproduces the full price: the residual handed to the root finder vanishes at exactly one
    admissible rate, provided the full price is positive. *)
Theorem C39_unique_yield : forall a b ref sd, ordinary a b ref -> (0 < full_price b)%R -> add_business_days ref 1 (b_cal a) = Ok sd ->
  exists y, ((0 < 1 + y / IZR (per_year (freq a)))%R /\ ytm_residual b (Some ref) y = Ok 0%R) /\
    forall y', (0 < 1 + y' / IZR (per_year (freq a)))%R /\ ytm_residual b (Some ref) y' = Ok 0%R -> y' = y.
Proof.
  intros a b ref sd Or Fp S. pose proof Or as (B & N & _ & Pp & _). set (n := per_year (freq a)) in *.
  destruct (new_bond_inv _ _ B) as (Ea & _). assert (Nr : (0 < IZR n)%R) by (apply IZR_lt; auto).
  destruct (ordinary_flows_exist a b ref sd Or S) as (fl & F).
  destruct (ordinary_flows a b ref sd fl Or S F) as (G & Ps & E & _). set (tp := (full_price b * principal a / 100)%R).
  assert (Tp : (0 < tp)%R) by (unfold tp; apply Rmult_lt_0_compat; [apply Rmult_lt_0_compat; auto | lra]).
  destruct (pv_exists _ tp G Ps E Tp) as (c & Pc & Vc). exists ((c - 1) * IZR n)%R.
  assert (Ec : (1 + (c - 1) * IZR n / IZR n = c)%R) by (field; lra).
  assert (Val : forall y, (0 < 1 + y / IZR n)%R -> ytm_residual b (Some ref) y = Ok (tp - fixed_rate_price n fl y)%R).
  { intros y Py. unfold ytm_residual. rewrite (value_intro a b y ref B N Py sd fl S F). cbn [bind]. rewrite Ea. reflexivity. }
  split.
  - split; [fold n; rewrite Ec; auto|]. rewrite Val by (rewrite Ec; auto). rewrite frp_pv, Ec. f_equal. fold n in Vc. lra.
  - intros y [Py Ry]. rewrite (Val y Py) in Ry. injection Ry as Ry. rewrite frp_pv in Ry. fold n in Py.
    assert (Eq : (power_value (List.map (fun f => (fst f, snd f * IZR n)%R) fl) (1 + y / IZR n) = tp)%R) by lra.
    destruct (Rtotal_order (1 + y / IZR n) c) as [L|[Q|L]].
    + pose proof (pv_sdecr _ _ _ G E Py L). fold n in Vc. unfold n in *. lra.
    + rewrite <- Q. field. lra.
    + pose proof (pv_sdecr _ _ _ G E Pc L). unfold n in *. lra.
Qed.
Print Assumptions C39_unique_yield.

(** A zero-coupon bond has zero payments a year, so it cannot be discounted at a fixed rate, hence has no yield. *)
Theorem C39_zero_coupon_refuted : forall a b ref rate sd d q, new_bond a = Ok b -> freq a = ZERO_COUPON ->
  add_business_days ref 1 (b_cal a) = Ok sd -> sd <= maturity_date a ->
  adjustment_function a (maturity_date a) = Ok d -> compute_accrual_length (Day ref) (Day d) (b_dcc a) = Ok q ->
  discount_cashflows_by_fixed_rate b rate (Some ref) = Err ZeroDivisionError /\ ytm_residual b (Some ref) rate = Err ZeroDivisionError.
Proof.
  intros a b ref rate sd d q B Z0 S L Ad Q. destruct (new_bond_inv _ _ B) as (Ea & _ & _ & Ec & _). apply coupons_spec in Ec. rewrite Z0 in Ec. cbn in Ec.
  destruct (redemption_is a b B) as (d' & Ad' & Er). rewrite Ad in Ad'. injection Ad' as <-.
  assert (H : discount_cashflows_by_fixed_rate b rate (Some ref) = Err ZeroDivisionError).
  { unfold discount_cashflows_by_fixed_rate. rewrite Ec, Er. cbn [add_discounted bind]. unfold is_payment_received. rewrite Ea, S. cbn [bind bp_unadjusted bp_date].
    replace (sd <=? maturity_date a) with true by lia. unfold acc. rewrite Q. cbn [bind]. unfold fixed_df. rewrite Z0. reflexivity. }
  split; [exact H|]. unfold ytm_residual. rewrite H. reflexivity.
Qed.
Print Assumptions C39_zero_coupon_refuted.

Example C39_case : exists mat purch b, mk_date 2025 2 15 = Ok mat /\ mk_date 2023 9 1 = Ok purch /\
  ordinary (note UsTreasury mat purch 2) b purch /\ (0 < full_price b)%R /\
  add_business_days purch 1 (b_cal (note UsTreasury mat purch 2)) = Ok (ymd2ord 2023 9 5) /\ List.length (remaining b (ymd2ord 2023 9 5)) = 4%nat.
Proof.
  eexists; eexists; eexists; split; [vm_compute; reflexivity|]; split; [vm_compute; reflexivity|]. split; [split; [build_bond|]|].
  - split; [cbn; lia|]. split; [cbn; lra|]. split; [cbn; lra|]. split; [vm_compute; split; discriminate|]. split; [split; [vm_compute; split; discriminate | vm_compute; discriminate]|].
    split; [intros; left; discriminate|]. intros sd H. assert (E : add_business_days (ymd2ord 2023 9 1) 1 US_FEDERAL_HOLIDAYS = Ok (ymd2ord 2023 9 5)) by (vm_compute; reflexivity).
    change (b_cal (note UsTreasury 739297 738764 2)) with US_FEDERAL_HOLIDAYS in H. change (ymd2ord 2023 9 1) with 738764 in E. rewrite E in H. injection H as <-. vm_compute. discriminate.
  - split; [|split; [vm_compute; reflexivity | vm_compute; reflexivity]].
    cbn [full_price note price principal accrued_interest]. unfold Q2R. cbn [QArith_base.Qnum QArith_base.Qden calculate_coupon_payment freq principal coupon_rate per_year note]. lra.
Qed.

(** ---- C61: price against a discount curve ---- *)
Lemma received_terms_spec spline b dc sd l : add_business_days (c_ref dc) 1 (b_cal (args b)) = Ok sd ->
  received_terms spline b dc l = mapM (fun p => do df <- interpolate spline dc (bp_date p) None; Ok (df * bp_amount p)%R) (filter (fun p => sd <=? bp_unadjusted p) l).
Proof.
  intros S. induction l as [|p l IH]; [reflexivity|]. cbn [received_terms filter]. unfold is_payment_received. rewrite S. cbn [bind].
  destruct (sd <=? bp_unadjusted p); [|auto]. cbn [mapM]. destruct (interpolate spline dc (bp_date p) None); cbn [bind]; [|auto]. rewrite IH. reflexivity.
Qed.

Lemma mapM_app {A B} (f : A -> res B) l l' : mapM f (l ++ l') = do x <- mapM f l; do y <- mapM f l'; Ok (x ++ y).
Proof.
  induction l as [|a l IH]; cbn [app mapM bind]; [destruct (mapM f l'); reflexivity|]. destruct (f a); cbn [bind]; [|auto]. rewrite IH.
  destruct (mapM f l); cbn [bind]; [|auto]. destruct (mapM f l'); reflexivity.
Qed.

(** sum of discount factor times amount *)
Definition discounted_sum (l : list bond_payment) (dfs : list R) : R := rsum (List.map (fun x => snd x * bp_amount (fst x))%R (combine l dfs)).

(** A bond's present value is the sum of curve discount factor times amount over the payments remaining one business day
    after the curve's reference date (whatever the bond's own purchase date and settlement convention). *)
Theorem C61_present_value : forall spline a b dc v, new_bond a = Ok b ->
  (bond_present_value spline b dc = Ok v <->
   exists sd dfs, add_business_days (c_ref dc) 1 (b_cal a) = Ok sd /\
     Forall2 (fun p df => interpolate spline dc (bp_date p) None = Ok df) (remaining b sd) dfs /\ v = discounted_sum (remaining b sd) dfs).
Proof.
  intros spline a b dc v B. destruct (new_bond_inv _ _ B) as (Ea & _).
  assert (M : forall l ts, mapM (fun p => do df <- interpolate spline dc (bp_date p) None; Ok (df * bp_amount p)%R) l = Ok ts <->
    exists dfs, Forall2 (fun p df => interpolate spline dc (bp_date p) None = Ok df) l dfs /\ ts = List.map (fun x => snd x * bp_amount (fst x))%R (combine l dfs)).
  { intros l ts. rewrite mapM_Forall2. split.
    - induction 1 as [|p t l ts E F (dfs & D & ->)]; [exists []; split; constructor|]. destruct (interpolate spline dc (bp_date p) None) as [df|] eqn:I; [|discriminate].
      cbn [bind] in E. injection E as <-. exists (df :: dfs). split; [constructor; auto|reflexivity].
    - intros (dfs & D & ->). induction D as [|p df l dfs E D IH]; cbn; constructor; auto. rewrite E. reflexivity. }
  split.
  - intros H. destruct (add_business_days (c_ref dc) 1 (b_cal a)) as [sd|e] eqn:S.
    + assert (S' : add_business_days (c_ref dc) 1 (b_cal (args b)) = Ok sd) by (rewrite Ea; auto). unfold bond_present_value in H.
      rewrite !(received_terms_spec spline b dc sd _ S') in H.
      destruct (mapM _ (filter _ (coupons b))) as [t1|] eqn:T1; cbn [bind] in H; [|discriminate].
      destruct (mapM _ (filter _ (redemption b))) as [t2|] eqn:T2; cbn [bind] in H; [|discriminate]. injection H as <-.
      assert (T : mapM (fun p => do df <- interpolate spline dc (bp_date p) None; Ok (df * bp_amount p)%R) (remaining b sd) = Ok (t1 ++ t2)).
      { unfold remaining. rewrite filter_app, mapM_app, T1. cbn [bind]. rewrite T2. reflexivity. }
      apply M in T. destruct T as (dfs & D & T). exists sd, dfs. split; [auto|]. split; [auto|]. unfold discounted_sum. rewrite <- T. symmetry. apply rsum_app.
    + exfalso. unfold bond_present_value in H. destruct (received_terms spline b dc (coupons b)); cbn [bind] in H; [|discriminate].
      destruct (redemption_is a b B) as (d & _ & Er). rewrite Er in H. cbn [received_terms] in H. unfold is_payment_received in H. rewrite Ea, S in H. discriminate.
  - intros (sd & dfs & S & D & ->). assert (S' : add_business_days (c_ref dc) 1 (b_cal (args b)) = Ok sd) by (rewrite Ea; auto).
    unfold bond_present_value. rewrite !(received_terms_spec spline b dc sd _ S').
    assert (T : mapM (fun p => do df <- interpolate spline dc (bp_date p) None; Ok (df * bp_amount p)%R) (remaining b sd) = Ok (List.map (fun x => snd x * bp_amount (fst x))%R (combine (remaining b sd) dfs))).
    { apply M. eauto. }
    unfold remaining in T at 1. rewrite filter_app, mapM_app in T.
    destruct (mapM _ (filter _ (coupons b))) as [t1|]; cbn [bind] in T |- *; [|discriminate].
    destruct (mapM _ (filter _ (redemption b))) as [t2|]; cbn [bind] in T |- *; [|discriminate]. injection T as T.
    unfold discounted_sum. rewrite <- T, rsum_app. reflexivity.
Qed.
Print Assumptions C61_present_value.

(** With positive discount factors an unmatured bond has a positive value, bounded by its undiscounted payments when the
    factors are at most 1. *)
Theorem C61_bounds : forall spline a b dc v sd, ordinary a b (c_ref dc) -> bond_present_value spline b dc = Ok v ->
  add_business_days (c_ref dc) 1 (b_cal a) = Ok sd ->
  (forall d df, interpolate spline dc d None = Ok df -> (0 < df <= 1)%R) ->
  (0 < v <= rsum (List.map bp_amount (remaining b sd)))%R.
Proof.
  intros spline a b dc v sd Or H S Df. pose proof Or as (B & N & C & P & Om & Rr & Cn & Mt). apply (C61_present_value spline a b dc v B) in H.
  destruct H as (sd' & dfs & S' & D & ->). rewrite S in S'. injection S' as <-.
  assert (A : forall p, In p (remaining b sd) -> (0 <= bp_amount p)%R).
  { intros p I. apply filter_In in I. destruct I as [I _]. pose proof (coupon_nonneg a C P). destruct (bond_payments a b B Om p I) as [(_ & _ & ->) | (_ & _ & ->)]; lra. }
  assert (E : exists p, In p (remaining b sd) /\ (0 < bp_amount p)%R).
  { destruct (redemption_is a b B) as (d & _ & Er). exists (BondPayment d (principal a) (maturity_date a)). split; [|exact P]. apply filter_In. split.
    - apply in_or_app. right. rewrite Er. left. reflexivity.
    - cbn. specialize (Mt sd S). lia. }
  unfold discounted_sum. revert A E. induction D as [|p df l dfs Ep D IH]; intros A (q & Iq & Pq); [contradiction|].
  cbn [combine List.map]. rewrite !rsum_cons. cbn [fst snd]. specialize (Df _ _ Ep) as Dp. pose proof (A p (or_introl eq_refl)) as Ap.
  assert (G : (0 <= rsum (List.map (fun x => snd x * bp_amount (fst x)) (combine l dfs)) <= rsum (List.map bp_amount l))%R).
  { assert (A' : forall p, In p l -> (0 <= bp_amount p)%R) by (intros; apply A; right; auto). clear -D Df A'.
    induction D as [|p df l dfs E D IH]; cbn [combine List.map]; [rewrite !rsum_nil; lra|]. rewrite !rsum_cons. cbn [fst snd].
    specialize (Df _ _ E) as Dp. pose proof (A' p (or_introl eq_refl)). specialize (IH ltac:(intros; apply A'; right; auto)). nra. }
  destruct Iq as [->|Iq].
  - assert (0 < df * bp_amount q)%R by (apply Rmult_lt_0_compat; lra). nra.
  - specialize (IH ltac:(intros; apply A; right; auto) ltac:(eauto)). nra.
Qed.
Print Assumptions C61_bounds.

(** The knot of a bond is its last payment date, with the clean price. *)
Theorem C61_knot : forall a b, new_bond a = Ok b -> exists d, bond_to_knot b = Ok (d, price a) /\
  (exists p, In p (coupons b ++ redemption b) /\ bp_date p = d) /\ (forall p, In p (coupons b ++ redemption b) -> bp_date p <= d).
Proof.
  intros a b B. destruct (new_bond_inv _ _ B) as (Ea & _ & _ & Ec & _). destruct (redemption_is a b B) as (d & _ & Er).
  assert (S : StronglySorted Z.le (List.map bp_date (coupons b))).
  { apply coupons_spec in Ec. destruct (coupon_step (freq a)) as [[m|]|]; [destruct Ec as (? & _ & _ & _ & S & _); auto | rewrite Ec; constructor | contradiction]. }
  unfold bond_to_knot. rewrite Er, Ea. cbn [bp_date]. clear Ec. destruct (coupons b) as [|c cs] eqn:Cs.
  - exists d. split; [reflexivity|]. split; [eexists; split; [left; reflexivity|reflexivity]|]. intros p [<-|[]]. cbn. lia.
  - set (lst := last (c :: cs) c). assert (Il : In lst (c :: cs)).
    { unfold lst. destruct (exists_last (l := c :: cs) ltac:(discriminate)) as (l' & x & ->). rewrite last_last. apply in_or_app. right. left. auto. }
    assert (Lm : forall p, In p (c :: cs) -> bp_date p <= bp_date lst).
    { unfold lst. destruct (exists_last (l := c :: cs) ltac:(discriminate)) as (l' & x & E). rewrite E in *. rewrite last_last. clear -S. intros p I.
      apply in_app_or in I. destruct I as [I|[->|[]]]; [|lia]. induction l' as [|y l' IH]; [contradiction|]. cbn in S. inversion S as [|? ? S' F]; subst.
      destruct I as [->|I]; [|auto]. rewrite Forall_forall in F. apply F. rewrite map_app. apply in_or_app. right. left. reflexivity. }
    exists (Z.max (bp_date lst) d). split; [reflexivity|]. split.
    + destruct (Z.max_spec (bp_date lst) d) as [[_ ->] | [_ ->]].
      * eexists. split; [apply in_or_app; right; left; reflexivity|reflexivity].
      * exists lst. split; [apply in_or_app; auto|auto].
    + intros p I. apply in_app_or in I. destruct I as [I|[<-|[]]]; [specialize (Lm p I); lia|cbn; lia].
Qed.
Print Assumptions C61_knot.

(** ---- C62: sensitivities ---- *)
(** time-weighted value of the flows: sum of time * amount / base^(n time) *)
Definition time_weighted (n : Z) (fl : list (R * R)) (rate : R) : R :=
  rsum (List.map (fun f => snd f * (fst f / Rpower (1 + rate / IZR n) (snd f * IZR n)))%R fl).

Lemma frp_derivative n fl r : 0 < n -> (0 < 1 + r / IZR n)%R ->
  derivable_pt_lim (fixed_rate_price n fl) r (- time_weighted n fl r / (1 + r / IZR n))%R.
Proof.
  intros N P. assert (Nr : (0 < IZR n)%R) by (apply IZR_lt; auto). set (sc := List.map (fun f => (fst f, snd f * IZR n)%R) fl).
  apply (derivable_pt_lim_ext (fun r => power_value sc (1 + r / IZR n))); [intros; symmetry; apply frp_pv|].
  assert (W : (weighted_value sc (1 + r / IZR n) = IZR n * time_weighted n fl r)%R).
  { unfold weighted_value, time_weighted, sc. rewrite map_map. cbn [fst snd]. clear. induction fl as [|f fl IH]; cbn [List.map]; [rewrite !rsum_nil; ring|].
    rewrite !rsum_cons, IH. ring. }
  replace (- time_weighted n fl r / (1 + r / IZR n))%R with (- weighted_value sc (1 + r / IZR n) / (1 + r / IZR n) * (0 + 1 * / IZR n))%R by (rewrite W; field; repeat split; try lra; intros Q; assert (1 + r / IZR n = (IZR n + r) / IZR n)%R by (field; lra); rewrite Q in *; unfold Rdiv in *; lra).
  apply (derivable_pt_lim_comp (fun r => 1 + r / IZR n)%R (power_value sc)); [|apply pv_deriv_lim; auto].
  apply (derivable_pt_lim_plus (fun _ => 1%R) (fun r => (r / IZR n)%R)); [apply derivable_pt_lim_const|].
  apply (derivable_pt_lim_ext (fun x => x * / IZR n)%R); [reflexivity|].
  replace (1 * / IZR n)%R with (1 * / IZR n + r * 0)%R by ring.
  apply (derivable_pt_lim_mult (fun x => x) (fun _ => (/ IZR n)%R)); [apply derivable_pt_lim_id|apply derivable_pt_lim_const].
Qed.

Lemma tw_pos a b ref sd fl r : ordinary a b ref -> add_business_days ref 1 (b_cal a) = Ok sd -> remaining_flows b ref sd fl -> (0 < time_weighted (per_year (freq a)) fl r)%R.
Proof.
  intros Or S F. destruct (ordinary_flows a b ref sd fl Or S F) as (_ & _ & E & A & T). pose proof Or as (_ & N & _).
  set (n := per_year (freq a)) in *. unfold time_weighted. clear -E A T N. assert (Nr : (0 < IZR n)%R) by (apply IZR_lt; auto).
  assert (T0 : forall f : R * R, (0 <= fst f -> 0 < snd f -> 0 <= snd f * (fst f / Rpower (1 + r / IZR n) (snd f * IZR n)))%R).
  { intros f Hf Hs. apply Rmult_le_pos; [lra|]. apply Rmult_le_pos; auto. left. apply Rinv_0_lt_compat. apply exp_pos. }
  assert (Ge : forall l, Forall (fun f : R * R => (0 <= fst f)%R) l -> Forall (fun f : R * R => (0 < snd f)%R) l -> (0 <= rsum (List.map (fun f => snd f * (fst f / Rpower (1 + r / IZR n) (snd f * IZR n)))%R l))%R).
  { induction l as [|f l IH]; intros Fa Ft; cbn [List.map]; [rewrite rsum_nil; lra|]. inversion Fa; inversion Ft; subst. rewrite rsum_cons. specialize (T0 f ltac:(auto) ltac:(auto)). specialize (IH ltac:(auto) ltac:(auto)). lra. }
  induction fl as [|f fl IH]; [inversion E|]. inversion A as [|? ? A1 A2]; inversion T as [|? ? T1 T2]; subst. cbn [List.map]. rewrite rsum_cons.
  cbn [List.map] in E. inversion E as [? ? [L1 L2]|? ? E']; subst; cbn [fst snd] in *.
  - specialize (Ge fl A2 T2). assert (0 < snd f * (fst f / Rpower (1 + r / IZR n) (snd f * IZR n)))%R; [|lra].
    apply Rmult_lt_0_compat; auto. apply Rmult_lt_0_compat; auto. apply Rinv_0_lt_compat. apply exp_pos.
  - specialize (IH E' A2 T2). specialize (T0 f A1 T1). lra.
Qed.

(** The reported price sensitivity at a yield is the exact derivative of the fixed rate price at some rate within half a
    basis point of it, and is negative. *)
Lemma pv_deriv_bp : forall a b y d sd fl, ordinary a b (purchase_date a) -> (0 < 1 + (y - one_bp / 2) / IZR (per_year (freq a)))%R ->
  add_business_days (purchase_date a) 1 (b_cal a) = Ok sd -> remaining_flows b (purchase_date a) sd fl ->
  pv_deriv b 0 y = Ok d ->
  exists c, (y - one_bp / 2 < c < y + one_bp / 2)%R /\ derivable_pt_lim (fixed_rate_price (per_year (freq a)) fl) c d /\ (d < 0)%R.
Proof.
  intros a b y d sd fl Or P S F H. pose proof Or as (B & N & _). set (n := per_year (freq a)) in *.
  assert (Nr : (0 < IZR n)%R) by (apply IZR_lt; auto). assert (Bp : (0 < one_bp)%R) by (unfold one_bp; lra).
  assert (Pc : forall c, (y - one_bp / 2 <= c -> 0 < 1 + c / IZR n)%R).
  { intros c [L| <-]; auto. pose proof (rate_base n _ _ N L). lra. }
  destruct (new_bond_inv _ _ B) as (Ea & _).
  assert (V : forall r, (0 < 1 + r / IZR n)%R -> discount_cashflows_by_fixed_rate b r None = Ok (fixed_rate_price n fl r)).
  { intros r Pr. destruct (C39_value a b r (purchase_date a) 0 B N Pr) as [_ ->]. apply (value_intro a b r (purchase_date a) B N Pr sd fl S F). }
  unfold pv_deriv in H. rewrite !V in H by (apply Pc; lra). cbn [bind] in H. injection H as H.
  set (D := fun c => (- time_weighted n fl c / (1 + c / IZR n))%R).
  destruct (MVT_cor2 (fixed_rate_price n fl) D (y - one_bp / 2) (y + one_bp / 2)) as (c & Ec & Lc); [lra| |].
  { intros c Lc. apply frp_derivative; auto. apply Pc. lra. }
  exists c. split; [auto|].
  assert (Ed : d = D c).
  { rewrite <- H. replace (y + 0 + one_bp / 2)%R with (y + one_bp / 2)%R by ring. replace (y + 0 - one_bp / 2)%R with (y - one_bp / 2)%R by ring. rewrite Ec. field. lra. }
  split; [rewrite Ed; apply frp_derivative; auto; apply Pc; lra|]. rewrite Ed. unfold D.
  pose proof (tw_pos a b _ sd fl c Or S F) as W. fold n in W. assert (0 < / (1 + c / IZR n))%R by (apply Rinv_0_lt_compat, Pc; lra).
  unfold Rdiv at 1. rewrite Ropp_mult_distr_l_reverse. apply Ropp_lt_gt_0_contravar. apply Rmult_lt_0_compat; auto.
Qed.
Theorem C62_pv_deriv : forall a b y d sd fl, ordinary a b (purchase_date a) -> (0 < 1 + (y - 1 / 20000) / IZR (per_year (freq a)))%R ->
  add_business_days (purchase_date a) 1 (b_cal a) = Ok sd -> remaining_flows b (purchase_date a) sd fl ->
  pv_deriv b 0 y = Ok d ->
  exists c, (y - 1 / 20000 < c < y + 1 / 20000)%R /\ derivable_pt_lim (fixed_rate_price (per_year (freq a)) fl) c d /\ (d < 0)%R.
Proof.
  assert (Hb : (one_bp / 2 = 1 / 20000)%R) by (unfold one_bp; field).
  rewrite <- Hb. exact pv_deriv_bp.
Qed.
Print Assumptions C62_pv_deriv.

(** [duration] divides by the quoted full price (per 100) instead of the price of the principal: it is principal/100
    times minus the relative price sensitivity, hence right exactly for principal 100. *)
Lemma duration_bp : forall a b y D sd fl, ordinary a b (purchase_date a) -> (0 < 1 + (y - one_bp / 2) / IZR (per_year (freq a)))%R ->
  add_business_days (purchase_date a) 1 (b_cal a) = Ok sd -> remaining_flows b (purchase_date a) sd fl -> (0 < full_price b)%R ->
  duration b y = Ok D ->
  exists c d, (y - one_bp / 2 < c < y + one_bp / 2)%R /\ derivable_pt_lim (fixed_rate_price (per_year (freq a)) fl) c d /\
    let modified := (- d / (full_price b * principal a / 100))%R in
    D = (principal a / 100 * modified)%R /\ (0 < modified)%R /\ (D = modified <-> principal a = 100%R).
Proof.
  intros a b y D sd fl Or P S F Fp H. pose proof Or as (B & N & _ & Pp & _). unfold duration in H. destruct (pv_deriv b 0 y) as [d|] eqn:E; cbn [bind] in H; [|discriminate].
  destruct (Req_EM_T (full_price b) 0) as [Z0|Z0]; [discriminate|]. injection H as <-.
  destruct (pv_deriv_bp a b y d sd fl Or P S F E) as (c & Lc & Dc & Neg). exists c, d. split; [auto|]. split; [auto|]. cbv zeta.
  assert (M : (0 < - d / (full_price b * principal a / 100))%R).
  { apply Rdiv_lt_0_compat; [lra|]. apply Rmult_lt_0_compat; [apply Rmult_lt_0_compat; auto|lra]. }
  assert (Eq : (- d / full_price b = principal a / 100 * (- d / (full_price b * principal a / 100)))%R) by (field; split; lra).
  split; [exact Eq|]. split; [exact M|]. rewrite Eq. split.
  - intros H. assert (principal a / 100 = 1)%R; [|lra]. apply (Rmult_eq_reg_r (- d / (full_price b * principal a / 100))%R); lra.
  - intros ->. lra.
Qed.
Theorem C62_duration : forall a b y D sd fl, ordinary a b (purchase_date a) -> (0 < 1 + (y - 1 / 20000) / IZR (per_year (freq a)))%R ->
  add_business_days (purchase_date a) 1 (b_cal a) = Ok sd -> remaining_flows b (purchase_date a) sd fl -> (0 < full_price b)%R ->
  duration b y = Ok D ->
  exists c d, (y - 1 / 20000 < c < y + 1 / 20000)%R /\ derivable_pt_lim (fixed_rate_price (per_year (freq a)) fl) c d /\
    let modified := (- d / (full_price b * principal a / 100))%R in
    D = (principal a / 100 * modified)%R /\ (0 < modified)%R /\ (D = modified <-> principal a = 100%R).
Proof.
  assert (Hb : (one_bp / 2 = 1 / 20000)%R) by (unfold one_bp; field).
  rewrite <- Hb. exact duration_bp.
Qed.
Print Assumptions C62_duration.

Lemma add_pvta_spec b rate ref n l : per_year (freq (args b)) = n -> 0 < n -> (0 < 1 + rate / IZR n)%R -> forall s,
  add_pv_times_accrual b rate ref l s =
  do ts <- mapM (fun p => acc (b_dcc (args b)) ref (bp_date p)) (filter (fun p => settlement_date b <=? bp_unadjusted p) l);
  Ok (s + time_weighted n (List.map (fun x => (bp_amount (fst x), Q2R (snd x))) (combine (filter (fun p => settlement_date b <=? bp_unadjusted p) l) ts)) rate)%R.
Proof.
  intros E N P. unfold time_weighted. induction l as [|p l IH]; intros s.
  - cbn [add_pv_times_accrual filter mapM bind combine List.map]. rewrite rsum_nil. f_equal. lra.
  - cbn [add_pv_times_accrual filter is_payment_received bind]. destruct (settlement_date b <=? bp_unadjusted p); [|apply IH]. cbn [mapM].
    destruct (acc (b_dcc (args b)) ref (bp_date p)) as [q|]; cbn [bind]; [|reflexivity].
    unfold fixed_df. rewrite E. replace (n =? 0) with false by lia.
    destruct (Rlt_dec 0 (1 + rate / IZR n)) as [_|C]; [|contradiction]. cbn [bind]. rewrite IH.
    destruct (mapM _ _) as [ts|]; cbn [bind]; [|reflexivity]. f_equal. cbn [combine List.map fst snd]. rewrite rsum_cons. cbn [fst snd].
    rewrite Q2R_mult. replace (Q2R (inject_Z n)) with (IZR n) by (unfold Q2R, inject_Z; cbn; field). unfold Rdiv. ring.
Qed.
Lemma tw_app n fl fl' r : time_weighted n (fl ++ fl') r = (time_weighted n fl r + time_weighted n fl' r)%R.
Proof. unfold time_weighted. rewrite map_app. apply rsum_app. Qed.

(** Macaulay duration of a T+1 corporate bond at its yield: the present-value weighted average time of the remaining
    payments; divided by 1 + y/n it is minus the relative derivative of the price. *)
Theorem C62_macaulay : forall a b y m sd fl, ordinary a b (purchase_date a) -> b_settlement a = T_PLUS_ONE_BUSINESS ->
  (0 < 1 + y / IZR (per_year (freq a)))%R -> (0 < full_price b)%R ->
  add_business_days (purchase_date a) 1 (b_cal a) = Ok sd -> remaining_flows b (purchase_date a) sd fl ->
  ytm_residual b None y = Ok 0%R -> macaulay_duration b y None = Ok m ->
  let price := fixed_rate_price (per_year (freq a)) fl in
  m = (time_weighted (per_year (freq a)) fl y / price y)%R /\
  derivable_pt_lim price y (- (m / (1 + y / IZR (per_year (freq a)))) * price y)%R.
Proof.
  intros a b y m sd fl Or Cv P Fp S F R0 H. cbv zeta. pose proof Or as (B & N & _ & Pp & _). set (n := per_year (freq a)) in *.
  destruct (new_bond_inv _ _ B) as (Ea & _ & _ & _ & _ & Es & _). rewrite Cv in Es. cbn [calculate_settlement_date] in Es. rewrite S in Es. injection Es as Es.
  unfold ytm_residual in R0. destruct (C39_value a b y (purchase_date a) 0 B N P) as [_ E0]. rewrite E0 in R0.
  rewrite (value_intro a b y (purchase_date a) B N P sd fl S F) in R0. cbn [bind] in R0. injection R0 as R0. fold n in R0. rewrite Ea in R0.
  unfold macaulay_duration in H. rewrite Ea in H.
  assert (En : per_year (freq (args b)) = n) by (rewrite Ea; reflexivity).
  unfold remaining_flows, remaining in F. rewrite Ea, filter_app in F. apply Forall2_app_inv_l in F. destruct F as (f1 & f2 & F1 & F2 & Ef).
  destruct (times_of_flows bp_amount (fun p => acc (b_dcc a) (purchase_date a) (bp_date p)) _ _ F1) as (t1 & T1 & E1).
  destruct (times_of_flows bp_amount (fun p => acc (b_dcc a) (purchase_date a) (bp_date p)) _ _ F2) as (t2 & T2 & E2).
  rewrite (add_pvta_spec b y (purchase_date a) n (coupons b) En N P), Ea, <- Es in H. apply mapM_Forall2 in T1. rewrite T1 in H. cbn [bind] in H.
  rewrite (add_pvta_spec b y (purchase_date a) n (redemption b) En N P), Ea, <- Es in H. apply mapM_Forall2 in T2. rewrite T2 in H. cbn [bind] in H.
  rewrite <- E1, <- E2 in H. destruct (Req_EM_T _ 0) as [Z0|Z0]; [discriminate|]. injection H as H.
  assert (Ep : (full_price b * principal a / 100 = fixed_rate_price n fl y)%R) by lra. rewrite Ep in H, Z0.
  assert (Em : m = (time_weighted n fl y / fixed_rate_price n fl y)%R).
  { rewrite <- H, Ef, tw_app. f_equal. lra. }
  split; [exact Em|].
  replace (- (m / (1 + y / IZR n)) * fixed_rate_price n fl y)%R with (- time_weighted n fl y / (1 + y / IZR n))%R.
  - apply frp_derivative; auto.
  - rewrite Em. fold n in P. set (k := (1 + y / IZR n)%R) in *. clearbody k. field. split; auto. lra.
Qed.
Print Assumptions C62_macaulay.

(** ... and it is defined there. *)
Theorem C62_macaulay_defined : forall a b y sd, ordinary a b (purchase_date a) -> b_settlement a = T_PLUS_ONE_BUSINESS ->
  (0 < 1 + y / IZR (per_year (freq a)))%R -> (0 < full_price b)%R -> add_business_days (purchase_date a) 1 (b_cal a) = Ok sd ->
  exists m, macaulay_duration b y None = Ok m.
Proof.
  intros a b y sd Or Cv P Fp S. pose proof Or as (B & N & _ & Pp & _). set (n := per_year (freq a)) in *.
  destruct (new_bond_inv _ _ B) as (Ea & _ & _ & _ & _ & Es & _). rewrite Cv in Es. cbn [calculate_settlement_date] in Es. rewrite S in Es. injection Es as Es.
  destruct (ordinary_flows_exist a b _ sd Or S) as (fl & F).
  assert (En : per_year (freq (args b)) = n) by (rewrite Ea; reflexivity).
  unfold remaining_flows, remaining in F. rewrite Ea, filter_app in F. apply Forall2_app_inv_l in F. destruct F as (f1 & f2 & F1 & F2 & Ef).
  destruct (times_of_flows bp_amount (fun p => acc (b_dcc a) (purchase_date a) (bp_date p)) _ _ F1) as (t1 & T1 & E1).
  destruct (times_of_flows bp_amount (fun p => acc (b_dcc a) (purchase_date a) (bp_date p)) _ _ F2) as (t2 & T2 & E2).
  unfold macaulay_duration. rewrite Ea.
  rewrite (add_pvta_spec b y (purchase_date a) n (coupons b) En N P), Ea, <- Es. apply mapM_Forall2 in T1. rewrite T1. cbn [bind].
  rewrite (add_pvta_spec b y (purchase_date a) n (redemption b) En N P), Ea, <- Es. apply mapM_Forall2 in T2. rewrite T2. cbn [bind].
  assert (0 < full_price b * principal a / 100)%R by (apply Rmult_lt_0_compat; [apply Rmult_lt_0_compat; auto|lra]).
  destruct (Req_EM_T _ 0); [lra|eauto].
Qed.
Print Assumptions C62_macaulay_defined.
Example C62_case : exists a b y m sd fl, ordinary a b (purchase_date a) /\ b_settlement a = T_PLUS_ONE_BUSINESS /\
  (0 < 1 + y / IZR (per_year (freq a)))%R /\ (0 < full_price b)%R /\ add_business_days (purchase_date a) 1 (b_cal a) = Ok sd /\
  remaining_flows b (purchase_date a) sd fl /\ ytm_residual b None y = Ok 0%R /\ macaulay_duration b y None = Ok m.
Proof.
  destruct C39_case as (mat & purch & b & _ & _ & Or & Fp & S & _).
  destruct (C39_unique_yield _ b purch _ Or Fp S) as (y & [Py Ry] & _).
  destruct (ordinary_flows_exist _ b purch _ Or S) as (fl & F).
  destruct (C62_macaulay_defined _ b y _ Or eq_refl Py Fp S) as (m & M).
  exists (note UsTreasury mat purch 2), b, y, m, (ymd2ord 2023 9 5), fl. repeat (split; [first [exact Or | exact Py | exact Fp | exact S | exact F | reflexivity]|]).
  split; [|exact M]. rewrite <- Ry. unfold ytm_residual. pose proof Or as (B & N & _).
  destruct (C39_value _ b y purch 0%R B N Py) as [_ E]. change (purchase_date (note UsTreasury mat purch 2)) with purch in E. rewrite E. reflexivity.
Qed.

(** The convexity method cannot be called. *)
Theorem C62_convexity_refuted : forall b y, convexity b y = Err AttributeError.
Proof. reflexivity. Qed.
Print Assumptions C62_convexity_refuted.

(** ---- C63: Treasury futures ---- *)
(** UsTreasuryFuture(...) raises TypeError whatever its arguments: it leaves two inherited methods abstract. *)
Theorem C63_future_refuted : forall purchase maturity c cal, new_future treasury_future_class purchase maturity c cal = Err TypeError.
Proof. reflexivity. Qed.
Print Assumptions C63_future_refuted.
(** A class that inherits from it, adding methods of the given names (not __init__), can be created exactly when both
    missing methods are among them. *)
Theorem C63_subclass : forall names purchase maturity c cal,
  new_future (Class treasury_future_class [] names) purchase maturity c cal =
  if existsb (String.eqb "to_knot_value_pair") names && existsb (String.eqb "present_value") names
  then future_init purchase maturity c cal else Err TypeError.
Proof.
  intros. unfold new_future, instantiate. change (abstract_methods (Class treasury_future_class [] names)) with
    (filter (fun s => negb (existsb (String.eqb s) names)) ["to_knot_value_pair"; "present_value"]%string).
  cbn [filter]. destruct (existsb (String.eqb "to_knot_value_pair") names), (existsb (String.eqb "present_value") names); reflexivity.
Qed.
Print Assumptions C63_subclass.
(** For such a subclass: the mark-to-market dates are the US business days from settlement to maturity, each once and in order, with unknown
    amounts (so the contract's cashflow has present value 0); the calendar passed only moves the settlement date. *)
Theorem C63_future : forall k purchase maturity c cal sd cf, date_ok purchase -> new_future k purchase maturity c cal = Ok (sd, cf) ->
  calculate_settlement_date purchase c cal = Ok sd /\
  (forall x, In x (get_payment_dates cf) <-> sd <= x <= maturity /\ business US_FEDERAL_HOLIDAYS x) /\
  StronglySorted Z.lt (get_payment_dates cf) /\
  (forall p, In p cf -> amount p = None) /\
  (forall spline dc, cf_present_value spline cf dc = Ok 0%R).
Proof.
  intros k purchase maturity c cal sd cf O H. unfold new_future, instantiate in H. destruct (abstract_methods k); [|discriminate]. unfold future_init in H.
  destruct (calculate_settlement_date purchase c cal) as [s|] eqn:S; cbn [bind] in H; [|discriminate].
  destruct (generate_business_days s maturity US_FEDERAL_HOLIDAYS) as [days|] eqn:G; cbn [bind] in H; [|discriminate]. injection H as -> H.
  split; [auto|]. pose proof (settle_isbd _ _ _ _ O S) as [Os _]. destruct (C15_enumeration _ _ _ _ Os G) as [I Ss].
  assert (Id : get_payment_dates cf = days).
  { rewrite <- H. unfold new_cashflow, get_payment_dates. rewrite sort_by_id; rewrite map_map; cbn; rewrite map_id; auto. apply SS_lt_le. auto. }
  assert (A : forall p, In p cf -> amount p = None).
  { intros p Ip. rewrite <- H in Ip. unfold new_cashflow in Ip. apply (Permutation_in p (sort_by_perm _ _)) in Ip. apply in_map_iff in Ip. destruct Ip as (d & <- & _). reflexivity. }
  rewrite Id. split; [auto|]. split; [auto|]. split; [auto|]. intros spline dc. unfold cf_present_value.
  replace (pv_terms spline cf dc) with (@Ok (list R) []); [reflexivity|]. clear -A. induction cf as [|p cf IH]; [reflexivity|].
  cbn [pv_terms]. rewrite (A p (or_introl eq_refl)). apply IH. intros; apply A. right. auto.
Qed.
Print Assumptions C63_future.

Example C63_case : exists purch mat sd cf, mk_date 2023 6 16 = Ok purch /\ mk_date 2023 6 22 = Ok mat /\
  new_future (Class treasury_future_class [] ["present_value"; "to_knot_value_pair"]%string) purch mat T_PLUS_ONE_BUSINESS [] = Ok (sd, cf) /\ sd = ymd2ord 2023 6 19 /\
  get_payment_dates cf = [ymd2ord 2023 6 20; ymd2ord 2023 6 21; ymd2ord 2023 6 22].
Proof. do 4 eexists. split; [vm_compute; reflexivity|]. split; [vm_compute; reflexivity|]. split; [vm_compute; reflexivity|]. split; vm_compute; reflexivity. Qed.
