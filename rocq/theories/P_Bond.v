(** Property theorems C36-C40 (Treasury and corporate fixed rate bonds). *)
From Verif Require Import Base LoopFacts PyDate PyDateFacts DayCount DayCountFacts Holidays Scheduler SchedulerFacts UsFacts ModFollFacts CalendarSpec PyList KeyRate KeyRateFacts Curve CurveFacts Cashflow CashflowFacts Bond BondFacts P_Scheduler.
From Coq Require Import Sorting.Sorted Permutation Lra Lqa.
Open Scope Z_scope.
Ltac lra := first [Lra.lra | Lqa.lra].
Ltac nra := first [Lra.nra | Lqa.nra].

(** Vocabulary. *)
Definition tenor_in_months (t : tenor) : option Z := match t with Years n => Some (12 * n) | Months n => Some n | BadTenor => None end.
(** months between two coupons *)
Definition period (f : frequency) : option Z := match f with QUARTERLY => Some 3 | SEMI_ANNUAL => Some 6 | ANNUAL => Some 12 | _ => None end.
Definition unadjusted (b : bond) : list date := List.map bp_unadjusted (coupons b).

Lemma period_step f m : period f = Some m -> coupon_step f = Ok (Some m).
Proof. destruct f; cbn; congruence. Qed.
Lemma tenor_dated a t dd : tenor_in_months (b_tenor a) = Some t -> calculate_dated_date a = Ok dd -> add_months (maturity_date a) (- t) = Ok dd.
Proof. unfold calculate_dated_date. destruct (b_tenor a); cbn; intros [= <-]; auto. Qed.

Section Schedule.
  Context (a : bond_args) (b : bond) (t m : Z).
  Hypothesis (B : new_bond a = Ok b) (O : date_ok (maturity_date a)) (D : day (maturity_date a) <= 28)
    (T : tenor_in_months (b_tenor a) = Some t) (M : period (freq a) = Some m).

  Lemma schedule_facts : exists l, Permutation (unadjusted b) l /\ StronglySorted Z.le (List.map bp_date (coupons b)) /\ 0 < m /\
    m * per_year (freq a) = 12 /\
    Z.of_nat (List.length l) = Z.max 0 (Z.min 1001 (ceil_div t m)) /\
    (forall i x, nth_error l i = Some x <-> Z.of_nat i <= 1000 /\ Z.of_nat i * m < t /\ add_months (maturity_date a) (- (Z.of_nat i * m)) = Ok x) /\
    (forall p, In p (coupons b) -> adjustment_function a (bp_unadjusted p) = Ok (bp_date p) /\ bp_amount p = calculate_coupon_payment a).
  Proof.
    destruct (new_bond_inv _ _ B) as (_ & _ & Ed & Ec & _). apply coupons_spec in Ec. rewrite (period_step _ _ M) in Ec.
    destruct Ec as (l & G & _ & P & S & A). destruct (step_pos _ _ (period_step _ _ M)) as (F & Mp & _). exists l.
    destruct (back_grid_length _ m t l _ O D Mp (tenor_dated _ _ _ T Ed) G) as [L N]. auto 10.
  Qed.

  Lemma grid_nth_order l : 0 < m -> (forall i x, nth_error l i = Some x <-> Z.of_nat i <= 1000 /\ Z.of_nat i * m < t /\ add_months (maturity_date a) (- (Z.of_nat i * m)) = Ok x) ->
    forall i j x y, (i < j)%nat -> nth_error l i = Some x -> nth_error l j = Some y -> y < x.
  Proof.
    intros Mp N i j x y L Ei Ej. apply N in Ei. apply N in Ej. destruct Ei as (_ & _ & Ei). destruct Ej as (_ & _ & Ej).
    apply (add_months_order _ _ _ _ _ D Ej Ei). nia.
  Qed.
End Schedule.

(** ---- C36 ---- *)
(** For maturities up to the 28th: the unadjusted coupon dates are exactly maturity minus 0, 1, 2, ... periods as long as
    these lie strictly after the dated date (at most 1001 of them), and the payment dates are in increasing order. *)
Theorem C36_coupon_dates : forall a b t m, new_bond a = Ok b -> date_ok (maturity_date a) -> day (maturity_date a) <= 28 ->
  tenor_in_months (b_tenor a) = Some t -> period (freq a) = Some m ->
  add_months (maturity_date a) (- t) = Ok (dated_date b) /\
  (forall x, In x (unadjusted b) <-> exists k, 0 <= k <= 1000 /\ add_months (maturity_date a) (- (k * m)) = Ok x /\ dated_date b < x) /\
  NoDup (unadjusted b) /\
  StronglySorted Z.le (List.map bp_date (coupons b)).
Proof.
  intros a b t m B O D T M. destruct (new_bond_inv _ _ B) as (_ & _ & Ed & _). pose proof (tenor_dated _ _ _ T Ed) as Td.
  destruct (schedule_facts a b t m B O D T M) as (l & P & S & Mp & F & L & N & A).
  split; [exact Td|]. split; [|split; [|exact S]].
  - intros x. split.
    + intros I. apply (Permutation_in x P) in I. apply In_nth_error in I. destruct I as (i & E). apply N in E.
      destruct E as (L1 & L2 & E). exists (Z.of_nat i). repeat split; auto; [lia|]. apply (add_months_order _ _ _ _ _ D Td E). lia.
    + intros (k & K & E & Lt). apply (Permutation_in x (Permutation_sym P)). apply nth_error_In with (n := Z.to_nat k). apply N.
      rewrite Z2Nat.id by lia. repeat split; auto; [lia|]. pose proof (add_months_order _ _ _ _ _ D Td E). lia.
  - apply (Permutation_NoDup (Permutation_sym P)). apply nodup_nth. intros i j x Ei Ej. apply N in Ei. apply N in Ej.
    assert (- (Z.of_nat i * m) = - (Z.of_nat j * m)) by (eapply add_months_inj; [exact D | apply Ei | apply Ej]). nia.
Qed.
Print Assumptions C36_coupon_dates.

(** How many: the tenor over the period, rounded up; for a tenor of n years, n times the frequency. *)
Theorem C36_count : forall a b t m, new_bond a = Ok b -> date_ok (maturity_date a) -> day (maturity_date a) <= 28 ->
  tenor_in_months (b_tenor a) = Some t -> period (freq a) = Some m -> 0 <= t <= 1001 * m ->
  (Z.of_nat (List.length (coupons b)) - 1) * m < t <= Z.of_nat (List.length (coupons b)) * m /\
  (forall n, b_tenor a = Years n -> Z.of_nat (List.length (coupons b)) = n * per_year (freq a)).
Proof.
  intros a b t m B O D T M Tb. destruct (schedule_facts a b t m B O D T M) as (l & P & S & Mp & F & L & N & A).
  apply Permutation_length in P. unfold unadjusted in P. rewrite map_length in P. rewrite P, L.
  assert (C : 0 <= ceil_div t m <= 1001).
  { pose proof (ceil_div_spec t m 1001 Mp). pose proof (ceil_div_spec t m (-1) Mp). lia. }
  rewrite Z.max_r, Z.min_r by lia. split.
  - pose proof (ceil_div_spec t m (ceil_div t m) Mp). pose proof (ceil_div_spec t m (ceil_div t m - 1) Mp). lia.
  - intros n E. rewrite E in T. cbn [tenor_in_months] in T. assert (t = 12 * n) as -> by congruence.
    pose proof (ceil_div_spec (12 * n) m (n * per_year (freq a)) Mp). pose proof (ceil_div_spec (12 * n) m (n * per_year (freq a) - 1) Mp).
    assert (n * per_year (freq a) * m = 12 * n) by (rewrite <- F; ring).
    assert ((n * per_year (freq a) - 1) * m = 12 * n - m) by (rewrite <- F; ring). lia.
Qed.
Print Assumptions C36_count.

(** With the US calendar the schedule read backwards is maturity, maturity - 1 period, maturity - 2 periods, ... *)
Theorem C36_us_order : forall a b t m, new_bond a = Ok b -> date_ok (maturity_date a) -> day (maturity_date a) <= 28 ->
  tenor_in_months (b_tenor a) = Some t -> period (freq a) = Some m -> b_cal a = US_FEDERAL_HOLIDAYS ->
  StronglySorted Z.lt (unadjusted b) /\
  (forall i x, nth_error (rev (unadjusted b)) i = Some x <->
     Z.of_nat i <= 1000 /\ Z.of_nat i * m < t /\ add_months (maturity_date a) (- (Z.of_nat i * m)) = Ok x).
Proof.
  intros a b t m B O D T M C. destruct (schedule_facts a b t m B O D T M) as (l & P & S & Mp & F & L & N & A).
  pose proof (grid_nth_order a t m D l Mp N) as Or.
  assert (SU : StronglySorted Z.lt (unadjusted b)).
  { apply (SS_two bp_date bp_unadjusted); [exact S | apply (C36_coupon_dates a b t m); auto |].
    intros p q Ip Iq Le Ne. destruct (Z.lt_ge_cases (bp_unadjusted p) (bp_unadjusted q)) as [X|X]; [auto|]. exfalso.
    assert (G : forall r, In r (coupons b) -> exists k, add_months (maturity_date a) (- (k * m)) = Ok (bp_unadjusted r)).
    { intros r Ir. assert (I : In (bp_unadjusted r) (unadjusted b)) by (apply in_map; auto). apply (Permutation_in _ P) in I.
      apply In_nth_error in I. destruct I as (i & E). apply N in E. exists (Z.of_nat i). apply E. }
    destruct (G p Ip) as (kp & Gp). destruct (G q Iq) as (kq & Gq).
    destruct (add_months_28 _ _ _ D Gp) as (Op & Dp & Mp'). destruct (add_months_28 _ _ _ D Gq) as (Oq & Dq & Mq').
    assert (Gap : bp_unadjusted q + 28 <= bp_unadjusted p).
    { assert (Dd : day (bp_unadjusted q) = day (bp_unadjusted p)) by congruence. apply index_gap; [exact Dd|]. apply (proj1 (index_lt _ _ Dd)). lia. }
    pose proof (us_adjust a _ _ C Op (proj1 (A p Ip))). pose proof (us_adjust a _ _ C Oq (proj1 (A q Iq))). lia. }
  split; [exact SU|]. assert (E : rev (unadjusted b) = l).
  { rewrite <- (rev_involutive l). f_equal. apply sorted_perm_eq; auto; [apply SS_rev_gt; auto|]. rewrite P. apply Permutation_rev. }
  rewrite E. exact N.
Qed.
Print Assumptions C36_us_order.

(** For any maturity day: the dates are obtained from maturity by stepping back one period at a time (each step clamping the
    day to the month), keeping those after the dated date. *)
Theorem C36_any_day : forall a b m, new_bond a = Ok b -> period (freq a) = Some m ->
  exists l up, Permutation (unadjusted b) l /\ positive_increment (maturity_date a) (Relativedelta (- m) 0) = Ok up /\
    (l <> [] -> nth_error l 0 = Some (maturity_date a)) /\
    (forall j x y, nth_error l j = Some x -> nth_error l (S j) = Some y -> add_months x (- m) = Ok y) /\
    (up = false -> forall x, In x l -> dated_date b < x).
Proof.
  intros a b m B M. destruct (new_bond_inv _ _ B) as (_ & _ & Ed & Ec & _). apply coupons_spec in Ec. rewrite (period_step _ _ M) in Ec.
  destruct Ec as (l & G & _ & P & S & A). destruct (C17_grid_steps _ _ _ _ _ G) as (up & U & H & St & W & _).
  exists l, up. split; [exact P|]. split; [exact U|]. split; [exact H|]. split.
  - intros j x y Ex Ey. specialize (St j x y Ex Ey). cbn [add_increment] in St.
    destruct (add_months x (- m)) as [z|]; cbn [bind] in St; [|discriminate]. apply add_days_ok in St. destruct St as [-> _]. f_equal. lia.
  - intros -> x I. specialize (W x I). unfold within in W. lia.
Qed.
Print Assumptions C36_any_day.

(** Zero coupon bonds have no coupons, monthly ones are refused. *)
Theorem C36_zero_coupon_and_monthly : forall a b, new_bond a = Ok b -> (freq a = ZERO_COUPON -> coupons b = [] /\ accrued_interest b = 0%R) /\ freq a <> MONTHLY.
Proof.
  intros a b B. destruct (new_bond_inv _ _ B) as (_ & _ & _ & Ec & _ & _ & Ea & _). apply coupons_spec in Ec. split.
  - intros Z0. rewrite Z0 in Ec. cbn in Ec. split; [exact Ec|]. unfold calculate_accrued_interest in Ea. rewrite Z0 in Ea. injection Ea as <-. auto.
  - intros Z0. rewrite Z0 in Ec. exact Ec.
Qed.
Print Assumptions C36_zero_coupon_and_monthly.

(** a sample: 2Y semi-annual note *)
Definition note (cl : bond_class) (mat purch : date) (n : Z) : bond_args :=
  BondArgs cl 99 5 100 (Years n) purch mat T_PLUS_ONE_BUSINESS SEMI_ANNUAL ACTACT FOLLOWING US_FEDERAL_HOLIDAYS.

(** Non-vacuity, and the effect of a month-end maturity: from 31 August the step back reaches 28 February and then
    28 August, so not every coupon date is maturity minus whole periods. *)
Ltac build_bond := eapply new_bond_intro; [vm_compute; reflexivity | vm_compute; reflexivity | vm_compute; reflexivity | vm_compute; reflexivity | vm_compute; reflexivity | cbn; lra].
Example C36_case : exists mat purch b, mk_date 2025 2 15 = Ok mat /\ mk_date 2023 3 1 = Ok purch /\ new_bond (note UsTreasury mat purch 2) = Ok b /\
  List.length (coupons b) = 4%nat /\ day mat <= 28.
Proof.
  eexists. eexists. eexists. split; [vm_compute; reflexivity|]. split; [vm_compute; reflexivity|]. split; [build_bond|].
  split; [reflexivity|vm_compute; discriminate].
Qed.

Theorem C36_month_end_refuted : exists mat purch b x, mk_date 2025 8 31 = Ok mat /\ mk_date 2023 10 2 = Ok purch /\
  new_bond (note UsTreasury mat purch 2) = Ok b /\ In x (unadjusted b) /\ forall k, 0 <= k <= 4 -> add_months mat (- (6 * k)) <> Ok x.
Proof.
  eexists. eexists. eexists. exists (ymd2ord 2024 8 28). split; [vm_compute; reflexivity|]. split; [vm_compute; reflexivity|]. split; [build_bond|].
  split; [vm_compute; auto|]. intros k K. assert (k = 0 \/ k = 1 \/ k = 2 \/ k = 3 \/ k = 4) as Q by lia.
  destruct Q as [-> | [-> | [-> | [-> | ->]]]]; vm_compute; discriminate.
Qed.
Print Assumptions C36_month_end_refuted.

(** ---- C37 ---- *)
(** Each coupon pays principal x rate(%) / 100 / frequency on a business day, the adjustment of its unadjusted date; the
    principal is paid once, on the adjusted maturity date. *)
Theorem C37_amounts_and_dates : forall a b, new_bond a = Ok b -> date_ok (maturity_date a) ->
  (forall p, In p (coupons b) -> bp_amount p = (principal a * (coupon_rate a / 100) / IZR (per_year (freq a)))%R /\
     adjustment_function a (bp_unadjusted p) = Ok (bp_date p)) /\
  (exists d, adjustment_function a (maturity_date a) = Ok d /\ business (b_cal a) d /\
     redemption b = [BondPayment d (principal a) (maturity_date a)]).
Proof.
  intros a b B O. destruct (new_bond_inv _ _ B) as (_ & _ & _ & Ec & Ep & _). apply coupons_spec in Ec. split.
  - intros p I. destruct (coupon_step (freq a)) as [[m|]|e] eqn:St; [|rewrite Ec in I; contradiction|contradiction].
    destruct Ec as (l & _ & _ & _ & _ & A). destruct (A p I) as [A1 A2]. split; [|auto]. rewrite A2.
    destruct (step_pos _ _ St) as (_ & _ & Pos & NZ). unfold calculate_coupon_payment.
    assert (0 < IZR (per_year (freq a)))%R by (apply IZR_lt; lia).
    destruct (freq a); try congruence; cbn [per_year] in *; field; lra.
  - unfold create_principal_repayment_cashflow in Ep. destruct (adjustment_function a (maturity_date a)) as [d|] eqn:E; cbn [bind] in Ep; [|discriminate].
    injection Ep as Ep. exists d. split; [auto|]. split; [apply (adjust_isbd a (maturity_date a) d O E) | auto].
Qed.
Print Assumptions C37_amounts_and_dates.
(** the coupon amount the bond reports, also with no coupons at all *)
Theorem C37_coupon_amount : forall a b, new_bond a = Ok b ->
  (freq a = ZERO_COUPON -> coupon_payment b = 0%R /\ coupons b = []) /\
  (freq a <> ZERO_COUPON -> coupon_payment b = (principal a * (coupon_rate a / 100) / IZR (per_year (freq a)))%R).
Proof.
  intros a b B. destruct (new_bond_inv _ _ B) as (_ & -> & _ & Ec & _). unfold calculate_coupon_payment. split; intros F.
  - rewrite F. split; [reflexivity|]. apply coupons_spec in Ec. rewrite F in Ec. exact Ec.
  - destruct (freq a); try congruence; cbn [per_year]; field.
Qed.
Print Assumptions C37_coupon_amount.

(** The adjustment is the next business day, or, modified following, the previous one if that leaves the month. *)
Theorem C37_adjustment : forall a d r, date_ok d -> adjustment_function a d = Ok r ->
  business (b_cal a) r /\
  (b_adjust a = FOLLOWING -> d <= r /\ forall y, d <= y < r -> non_business (b_cal a) y) /\
  (b_adjust a = MODIFIED_FOLLOWING -> b_cal a = US_FEDERAL_HOLIDAYS -> year r = year d /\ month r = month d).
Proof.
  intros a d r O E. split; [apply (adjust_isbd a d r O E)|]. unfold adjustment_function in E. split.
  - intros F. rewrite F in E. apply C11_following_business_day in E; auto. tauto.
  - intros F C. rewrite F, C in E. destruct (C14_us d O) as (r' & E' & _ & Y & Mo & _). rewrite E' in E. injection E as <-. auto.
Qed.
Print Assumptions C37_adjustment.

(** The total paid by a bond with a whole number of years. *)
Theorem C37_total : forall a b n m, new_bond a = Ok b -> date_ok (maturity_date a) -> day (maturity_date a) <= 28 ->
  b_tenor a = Years n -> period (freq a) = Some m -> 0 <= 12 * n <= 1001 * m ->
  (rsum (List.map bp_amount (coupons b)) + rsum (List.map bp_amount (redemption b)) =
   principal a * (1 + IZR n * (coupon_rate a / 100)))%R.
Proof.
  intros a b n m B O D T M Tb. assert (T' : tenor_in_months (b_tenor a) = Some (12 * n)) by (rewrite T; reflexivity).
  destruct (C36_count a b (12 * n) m B O D T' M Tb) as [_ L]. specialize (L n T).
  destruct (C37_amounts_and_dates a b B O) as [A (d & _ & _ & ->)].
  assert (S : forall l, (forall p, In p l -> bp_amount p = (principal a * (coupon_rate a / 100) / IZR (per_year (freq a)))%R) ->
     rsum (List.map bp_amount l) = (INR (List.length l) * (principal a * (coupon_rate a / 100) / IZR (per_year (freq a))))%R).
  { induction l as [|p l IH]; intros H; [cbn; unfold rsum; cbn; lra|]. cbn [List.map]. rewrite rsum_cons, IH by (intros; apply H; right; auto).
    rewrite H by (left; auto). cbn [List.length]. rewrite S_INR. lra. }
  rewrite S by (intros p I; apply A; auto). cbn [List.map bp_amount]. rewrite rsum_cons, rsum_nil, INR_IZR_INZ, L, mult_IZR.
  destruct (step_pos _ _ (period_step _ _ M)) as (_ & _ & Pos & _). assert (0 < IZR (per_year (freq a)))%R by (apply IZR_lt; lia).
  field. lra.
Qed.
Print Assumptions C37_total.

Lemma sorted_last {A} (f : A -> Z) l : forall d p, StronglySorted Z.le (List.map f l) -> In p l -> f p <= f (last l d).
Proof.
  induction l as [|q l IH]; intros d p Ss I; [contradiction|]. cbn [List.map] in Ss. inversion Ss as [|? ? S1 S2]; subst.
  destruct l as [|q' l]; [destruct I as [->|[]]; cbn; lia|].
  change (last (q :: q' :: l) d) with (last (q' :: l) d). destruct I as [->|I]; [|apply IH; auto].
  rewrite Forall_forall in S2. apply S2. apply in_map. apply last_in. discriminate.
Qed.

(** The knot used for curve building: the clean price, at the last payment. *)
Theorem C37_knot : forall a b d v, new_bond a = Ok b -> bond_to_knot b = Ok (d, v) -> v = price a /\
  (exists p, In p (coupons b ++ redemption b) /\ bp_date p = d) /\ forall p, In p (coupons b ++ redemption b) -> bp_date p <= d.
Proof.
  intros a b d v B E. destruct (new_bond_inv _ _ B) as (Ea & _ & _ & Ec & Ep & _). unfold bond_to_knot in E.
  unfold create_principal_repayment_cashflow in Ep. destruct (adjustment_function a (maturity_date a)) as [r|]; cbn [bind] in Ep; [|discriminate].
  injection Ep as Ep. rewrite <- Ep in *. cbn [bp_date] in E. injection E as <- <-. split; [congruence|].
  apply coupons_spec in Ec. destruct (coupons b) as [|c cs] eqn:C.
  - cbn. split; [eexists; split; [left; reflexivity|reflexivity]|]. intros p [<-|[]]. cbn. lia.
  - destruct (coupon_step (freq a)) as [[m|]|]; [|discriminate|contradiction]. destruct Ec as (l & _ & _ & _ & Ss & _).
    assert (La : In (last (c :: cs) c) (c :: cs)) by (apply last_in; discriminate).
    assert (Mx : forall p, In p (c :: cs) -> bp_date p <= bp_date (last (c :: cs) c)).
    { intros p I. apply sorted_last; auto. }
    match goal with |- context [Z.max ?x r] => change x with (bp_date (last (c :: cs) c)) end. clear -La Mx.
    split.
    + destruct (Z.max_spec (bp_date (last (c :: cs) c)) r) as [[_ X]|[_ X]]; rewrite X.
      * eexists. split; [apply in_or_app; right; left; reflexivity | reflexivity].
      * eexists. split; [apply in_or_app; left; exact La | reflexivity].
    + intros p I. apply in_app_or in I. destruct I as [I|[<-|[]]]; [specialize (Mx p I)|]; cbn [bp_date] in *; lia.
Qed.
Print Assumptions C37_knot.

Example C37_case : exists mat purch b, mk_date 2025 2 15 = Ok mat /\ mk_date 2023 3 1 = Ok purch /\ new_bond (note UsTreasury mat purch 2) = Ok b /\
  bond_to_knot b = Ok (ymd2ord 2025 2 18, 99%R) /\ (exists p, In p (coupons b) /\ bp_unadjusted p <> bp_date p).
Proof.
  eexists. eexists. eexists. split; [vm_compute; reflexivity|]. split; [vm_compute; reflexivity|]. split; [build_bond|].
  split; [reflexivity|]. eexists. split; [cbn; right; right; right; left; reflexivity|vm_compute; discriminate].
Qed.

(** ---- C38 ---- *)
(** The coupon periods: from the dated date to the first unadjusted coupon date, and between consecutive ones.  If
    settlement lies in period number j (from s to e), and the coupons paid by the purchase date are exactly those ending
    earlier periods, accrued interest is the coupon times the fraction of the period elapsed at settlement. *)
Theorem C38_accrued : forall a b j s e, new_bond a = Ok b -> freq a <> ZERO_COUPON -> StronglySorted Z.lt (unadjusted b) ->
  nth_error (dated_date b :: unadjusted b) j = Some s -> nth_error (unadjusted b) j = Some e ->
  s <= settlement_date b <= e -> (s < settlement_date b \/ j = 0%nat) ->
  (forall i c, nth_error (coupons b) i = Some c -> (bp_date c <= purchase_date a <-> (i < j)%nat)) ->
  exists num den, compute_accrual_length (Day s) (Day (settlement_date b)) (b_dcc a) = Ok num /\
    compute_accrual_length (Day s) (Day e) (b_dcc a) = Ok den /\ ~ (den == 0)%Q /\
    accrued_interest b = (Q2R (num / den) * coupon_payment b)%R.
Proof.
  intros a b j s e B Z0 Ss Es Ee Lt Lt' G. destruct (new_bond_inv _ _ B) as (_ & _ & _ & _ & _ & _ & Ea & _).
  unfold calculate_accrued_interest in Ea. destruct (unadjusted b) as [|u us] eqn:U; [destruct j; discriminate|].
  assert (F : nth_unadjusted (coupons b) 0 = Ok u).
  { change 0 with (Z.of_nat 0). apply nth_unadjusted_ok. fold (unadjusted b). rewrite U. reflexivity. }
  assert (Jl : (j < List.length (coupons b))%nat).
  { rewrite <- (map_length bp_unadjusted). fold (unadjusted b). rewrite U. apply nth_error_Some. congruence. }
  assert (Body : (do sd <- @Ok date (settlement_date b); if settlement_date b <? dated_date b then Err ValueError
      else do first <- nth_unadjusted (coupons b) 0; do period <- (if sd <=? first then Ok (dated_date b, first)
         else let i := bisect_right (List.map bp_date (coupons b)) (purchase_date a) in
              do p <- nth_unadjusted (coupons b) (i - 1); do f <- nth_unadjusted (coupons b) i; Ok (p, f));
        do num <- acc (b_dcc a) (fst period) (settlement_date b); do den <- acc (b_dcc a) (fst period) (snd period);
        do frac <- qdiv num den; Ok (Q2R frac * coupon_payment b)%R) = Ok (accrued_interest b)).
  { destruct (freq a); try congruence; destruct (cls a); exact Ea. }
  clear Ea. cbn [bind] in Body. destruct (settlement_date b <? dated_date b); [discriminate|]. rewrite F in Body. cbn [bind] in Body.
  assert (P : exists per, (if settlement_date b <=? u then Ok (dated_date b, u)
         else let i := bisect_right (List.map bp_date (coupons b)) (purchase_date a) in
              do p <- nth_unadjusted (coupons b) (i - 1); do f <- nth_unadjusted (coupons b) i; Ok (p, f)) = Ok per /\ per = (s, e)).
  { destruct j as [|j].
    - cbn in Es, Ee. injection Es as <-. injection Ee as <-. replace (settlement_date b <=? u) with true by lia. eauto.
    - cbn in Es. assert (s < settlement_date b) by (destruct Lt'; [auto|discriminate]).
      assert (u <= s).
      { inversion Ss as [|? ? S1 S2]; subst. destruct j; cbn in Es; [injection Es as <-; lia|]. apply nth_error_In in Es.
        rewrite Forall_forall in S2. specialize (S2 s Es). lia. }
      replace (settlement_date b <=? u) with false by lia. cbv zeta.
      rewrite (bisect_right_at _ _ (S j)); [|rewrite map_length; lia|].
      + replace (Z.of_nat (S j) - 1) with (Z.of_nat j) by lia.
        rewrite (nth_unadjusted_ok (coupons b) j s) by (fold (unadjusted b); rewrite U; exact Es). cbn [bind].
        rewrite (nth_unadjusted_ok (coupons b) (S j) e) by (fold (unadjusted b); rewrite U; exact Ee). cbn [bind]. eauto.
      + intros i y Ey. rewrite nth_error_map in Ey. destruct (nth_error (coupons b) i) as [c|] eqn:Ec; [|discriminate]. cbn in Ey. injection Ey as <-.
        apply (G i c Ec). }
  destruct P as (per & Pe & ->). cbv zeta in Pe, Body. rewrite Pe in Body. cbn [bind fst snd] in Body.
  destruct (acc (b_dcc a) s (settlement_date b)) as [num|] eqn:En; cbn [bind] in Body; [|discriminate].
  destruct (acc (b_dcc a) s e) as [den|] eqn:Ed; cbn [bind] in Body; [|discriminate].
  unfold qdiv in Body. destruct (Qeq_bool den 0) eqn:D0; cbn [bind] in Body; [discriminate|]. injection Body as <-.
  exists num, den. split; [exact En|]. split; [exact Ed|]. split; [|reflexivity]. intros C. apply Qeq_bool_neq in D0. auto.
Qed.
Print Assumptions C38_accrued.

(** For the actual day counts it then lies between 0 and one coupon, 0 exactly at the start of the period, the whole coupon
    exactly at its end, and increases in between. *)
Theorem C38_bounds : forall c s d d' e coupon, c <> THIRTY360 -> real_date s -> real_date e -> s <= d <= d' -> d' <= e -> s < e -> (0 < coupon)%R ->
  exists num num' den, compute_accrual_length (Day s) (Day d) c = Ok num /\ compute_accrual_length (Day s) (Day d') c = Ok num' /\ compute_accrual_length (Day s) (Day e) c = Ok den /\
  let accrued := (Q2R (num / den) * coupon)%R in let accrued' := (Q2R (num' / den) * coupon)%R in
  (0 <= accrued <= coupon)%R /\ (accrued = 0%R <-> d = s) /\ (accrued = coupon <-> d = e) /\ (accrued = accrued' <-> d = d') /\ (accrued <= accrued')%R.
Proof.
  intros c s d d' e cp N Os Oe L L' Lse Cp.
  destruct (acc_order c s d e N Os Oe ltac:(lia)) as (num & den & En & Ed & B & P1 & P2 & P3 & P4).
  destruct (acc_order c s e e N Os Oe ltac:(lia)) as (den' & den'' & Ed' & _ & _ & P5 & _). rewrite Ed in Ed'. injection Ed' as <-. specialize (P5 Lse).
  assert (Od' : real_date d').
  { destruct Os as [[S1 S2] S3], Oe as [[E1 E2] E3]. split; [split; lia|]. pose proof (year_mono s d' ltac:(lia)). lia. }
  destruct (acc_order c s d d' N Os Od' ltac:(lia)) as (num2 & num' & En2 & En' & B' & _ & P6 & _ & P7). rewrite En in En2. injection En2 as <-.
  exists num, num', den. split; [exact En|]. split; [exact En'|]. split; [exact Ed|]. cbv zeta.
  assert (Fl : forall x, (Q2R (x / den) = Q2R x / Q2R den)%R) by (intros x; rewrite Q2R_div; [reflexivity|lra]).
  rewrite !Fl. assert (D0 : (0 < Q2R den)%R) by (replace 0%R with (Q2R 0) by (unfold Q2R; cbn; lra); apply Qlt_Rlt; exact P5).
  assert (R1 : (0 <= Q2R num <= Q2R den)%R).
  { split; [replace 0%R with (Q2R 0) by (unfold Q2R; cbn; lra)|]; apply Qle_Rle; lra. }
  assert (R2 : (Q2R num <= Q2R num')%R) by (apply Qle_Rle; lra).
  assert (Iv : (0 < / Q2R den)%R) by (apply Rinv_0_lt_compat; auto).
  assert (Sc : forall x y, (x / Q2R den * cp = y / Q2R den * cp -> x = y)%R).
  { intros x y H. apply Rmult_eq_reg_r in H; [|lra]. unfold Rdiv in H. apply Rmult_eq_reg_r in H; lra. }
  assert (Mo : forall x y, (x <= y -> x / Q2R den * cp <= y / Q2R den * cp)%R).
  { intros x y H. apply Rmult_le_compat_r; [lra|]. unfold Rdiv. apply Rmult_le_compat_r; lra. }
  assert (Z0 : (0 / Q2R den * cp = 0)%R) by (unfold Rdiv; ring). assert (Z1 : (Q2R den / Q2R den * cp = cp)%R) by (field; lra).
  assert (Qi : forall x y, Q2R x = Q2R y -> (x == y)%Q) by (intros; apply eqR_Qeq; auto).
  split; [|split; [|split; [|split]]].
  - split; [rewrite <- Z0; apply Mo; lra | rewrite <- Z1 at 2; apply Mo; lra].
  - split.
    + intros H. rewrite <- Z0 in H. apply Sc in H. assert (d = s \/ s < d) as [|X] by lia; auto. exfalso. specialize (P1 X). apply Qlt_Rlt in P1.
      replace (Q2R 0) with 0%R in P1 by (unfold Q2R; cbn; lra). lra.
    + intros ->. specialize (P3 eq_refl). apply Qeq_eqR in P3. replace (Q2R 0) with 0%R in P3 by (unfold Q2R; cbn; lra). rewrite P3. exact Z0.
  - split.
    + intros H. rewrite <- Z1 in H at 2. apply Sc in H. assert (d = e \/ d < e) as [|X] by lia; auto. exfalso. specialize (P2 X). apply Qlt_Rlt in P2. lra.
    + intros ->. specialize (P4 eq_refl). apply Qeq_eqR in P4. rewrite P4. exact Z1.
  - split.
    + intros H. apply Sc in H. assert (d = d' \/ d < d') as [|X] by lia; auto. exfalso. specialize (P6 X). apply Qlt_Rlt in P6. lra.
    + intros ->. specialize (P7 eq_refl). apply Qeq_eqR in P7. rewrite P7. reflexivity.
  - apply Mo. exact R2.
Qed.
Print Assumptions C38_bounds.

(** The full price is the clean price plus accrued interest per 100 of principal. *)
Theorem C38_full_price : forall a b, new_bond a = Ok b -> full_price b = (price a + 100 * accrued_interest b / principal a)%R /\
  (settlement_date b < dated_date b -> freq a = ZERO_COUPON).
Proof.
  intros a b B. destruct (new_bond_inv _ _ B) as (_ & _ & _ & _ & _ & _ & Ea & -> & N). split; [field; auto|]. intros L.
  unfold calculate_accrued_interest in Ea. replace (settlement_date b <? dated_date b) with true in Ea by lia.
  destruct (freq a); auto; destruct (cls a); discriminate.
Qed.
Print Assumptions C38_full_price.

Example C38_case : exists mat purch b, mk_date 2025 2 15 = Ok mat /\ mk_date 2023 9 1 = Ok purch /\ new_bond (note UsTreasury mat purch 2) = Ok b /\
  nth_error (dated_date b :: unadjusted b) 1 = Some (ymd2ord 2023 8 15) /\ nth_error (unadjusted b) 1 = Some (ymd2ord 2024 2 15) /\
  settlement_date b = ymd2ord 2023 9 5 /\ StronglySorted Z.lt (unadjusted b) /\
  (forall i c, nth_error (coupons b) i = Some c -> (bp_date c <= purch <-> (i < 1)%nat)).
Proof.
  eexists. eexists. eexists. split; [vm_compute; reflexivity|]. split; [vm_compute; reflexivity|]. split; [build_bond|].
  split; [vm_compute; reflexivity|]. split; [vm_compute; reflexivity|]. split; [vm_compute; reflexivity|]. split.
  - cbn. repeat constructor.
  - intros i c E. destruct i as [|[|[|[|i]]]]; cbn in E; try (injection E as <-; cbn; lia). destruct i; discriminate.
Qed.

(** Deviations.  A bond whose first coupon falls on a Saturday cannot be constructed with a purchase on the Friday before:
    settlement (Monday) is past the coupon date, the coupon is not paid by the purchase date, and the index wraps. *)
Theorem C38_first_coupon_refuted : exists mat purch, mk_date 2025 2 26 = Ok mat /\ mk_date 2023 8 25 = Ok purch /\
  new_bond (note UsTreasury mat purch 2) = Err ValueError.
Proof. eexists. eexists. split; [vm_compute; reflexivity|]. split; [vm_compute; reflexivity|]. vm_compute. reflexivity. Qed.
Print Assumptions C38_first_coupon_refuted.

(** ... and with an earlier coupon before it, accrued interest exceeds the coupon. *)
Theorem C38_exceeds_coupon_refuted : exists mat purch b, mk_date 2025 2 26 = Ok mat /\ mk_date 2023 8 25 = Ok purch /\
  new_bond (note UsTreasury mat purch 3) = Ok b /\ (accrued_interest b > coupon_payment b)%R /\ (coupon_payment b > 0)%R.
Proof.
  eexists. eexists. eexists. split; [vm_compute; reflexivity|]. split; [vm_compute; reflexivity|]. split; [build_bond|].
  cbn [accrued_interest coupon_payment calculate_coupon_payment note freq principal coupon_rate per_year].
  unfold Q2R. cbn [QArith_base.Qnum QArith_base.Qden]. split; lra.
Qed.
Print Assumptions C38_exceeds_coupon_refuted.
