(** Swaps: C44-C46, C64. *)
From Verif Require Import Base PyDate PyDateFacts DayCount DayCountFacts Holidays Scheduler SchedulerFacts UsFacts ModFollFacts P_Scheduler KeyRate KeyRateFacts PyList Curve CurveFacts Cashflow CashflowFacts P_Cashflow Bond BondFacts P_DayCount Loan LoanFacts P_BondYield Swap SwapFacts.
From Coq Require Import Lra Lqa Reals Permutation.
Open Scope Z_scope.
Ltac lra := first [Lra.lra | Lqa.lra].
Ltac nra := first [Lra.nra | Lqa.nra].
Local Opaque add_business_days.

(** ---- C44 ---- *)
(** the length of the swap in months *)
Definition tenor_months (t : tenor) : option Z := match t with Years n => Some (12 * n) | Months n => Some n | BadTenor => None end.

(** The legs' schedules are [accrual_schedule] at the leg's own frequency and day count. *)
Theorem C44_contiguous : forall a s f c accs, date_ok (sw_purchase a) -> new_swap a = Ok s -> accrual_schedule s f c = Ok accs ->
  (forall i p q, nth_error accs i = Some p -> nth_error accs (S i) = Some q -> end_accrual p = start_accrual q) /\
  (forall p, In p accs -> start_accrual p <= end_accrual p /\ compute_accrual_length (Day (start_accrual p)) (Day (end_accrual p)) c = Ok (accrual_factor p) /\
     business (sw_cal a) (start_accrual p) /\ business (sw_cal a) (end_accrual p)) /\
  (forall p, nth_error accs (List.length accs - 1) = Some p -> sw_adjustment a (sw_end s) = Ok (end_accrual p)).
Proof.
  intros a s f c accs O N E. destruct (new_swap_inv a s O N) as (T & _ & Ea & _ & _ & _ & Oe & _). destruct (accruals_inv _ _ _ _ E) as [h].
  pose proof (us_ok _ _ _ _ h Oe) as Ok_us. rewrite Forall_forall in Ok_us.
  split; [|split].
  - intros i p q P Q. destruct (accs_nth _ _ _ _ h i p P) as (_ & _ & _ & _ & _ & _ & _ & _ & D1). destruct (accs_nth _ _ _ _ h (S i) q Q) as (_ & _ & _ & _ & _ & _ & _ & D2 & _). congruence.
  - intros p I. apply In_nth_error in I. destruct I as [i I]. destruct (accs_nth _ _ _ _ h i p I) as (u & v & U & V & Au & Av & Ac & _). rewrite Ea in Au, Av.
    split; [eapply acc_le; exact Ac|]. split; [exact Ac|]. split; eapply sw_adjust_isbd; [|exact Au| |exact Av]; apply Ok_us; eapply nth_error_In; [exact U|exact V].
  - intros p P. destruct (accs_nth _ _ _ _ h _ p P) as (u & v & U & V & Au & Av & _). rewrite Ea in Av.
    assert (Li : (0 < List.length accs)%nat) by (destruct accs; [discriminate|cbn; lia]). replace (List.length accs - 1 - (List.length accs - 1))%nat with 0%nat in V by lia.
    destruct (us_chain _ _ _ _ h) as [H0 _]. rewrite H0 in V; [congruence|]. intros Z0. rewrite Z0 in V. discriminate.
Qed.
Print Assumptions C44_contiguous.

(** Start days up to the 28th: the periods are whole steps counted back from the end; there are min(1000, T / m) of them. *)
Theorem C44_periods : forall a s f c accs m T, date_ok (sw_purchase a) -> new_swap a = Ok s -> accrual_schedule s f c = Ok accs -> swap_step f = Ok m ->
  tenor_months (sw_tenor a) = Some T -> 0 <= T -> day (sw_start s) <= 28 ->
  Z.of_nat (List.length accs) = Z.min 1000 (T / m) /\
  forall i p, nth_error accs i = Some p -> exists u v, let k := Z.of_nat (List.length accs - 1 - i) in
    add_months (sw_start s) (T - (k + 1) * m) = Ok u /\ add_months (sw_start s) (T - k * m) = Ok v /\
    sw_adjustment a u = Ok (start_accrual p) /\ sw_adjustment a v = Ok (end_accrual p).
Proof.
  intros a s f c accs m T O N E Stp Tm Tp D. destruct (new_swap_inv a s O N) as (T' & HT & Ea & Es & Bs & AT & Oe & _).
  assert (T' = T). { destruct HT as [[HT1 HT2]|HT]; unfold tenor_months in Tm; [rewrite HT1 in Tm|rewrite HT in Tm]; congruence. } subst T'. clear HT.
  destruct (accruals_inv _ _ _ _ E) as [h]. pose proof (ac_step _ _ _ _ h) as Stp'. rewrite Stp in Stp'. injection Stp' as Em.
  destruct (swap_step_bounds _ _ Stp) as [M _]. pose proof (ac_grid _ _ _ _ h) as G. rewrite <- Em in G.
  destruct Bs as [Os _]. destruct (add_months_28 _ _ _ D AT) as (_ & De & _).
  assert (Gr := back_grid (sw_end s) (sw_start s) m _ Oe ltac:(lia) ltac:(lia) G).
  (* month shifts of the end are month shifts of the start *)
  assert (Sh : forall k x, add_months (sw_end s) (- (k * m)) = Ok x <-> add_months (sw_start s) (T - k * m) = Ok x).
  { intros k x. split; intros H; [exact (add_months_comp _ _ _ _ _ D AT H)|]. apply (add_months_back (sw_start s) T (- (k * m)) (sw_end s) x D AT).
    rewrite <- H. f_equal. }
  assert (Rg : forall k x, add_months (sw_start s) (T - k * m) = Ok x -> (sw_start s <= x <-> k * m <= T)).
  { intros k x H. pose proof (add_months_order (sw_start s) (T - k * m) 0 x (sw_start s) D H (add_months_0 _ Os)). lia. }
  set (us := ac_us _ _ _ _ h) in *. destruct (accs_length _ _ _ _ h) as [L1 _]. fold us in L1.
  assert (Lu : Z.of_nat (List.length us) = Z.min 1001 (T / m + 1)).
  { assert (T0 : 0 <= T / m) by (apply Z.div_pos; lia).
    assert (Up : forall i, (i < List.length us)%nat -> Z.of_nat i <= Z.min 1000 (T / m)).
    { intros i Li. destruct (nth_error us i) as [x|] eqn:Ex; [|apply nth_error_None in Ex; lia]. apply Gr in Ex. destruct Ex as (B & A & L). apply Sh in A. apply (Rg _ _ A) in L.
      assert (Z.of_nat i <= T / m) by (apply Z.div_le_lower_bound; lia). lia. }
    assert (Dn : forall i, Z.of_nat i <= Z.min 1000 (T / m) -> (i < List.length us)%nat).
    { intros i Li. assert (Hm : Z.of_nat i * m <= T) by (pose proof (Z.mul_div_le T m ltac:(lia)); nia).
      assert (exists x, add_months (sw_start s) (T - Z.of_nat i * m) = Ok x) as [x A].
      { destruct (add_months_parts _ _ _ AT) as (_ & Me & _). apply date_ok_year in Oe, Os. pose proof (date_parts (sw_end s)) as (Be & _). pose proof (date_parts (sw_start s)) as (Bs & _).
        set (t := year (sw_start s) * 12 + (month (sw_start s) - 1) + (T - Z.of_nat i * m)) in *. exists (ymd2ord (t / 12) (t mod 12 + 1) (Z.min (day (sw_start s)) (days_in_month (t / 12) (t mod 12 + 1)))).
        apply add_months_ok. exists (t / 12), (t mod 12 + 1). pose proof (Z.div_mod t 12 ltac:(lia)). pose proof (Z.mod_pos_bound t 12 ltac:(lia)).
        assert (0 <= Z.of_nat i * m) by nia. unfold t in *. repeat split; lia. }
      apply nth_error_Some. assert (nth_error us i = Some x) by (apply Gr; split; [lia|split; [apply Sh; exact A|apply (Rg _ _ A); exact Hm]]). congruence. }
    destruct (Nat.eq_dec (List.length us) 0) as [Z0|Z0]; [specialize (Dn 0%nat ltac:(lia)); lia|].
    assert (A1 := Up (List.length us - 1)%nat ltac:(lia)). assert (A2 : ~ (Z.of_nat (List.length us) <= Z.min 1000 (T / m))) by (intros H; specialize (Dn _ H); lia). lia. }
  split; [assert (0 <= T / m) by (apply Z.div_pos; lia); lia|].
  intros i p P. destruct (accs_nth _ _ _ _ h i p P) as (u & v & U & V & Au & Av & _). rewrite Ea in Au, Av. fold us in U, V. exists u, v. cbv zeta.
  assert (Li : (i < List.length accs)%nat) by (apply nth_error_Some; congruence).
  apply Gr in U. apply Gr in V. destruct U as (_ & U & _), V as (_ & V & _). apply Sh in U. apply Sh in V.
  replace (Z.of_nat (List.length accs - 1 - i) + 1) with (Z.of_nat (List.length accs - i)) by lia. auto.
Qed.
Print Assumptions C44_periods.

(** If the step divides the tenor, the periods run from the start accrual date to the adjusted end accrual date. *)
Theorem C44_tiles : forall a s f c accs m n, date_ok (sw_purchase a) -> new_swap a = Ok s -> accrual_schedule s f c = Ok accs -> swap_step f = Ok m ->
  tenor_months (sw_tenor a) = Some (n * m) -> 0 < n <= 1000 -> day (sw_start s) <= 28 ->
  Z.of_nat (List.length accs) = n /\
  (exists p, nth_error accs 0 = Some p /\ start_accrual p = sw_start s) /\
  (exists p, nth_error accs (List.length accs - 1) = Some p /\ sw_adjustment a (sw_end s) = Ok (end_accrual p)).
Proof.
  intros a s f c accs m n O N E Stp Tm Np D. destruct (swap_step_bounds _ _ Stp) as [M _].
  destruct (C44_periods a s f c accs m (n * m) O N E Stp Tm ltac:(nia) D) as [L P]. rewrite Z.div_mul in L by lia.
  assert (Ln : Z.of_nat (List.length accs) = n) by lia. split; [exact Ln|].
  destruct (new_swap_inv a s O N) as (_ & _ & _ & _ & Bs & _). split.
  - destruct (nth_error accs 0) as [p|] eqn:E0; [|apply nth_error_None in E0; lia]. exists p. split; [auto|]. destruct (P 0%nat p E0) as (u & v & U & _ & Au & _). cbv zeta in U.
    replace (n * m - (Z.of_nat (List.length accs - 1 - 0) + 1) * m) with 0 in U by nia. destruct Bs as [Os Bs]. rewrite add_months_0 in U by auto. injection U as <-.
    rewrite (sw_adjust_fix a _ (conj Os Bs)) in Au. congruence.
  - destruct (nth_error accs (List.length accs - 1)) as [p|] eqn:E0; [|apply nth_error_None in E0; lia]. exists p. split; [auto|].
    apply (C44_contiguous a s f c accs O N E). exact E0.
Qed.
Print Assumptions C44_tiles.

(** Each leg accrues with its own frequency and day count: the periods that [leg_periods] requires. *)
Definition leg_periods (a : swap_args) (s : swap) (f : frequency) (c : dcc) (accs : list swap_accrual) : Prop :=
  (forall p, In p accs -> compute_accrual_length (Day (start_accrual p)) (Day (end_accrual p)) c = Ok (accrual_factor p)) /\
  exists m, swap_step f = Ok m /\
    forall T, tenor_months (sw_tenor a) = Some T -> 0 <= T -> day (sw_start s) <= 28 ->
      Z.of_nat (List.length accs) = Z.min 1000 (T / m) /\
      forall i p, nth_error accs i = Some p -> exists u v, let k := Z.of_nat (List.length accs - 1 - i) in
        add_months (sw_start s) (T - (k + 1) * m) = Ok u /\ add_months (sw_start s) (T - k * m) = Ok v /\
        sw_adjustment a u = Ok (start_accrual p) /\ sw_adjustment a v = Ok (end_accrual p).
Theorem C44_legs : forall a s accs, date_ok (sw_purchase a) -> new_swap a = Ok s ->
  (generate_fixed_leg_accrual_schedule s = Ok accs -> leg_periods a s (sw_fixed_freq a) (sw_fixed_dcc a) accs) /\
  (generate_floating_leg_accrual_schedule s = Ok accs -> leg_periods a s (sw_float_freq a) (sw_float_dcc a) accs).
Proof.
  intros a s accs O N. destruct (new_swap_inv a s O N) as (_ & _ & Ea & _).
  assert (G : forall f c, accrual_schedule s f c = Ok accs -> leg_periods a s f c accs).
  { intros f c E. split; [intros p I; apply (C44_contiguous a s f c accs O N E), I|]. destruct (accruals_inv _ _ _ _ E) as [h]. eexists. split; [exact (ac_step _ _ _ _ h)|]. intros T Tm Tp D. exact (C44_periods a s f c accs _ T O N E (ac_step _ _ _ _ h) Tm Tp D). }
  unfold generate_fixed_leg_accrual_schedule, generate_floating_leg_accrual_schedule. rewrite Ea. split; apply G.
Qed.
Print Assumptions C44_legs.

(** The swap's knot: its rate on the settlement date plus the tenor, the date whose adjustment ends every non-empty schedule. *)
Theorem C44_knot : forall a s d v, date_ok (sw_purchase a) -> new_swap a = Ok s -> sw_to_knot s = (d, v) -> v = sw_rate a /\
  (exists T start, tenor_months (sw_tenor a) = Some T /\ calculate_settlement_date (sw_purchase a) (sw_settlement a) (sw_cal a) = Ok start /\ add_months start T = Ok d) /\
  forall f c accs p, accrual_schedule s f c = Ok accs -> nth_error accs (List.length accs - 1) = Some p -> sw_adjustment a d = Ok (end_accrual p).
Proof.
  intros a s d v O N [= <- <-]. split; [destruct (new_swap_inv a s O N) as (_ & _ & -> & _); reflexivity|]. split; [|intros f c accs p E; apply (C44_contiguous a s f c accs O N E)].
  unfold new_swap, calculate_start_end_accrual_dates in N. destruct (calculate_settlement_date (sw_purchase a) (sw_settlement a) (sw_cal a)) as [st|] eqn:Es; cbn [bind] in N; [|discriminate].
  destruct (sw_tenor a) as [n|n|]; cbn [tenor_months bind] in *; [| |discriminate]; (destruct (add_months st _) as [e|] eqn:Ee; cbn [bind] in N; [|discriminate]); injection N as <-; cbn [sw_end fst snd]; eexists; exists st; (split; [reflexivity|]); (split; [reflexivity|exact Ee]).
Qed.
Print Assumptions C44_knot.

(** On the US calendar every period has positive length. *)
Theorem C44_us_strict : forall a s f c accs p, date_ok (sw_purchase a) -> sw_cal a = US_FEDERAL_HOLIDAYS -> new_swap a = Ok s -> accrual_schedule s f c = Ok accs ->
  In p accs -> start_accrual p + 21 < end_accrual p.
Proof.
  intros a s f c accs p O C N E I. destruct (new_swap_inv a s O N) as (T & _ & Ea & _ & _ & _ & Oe & _). destruct (accruals_inv _ _ _ _ E) as [h].
  apply In_nth_error in I. destruct I as [i I]. assert (Li : (i < List.length accs)%nat) by (apply nth_error_Some; congruence).
  destruct (accs_nth _ _ _ _ h i p I) as (u & v & U & V & Au & Av & _). rewrite Ea in Au, Av.
  pose proof (us_ok _ _ _ _ h Oe) as Ok_us. rewrite Forall_forall in Ok_us. pose proof (Ok_us u (nth_error_In _ _ U)) as Ou. pose proof (Ok_us v (nth_error_In _ _ V)) as Ov.
  apply (sw_adjust_us _ _ _ C Ou) in Au. apply (sw_adjust_us _ _ _ C Ov) in Av.
  destruct (us_chain _ _ _ _ h) as [_ H]. replace (List.length accs - i)%nat with (S (List.length accs - 1 - i)) in U by lia. specialize (H _ _ _ V U).
  destruct (add_months_parts _ _ _ H) as (_ & Mi & _). destruct (swap_step_bounds _ _ (ac_step _ _ _ _ h)) as [M _].
  assert (G := gap_months u v). unfold month_index in G. specialize (G ltac:(lia)). lia.
Qed.
Print Assumptions C44_us_strict.

(** monthly and zero-coupon legs are refused *)
Theorem C44_unsupported_frequency : forall s c, accrual_schedule s MONTHLY c = Err ValueError /\ accrual_schedule s ZERO_COUPON c = Err ValueError.
Proof. intros. split; reflexivity. Qed.
Print Assumptions C44_unsupported_frequency.

(** ---- payments ---- *)
Lemma gen_fixed_inv s set s' c : generate_fixed_leg_cashflow s set = (s', Ok c) -> exists accs ps, generate_fixed_leg_accrual_schedule s = Ok accs /\
  Forall2 (fun p q => fixed_payment (sw s) (sw_rate (sw s)) p = Ok q) accs ps /\ c = new_cashflow ps /\ s' = set_leg FIXED_LEG set c s.
Proof.
  unfold generate_fixed_leg_cashflow. destruct (generate_fixed_leg_accrual_schedule s) as [accs|]; cbn [bind]; [|intros; discriminate].
  destruct (mapM _ accs) as [ps|] eqn:E; intros [= <- <-]. exists accs, ps. apply mapM_Forall2 in E. auto.
Qed.
Lemma gen_float_inv s rate set s' c : generate_floating_leg_cashflow s rate set = (s', Ok c) -> exists accs ps, generate_floating_leg_accrual_schedule s = Ok accs /\
  Forall2 (fun p q => (match sw_class (sw s) with Term => term_payment (sw s) rate | Overnight => ois_payment (sw s) rate end) p = Ok q) accs ps /\ c = new_cashflow ps /\ s' = set_leg FLOATING_LEG set c s.
Proof.
  unfold generate_floating_leg_cashflow. destruct (generate_floating_leg_accrual_schedule s) as [accs|]; cbn [bind]; [|intros; discriminate].
  destruct (mapM _ accs) as [ps|] eqn:E; intros [= <- <-]. exists accs, ps. apply mapM_Forall2 in E. auto.
Qed.

(** C64: what a leg pays, and when.  One payment per accrual period, in date order. *)
Theorem C64_fixed_leg : forall s set s' c, generate_fixed_leg_cashflow s set = (s', Ok c) -> exists accs ps, generate_fixed_leg_accrual_schedule s = Ok accs /\ Permutation c ps /\
  Forall2 (fun p q => calculate_settlement_date (end_accrual p) (sw_delay (sw s)) (sw_cal (sw s)) = Ok (payment_date q) /\
                      amount q = Some (Q2R (accrual_factor p) * sw_notional (sw s) * sw_rate (sw s))%R) accs ps.
Proof.
  intros s set s' c E. destruct (gen_fixed_inv _ _ _ _ E) as (accs & ps & A & F & -> & _). exists accs, ps. split; [auto|]. split; [apply sort_by_perm|].
  eapply Forall2_weaken; [|exact F]. intros p q H. unfold fixed_payment in H. destruct (calculate_settlement_date _ _ _) as [d|]; cbn [bind] in H; [|discriminate]. injection H as <-. auto.
Qed.
Print Assumptions C64_fixed_leg.

Theorem C64_term_floating_leg : forall s rate set s' c, sw_class (sw s) = Term -> generate_floating_leg_cashflow s rate set = (s', Ok c) ->
  exists accs ps, generate_floating_leg_accrual_schedule s = Ok accs /\ Permutation c ps /\
  Forall2 (fun p q => exists fixing r, calculate_settlement_date (start_accrual p) (sw_fixing (sw s)) (sw_cal (sw s)) = Ok fixing /\ rate fixing = Ok r /\
                      calculate_settlement_date (end_accrual p) (sw_delay (sw s)) (sw_cal (sw s)) = Ok (payment_date q) /\
                      amount q = Some (Q2R (accrual_factor p) * sw_notional (sw s) * r)%R) accs ps.
Proof.
  intros s rate set s' c C E. destruct (gen_float_inv _ _ _ _ _ E) as (accs & ps & A & F & -> & _). exists accs, ps. split; [auto|]. split; [apply sort_by_perm|]. rewrite C in F.
  eapply Forall2_weaken; [|exact F]. intros p q H. unfold term_payment in H. destruct (calculate_settlement_date (start_accrual p) _ _) as [fx|] eqn:Ef; cbn [bind] in H; [|discriminate].
  destruct (rate fx) as [r|] eqn:Er; cbn [bind] in H; [|discriminate]. destruct (calculate_settlement_date (end_accrual p) _ _) as [d|] eqn:Ed; cbn [bind] in H; [|discriminate].
  injection H as <-. exists fx, r. auto.
Qed.
Print Assumptions C64_term_floating_leg.

(** generating a leg stores it or not, as asked, and never touches the other leg or the terms *)
Definition legs_of (s : swap) : option (option cashflow) * option (option cashflow) := (dict_get (cfc_dict (sw_legs s)) FIXED_LEG, dict_get (cfc_dict (sw_legs s)) FLOATING_LEG).
Lemma dict_get_set d k v k' : dict_get (dict_set d k v) k' = if key_eqb k k' then Some v else dict_get d k'.
Proof.
  assert (KE : forall a b, key_eqb a b = true <-> a = b) by (intros [] []; cbn; split; congruence || auto).
  induction d as [|[k0 v0] d IH]; cbn [dict_set dict_get].
  - reflexivity.
  - destruct (key_eqb k0 k) eqn:C; cbn [dict_get].
    + apply KE in C. subst k0. destruct (key_eqb k k'); reflexivity.
    + destruct (key_eqb k0 k') eqn:C'; [|exact IH]. apply KE in C'. subst k0. destruct (key_eqb k k') eqn:C2; [|reflexivity]. apply KE in C2. subst k'. rewrite (proj2 (KE k k) eq_refl) in C. discriminate.
Qed.
Lemma set_leg_get k set c s k' : dict_get (cfc_dict (sw_legs (set_leg k set c s))) k' = if set && key_eqb k k' then Some (Some c) else dict_get (cfc_dict (sw_legs s)) k'.
Proof.
  unfold set_leg. destruct set; [|reflexivity]. cbn [sw_legs andb]. unfold cfc_setitem. destruct (cfc_contains (sw_legs s) k); cbn [cfc_dict]; apply dict_get_set.
Qed.
Theorem C64_set_cashflow : forall s set,
  (let '(s', r) := generate_fixed_leg_cashflow s set in sw s' = sw s /\ sw_start s' = sw_start s /\ sw_end s' = sw_end s /\
     legs_of s' = match r with Ok c => if set then (Some (Some c), snd (legs_of s)) else legs_of s | Err _ => legs_of s end) /\
  forall rate, let '(s', r) := generate_floating_leg_cashflow s rate set in sw s' = sw s /\ sw_start s' = sw_start s /\ sw_end s' = sw_end s /\
     legs_of s' = match r with Ok c => if set then (fst (legs_of s), Some (Some c)) else legs_of s | Err _ => legs_of s end.
Proof.
  intros s set. split; [|intros rate].
  - unfold generate_fixed_leg_cashflow. destruct (bind _ _) as [ps|]; [|auto]. cbv zeta. unfold legs_of. rewrite !set_leg_get. destruct set; cbn; auto.
  - unfold generate_floating_leg_cashflow. destruct (bind _ _) as [ps|]; [|auto]. cbv zeta. unfold legs_of. rewrite !set_leg_get. destruct set; cbn; auto.
Qed.
Print Assumptions C64_set_cashflow.

(** payment dates never precede the accrual they pay for (delays of zero or more business days) *)
Theorem C64_paid_in_arrears : forall s set s' c, date_ok (sw_purchase (sw s)) -> new_swap (sw s) = Ok s -> generate_fixed_leg_cashflow s set = (s', Ok c) ->
  In (sw_delay (sw s)) [T_PLUS_ZERO_BUSINESS; T_PLUS_ONE_BUSINESS; T_PLUS_TWO_BUSINESS; T_PLUS_THREE_BUSINESS] ->
  exists accs ps, generate_fixed_leg_accrual_schedule s = Ok accs /\ Permutation c ps /\ Forall2 (fun p q => end_accrual p <= payment_date q /\ business (sw_cal (sw s)) (payment_date q)) accs ps.
Proof.
  intros s set s' c O N E D. destruct (C64_fixed_leg _ _ _ _ E) as (accs & ps & A & P & F). exists accs, ps. split; [auto|]. split; [auto|].
  destruct (C44_contiguous _ _ _ _ _ O N A) as (_ & B & _). clear P A E.
  assert (G : Forall2 (fun p q => In p accs /\ calculate_settlement_date (end_accrual p) (sw_delay (sw s)) (sw_cal (sw s)) = Ok (payment_date q)) accs ps).
  { clear B. assert (W : forall l l', Forall2 (fun p q => calculate_settlement_date (end_accrual p) (sw_delay (sw s)) (sw_cal (sw s)) = Ok (payment_date q) /\ amount q = Some (Q2R (accrual_factor p) * sw_notional (sw s) * sw_rate (sw s))%R) l l' -> (forall x, In x l -> In x accs) ->
      Forall2 (fun p q => In p accs /\ calculate_settlement_date (end_accrual p) (sw_delay (sw s)) (sw_cal (sw s)) = Ok (payment_date q)) l l').
    { induction 1 as [|x y l l' [H _] H' IH]; intros S0; constructor; [split; [apply S0; left; auto|exact H]|apply IH; intros z I; apply S0; right; auto]. }
    apply W; auto. }
  eapply Forall2_weaken; [|exact G]. intros p q [I H]. destruct (B p I) as (_ & _ & _ & Bd). destruct (C18_settlement _ _ _ _ (proj1 Bd) H) as (Bq & _ & Ns). split; [|exact Bq].
  assert (exists n, settles_in_business_days (sw_delay (sw s)) = Some n /\ 0 <= n) as (n & En & Pn).
  { cbn in D. destruct D as [<- | [<- | [<- | [<- | []]]]]; cbn; eauto; eexists; (split; [reflexivity|lia]). }
  destruct (Ns n En) as (t0 & T0 & X). rewrite (proj2 (Z.leb_le 0 n) Pn) in X. rewrite add0 in T0. apply seek_up_iff in T0; [|apply Bd]. destruct T0 as [T0 _]. lia.
Qed.
Print Assumptions C64_paid_in_arrears.

(** ---- C45 ---- *)
(** the same swap, seen at another fixed rate and direction *)
Definition at_terms (x : R) (d : direction) (a : swap_args) : swap_args :=
  SwapArgs (sw_class a) d x (sw_notional a) (sw_purchase a) (sw_settlement a) (sw_tenor a) (sw_float_freq a) (sw_fixed_freq a) (sw_float_dcc a) (sw_fixed_dcc a) (sw_cal a)
    (sw_fixing a) (sw_delay a) (sw_adjust a).
Definition with_direction (d : direction) (s : swap) : swap := Swap (at_terms (sw_rate (sw s)) d (sw s)) (sw_start s) (sw_end s) (sw_legs s).
Definition sign (d : direction) : R := match d with RECEIVER_FIXED => 1%R | PAYER_FIXED => (-1)%R end.

(** Payer and receiver values are opposite, and fail alike. *)
Theorem C45_opposite : forall spline s dc, 
  match sw_present_value spline (with_direction PAYER_FIXED s) dc with
  | Ok v => sw_present_value spline (with_direction RECEIVER_FIXED s) dc = Ok (- v)%R
  | Err e => sw_present_value spline (with_direction RECEIVER_FIXED s) dc = Err e
  end.
Proof.
  intros spline s dc. unfold sw_present_value, with_direction. cbn [sw sw_legs sw_dir at_terms].
  destruct (cfc_getitem _ FIXED_LEG) as [[fx|]|]; cbn [bind]; try reflexivity. destruct (cfc_getitem _ FLOATING_LEG) as [[fl|]|]; cbn [bind]; try reflexivity.
  destruct (cf_present_value spline fl dc) as [u|]; cbn [bind]; [|reflexivity]. destruct (cf_present_value spline fx dc) as [v|]; cbn [bind]; [|reflexivity]. f_equal. ring.
Qed.
Print Assumptions C45_opposite.

(** Before both legs are generated and stored the value is a ValueError. *)
Theorem C45_needs_legs : forall spline a s dc, date_ok (sw_purchase a) -> new_swap a = Ok s ->
  sw_present_value spline s dc = Err ValueError /\
  (forall set s' r, generate_fixed_leg_cashflow s set = (s', r) -> sw_present_value spline s' dc = Err ValueError) /\
  (forall rate set s' r, generate_floating_leg_cashflow s rate set = (s', r) -> sw_present_value spline s' dc = Err ValueError).
Proof.
  intros spline a s dc O N. destruct (new_swap_inv a s O N) as (_ & _ & _ & _ & _ & _ & _ & L).
  assert (H : forall s', fst (legs_of s') = Some None \/ (fst (legs_of s') <> None /\ snd (legs_of s') = Some None) -> sw_present_value spline s' dc = Err ValueError).
  { intros s' H. unfold legs_of in H. cbn [fst snd] in H. unfold sw_present_value, cfc_getitem. destruct H as [H|[H1 H2]].
    - rewrite H. reflexivity.
    - destruct (dict_get _ FIXED_LEG) as [[fx|]|]; [|reflexivity|contradiction]. cbn [bind]. rewrite H2. reflexivity. }
  assert (L0 : legs_of s = (Some None, Some None)) by (unfold legs_of; rewrite L; reflexivity).
  split; [apply H; left; rewrite L0; reflexivity|]. split.
  - intros set s' r E. apply H. destruct (C64_set_cashflow s set) as [Q _]. rewrite E in Q. destruct Q as (_ & _ & _ & Q). right. rewrite Q, L0.
    destruct r; [destruct set|]; cbn; split; congruence.
  - intros rate set s' r E. apply H. destruct (C64_set_cashflow s set) as [_ Q]. specialize (Q rate). rewrite E in Q. destruct Q as (_ & _ & _ & Q). left. rewrite Q, L0.
    destruct r; [destruct set|]; reflexivity.
Qed.
Print Assumptions C45_needs_legs.

(** the fixed leg per unit of rate: dates and weights (accrual times notional) *)
Definition unit_leg (a : swap_args) (accs : list swap_accrual) (leg : list (date * R)) : Prop :=
  Forall2 (fun p dw => calculate_settlement_date (end_accrual p) (sw_delay a) (sw_cal a) = Ok (fst dw) /\ snd dw = (Q2R (accrual_factor p) * sw_notional a)%R) accs leg.
(** its discounted value, over the dates satisfying [keep] *)
Definition leg_value (df : date -> R) (keep : date -> bool) (leg : list (date * R)) : R :=
  rsum (List.map (fun dw => if keep (fst dw) then (df (fst dw) * snd dw)%R else 0%R) leg).

Lemma annuity_spec spline a dc df accs : (forall d x, interpolate spline dc d None = Ok x -> df d = x) -> forall t v, annuity spline a dc accs t = Ok v ->
  exists leg, unit_leg a accs leg /\ v = (t + leg_value df (fun _ => true) leg)%R /\ forall dw, In dw leg -> interpolate spline dc (fst dw) None = Ok (df (fst dw)).
Proof.
  intros Df. induction accs as [|p accs IH]; intros t v; cbn [annuity].
  - intros [= <-]. exists []. split; [constructor|]. split; [|intros dw []]. unfold leg_value. cbn [List.map]. rewrite rsum_nil. lra.
  - destruct (calculate_settlement_date _ _ _) as [d|] eqn:Ed; cbn [bind]; [|discriminate]. destruct (interpolate spline dc d None) as [x|] eqn:Ex; cbn [bind]; [|discriminate].
    intros E. destruct (IH _ _ E) as (leg & U & V & I). exists ((d, (Q2R (accrual_factor p) * sw_notional a)%R) :: leg). split; [constructor; [split; [exact Ed|reflexivity]|exact U]|].
    split; [unfold leg_value in *; cbn [List.map fst snd]; rewrite rsum_cons; rewrite V, (Df d x Ex); lra|].
    intros dw [<- | J]; [cbn [fst]; rewrite (Df d x Ex); exact Ex|auto].
Qed.

(** The value of the swap at any fixed rate [x], from its implied rate [r]: A is the fixed leg per unit rate on all its dates,
    B the part of it paid before the curve's reference date (which present values leave out, but the implied rate does not). *)
Theorem C45_implied_rate : forall spline a s dc rate set s1 r, date_ok (sw_purchase a) -> new_swap a = Ok s -> implied_rate spline s dc rate set = (s1, Ok r) ->
  exists accs leg df, generate_fixed_leg_accrual_schedule s = Ok accs /\ unit_leg a accs leg /\
    (forall dw, In dw leg -> interpolate spline dc (fst dw) None = Ok (df (fst dw))) /\
    let A := leg_value df (fun _ => true) leg in let B := leg_value df (fun d => d <? c_ref dc) leg in
    A <> 0%R /\
    forall x d, exists s0 s2 s3 c2 c3, new_swap (at_terms x d a) = Ok s0 /\ generate_floating_leg_cashflow s0 rate true = (s2, Ok c2) /\
      generate_fixed_leg_cashflow s2 true = (s3, Ok c3) /\ sw_present_value spline s3 dc = Ok (sign d * (x * (A - B) - r * A))%R.
Proof.
  intros spline a s dc rate set s1 r O N E. destruct (new_swap_inv a s O N) as (T & HT & Ea & Es & _ & AT & _ & EL).
  unfold implied_rate in E. destruct (generate_floating_leg_cashflow s rate set) as [s' [cf|]] eqn:Eg; cbn [bind] in E; [|congruence].
  destruct (cf_present_value spline cf dc) as [F|] eqn:EF; cbn [bind] in E; [|congruence].
  destruct (generate_fixed_leg_accrual_schedule s) as [accs|] eqn:Eacc; cbn [bind] in E; [|congruence].
  destruct (annuity spline (sw s) dc accs 0%R) as [A|] eqn:EA; cbn [bind] in E; [|congruence].
  destruct (Req_EM_T A 0) as [Z0|NZ]; [congruence|]. assert (Er : r = (F / A)%R) by congruence. clear E s1.
  set (df := fun d => match interpolate spline dc d None with Ok x => x | Err _ => 0%R end).
  destruct (annuity_spec spline (sw s) dc df accs) with (2 := EA) as (leg & U & V & I). { intros d x X. unfold df. rewrite X. reflexivity. }
  rewrite Ea in U. exists accs, leg, df. split; [reflexivity|]. split; [exact U|]. split; [exact I|]. cbv zeta.
  rewrite Rplus_0_l in V. rewrite <- V. split; [exact NZ|]. intros x d.
  set (L := new_cf_collection [None; None] [FIXED_LEG; FLOATING_LEG]) in *.
  set (s0 := Swap (at_terms x d a) (sw_start s) (sw_end s) L).
  assert (N0 : new_swap (at_terms x d a) = Ok s0).
  { unfold new_swap, calculate_start_end_accrual_dates in N |- *. cbn [at_terms sw_purchase sw_settlement sw_cal sw_tenor]. rewrite Es in N |- *. cbn [bind] in N |- *.
    destruct (match sw_tenor a with Years n => _ | Months n => _ | BadTenor => _ end) as [e|]; cbn [bind fst snd] in N |- *; [|discriminate].
    apply (f_equal (fun z => match z with Ok y => sw_end y | Err _ => 0 end)) in N. cbn [sw_end] in N. unfold s0. rewrite <- N. reflexivity. }
  assert (F0 : forall set', generate_floating_leg_cashflow s0 rate set' = (set_leg FLOATING_LEG set' cf s0, Ok cf)).
  { intros set'. destruct (gen_float_inv _ _ _ _ _ Eg) as (acf & ps & A1 & A2 & A3 & _). unfold generate_floating_leg_cashflow.
    assert (G1 : generate_floating_leg_accrual_schedule s0 = Ok acf) by (unfold generate_floating_leg_accrual_schedule, accrual_schedule, accrual_dates in A1 |- *; rewrite Ea in A1; exact A1).
    rewrite G1. cbn [bind]. rewrite Ea in A2.
    assert (G2 : mapM (match sw_class (sw s0) with Term => term_payment (sw s0) rate | Overnight => ois_payment (sw s0) rate end) acf = Ok ps).
    { apply mapM_Forall2. change (sw_class (sw s0)) with (sw_class a). destruct (sw_class a); exact A2. }
    rewrite G2, A3. reflexivity. }
  set (s2 := set_leg FLOATING_LEG true cf s0).
  (* the fixed leg *)
  set (ps := List.map (fun dw => Payment (fst dw) (Some (snd dw * x)%R)) leg).
  assert (G3 : generate_fixed_leg_cashflow s2 true = (set_leg FIXED_LEG true (new_cashflow ps) s2, Ok (new_cashflow ps))).
  { unfold generate_fixed_leg_cashflow. assert (G1 : generate_fixed_leg_accrual_schedule s2 = Ok accs) by (unfold generate_fixed_leg_accrual_schedule, accrual_schedule, accrual_dates in Eacc |- *; rewrite Ea in Eacc; exact Eacc).
    rewrite G1. cbn [bind]. assert (G2 : mapM (fixed_payment (sw s2) (sw_rate (sw s2))) accs = Ok ps).
    { apply mapM_Forall2. unfold ps. clear -U. induction U as [|p dw accs leg [H1 H2] U IH]; constructor; [|exact IH].
      unfold fixed_payment. change (sw_delay (sw s2)) with (sw_delay a). change (sw_cal (sw s2)) with (sw_cal a). rewrite H1. cbn [bind]. rewrite H2. reflexivity. }
    rewrite G2. reflexivity. }
  exists s0, s2, (set_leg FIXED_LEG true (new_cashflow ps) s2), cf, (new_cashflow ps). split; [exact N0|]. split; [apply F0|]. split; [exact G3|].
  assert (PF : cf_present_value spline (new_cashflow ps) dc = Ok (x * (A - leg_value df (fun d => d <? c_ref dc) leg))%R).
  { rewrite (C34_sum spline dc df).
    - f_equal. rewrite V. unfold ps, leg_value. rewrite map_map. clear -x. induction leg as [|dw leg IH]; cbn [List.map]; [rewrite !rsum_nil; lra|]. rewrite !rsum_cons, IH.
      unfold worth at 1. cbn [amount payment_date]. destruct (c_ref dc <=? fst dw) eqn:C1, (fst dw <? c_ref dc) eqn:C2; try lia; lra.
    - intros p Ip _. unfold ps in Ip. apply in_map_iff in Ip. destruct Ip as (dw & <- & Id). cbn [payment_date]. apply I. exact Id. }
  unfold sw_present_value, cfc_getitem. rewrite set_leg_get. cbn [andb key_eqb bind]. rewrite set_leg_get. cbn [andb key_eqb]. unfold s2 at 1. rewrite set_leg_get. cbn [andb key_eqb bind].
  rewrite EF. cbn [bind]. rewrite PF. cbn [bind]. f_equal. change (sw_dir (sw (set_leg FIXED_LEG true (new_cashflow ps) s2))) with d. rewrite Er.
  destruct d; unfold sign; field; exact NZ.
Qed.
Print Assumptions C45_implied_rate.

(** When no fixed payment predates the reference date, the swap is fair at its implied rate, and only there. *)
Theorem C45_fair : forall spline a s dc rate set s1 r accs, date_ok (sw_purchase a) -> new_swap a = Ok s -> implied_rate spline s dc rate set = (s1, Ok r) ->
  generate_fixed_leg_accrual_schedule s = Ok accs ->
  (forall p d, In p accs -> calculate_settlement_date (end_accrual p) (sw_delay a) (sw_cal a) = Ok d -> c_ref dc <= d) ->
  forall x d, exists s0 s2 s3 c2 c3 v, new_swap (at_terms x d a) = Ok s0 /\ generate_floating_leg_cashflow s0 rate true = (s2, Ok c2) /\
      generate_fixed_leg_cashflow s2 true = (s3, Ok c3) /\ sw_present_value spline s3 dc = Ok v /\ (v = 0%R <-> x = r).
Proof.
  intros spline a s dc rate set s1 r accs O N E Ea Fut x d. destruct (C45_implied_rate spline a s dc rate set s1 r O N E) as (accs' & leg & df & Ea' & U & _ & NZ & H).
  rewrite Ea in Ea'. injection Ea' as <-. destruct (H x d) as (s0 & s2 & s3 & c2 & c3 & H1 & H2 & H3 & H4).
  assert (B0 : leg_value df (fun d => d <? c_ref dc) leg = 0%R).
  { unfold leg_value. assert (G : forall dw, In dw leg -> (fst dw <? c_ref dc) = false).
    { intros dw I. apply In_nth_error in I. destruct I as [i I]. destruct (Forall2_nth _ _ _ U i dw I) as (p & Ip & Hp & _). apply nth_error_In in Ip. specialize (Fut p _ Ip Hp). lia. }
    clear -G. induction leg as [|dw leg IH]; cbn [List.map]; [apply rsum_nil|]. rewrite rsum_cons, (G dw (or_introl eq_refl)), IH by (intros; apply G; right; auto). lra. }
  rewrite B0 in H4. exists s0, s2, s3, c2, c3. eexists. split; [exact H1|]. split; [exact H2|]. split; [exact H3|]. split; [exact H4|].
  set (A := leg_value df (fun _ => true) leg) in *. replace (x * (A - 0) - r * A)%R with ((x - r) * A)%R by ring. split.
  - intros Z0. assert (Zx : ((x - r) * A = 0)%R) by (destruct d; unfold sign in Z0; lra). apply Rmult_integral in Zx. destruct Zx; [lra|contradiction].
  - intros ->. ring.
Qed.
Print Assumptions C45_fair.

(** ---- C46 ---- *)
Definition product (l : list R) : R := fold_right Rmult 1%R l.
Definition total (l : list Q) : Q := fold_right Qplus 0%Q l.

Lemma compound_spec rate l : forall g t g' t', compound rate l g t = Ok (g', t') -> exists steps : list (R * Q),
  Forall2 (fun p ra => rate (fst p) = Ok (fst ra) /\ acc ACT360 (fst p) (snd p) = Ok (snd ra)) l steps /\
  g' = (g * product (List.map (fun ra => 1 + fst ra * Q2R (snd ra)) steps))%R /\ (t' == t + total (List.map snd steps))%Q.
Proof.
  induction l as [|[s e] l IH]; intros g t g' t'; cbn [compound].
  - intros [= <- <-]. exists []. split; [constructor|]. cbn. split; [ring|]. ring.
  - destruct (acc ACT360 s e) as [a|] eqn:A; cbn [bind]; [|discriminate]. destruct (rate s) as [r|] eqn:Rr; cbn [bind]; [|discriminate]. intros E.
    destruct (IH _ _ _ _ E) as (st & F & G & T). exists ((r, a) :: st). split; [constructor; auto|]. cbn [List.map product total fold_right fst snd].
    fold (product (List.map (fun ra => 1 + fst ra * Q2R (snd ra))%R st)). fold (total (List.map snd st)). split; [rewrite G; ring|rewrite T; ring].
Qed.

Lemma act360_value s e a : acc ACT360 s e = Ok a -> s <= e /\ (a == inject_Z (e - s) / inject_Z 360)%Q.
Proof.
  intros E. pose proof (acc_le _ _ _ _ E) as L. split; [exact L|]. unfold acc in E. rewrite compute_days_le in E by auto. cbn in E. injection E as <-. reflexivity.
Qed.

Lemma total_telescopes (ds : list date) : forall steps : list (R * Q),
  Forall2 (fun p (ra : R * Q) => acc ACT360 (fst p) (snd p) = Ok (snd ra)) (pairwise ds) steps -> forall d, (total (List.map snd steps) == inject_Z (last ds d - hd d ds) / inject_Z 360)%Q.
Proof.
  induction ds as [|x [|y ds] IH]; intros st F d.
  - cbn in F. inversion F; subst. cbn. rewrite Z.sub_diag. reflexivity.
  - cbn in F. inversion F; subst. cbn. rewrite Z.sub_diag. reflexivity.
  - change (pairwise (x :: y :: ds)) with ((x, y) :: pairwise (y :: ds)) in F. inversion F as [|? ra ? st' H F']; subst. cbn [fst snd] in H.
    destruct (act360_value _ _ _ H) as [_ V]. cbn [List.map total fold_right]. fold (total (List.map snd st')). rewrite (IH _ F' d), V.
    change (last (x :: y :: ds) d) with (last (y :: ds) d). cbn [hd]. set (z := last (y :: ds) d). replace (z - x) with ((z - y) + (y - x)) by lia. rewrite inject_Z_plus. field.
Qed.

(** the business days of the period, their fixings and accruals *)
Definition fixings (a : swap_args) (rate : date -> res R) (s e : date) (ds : list date) (steps : list (R * Q)) : Prop :=
  generate_business_days s e (sw_cal a) = Ok ds /\
  Forall2 (fun p ra => rate (fst p) = Ok (fst ra) /\ compute_accrual_length (Day (fst p)) (Day (snd p)) ACT360 = Ok (snd ra)) (pairwise ds) steps.
Definition growth (steps : list (R * Q)) : R := product (List.map (fun ra => 1 + fst ra * Q2R (snd ra))%R steps).
Definition elapsed_years (steps : list (R * Q)) : R := Q2R (total (List.map snd steps)).

Theorem C46_compounding : forall a rate s e v, calculate_annualized_rate a rate s e = Ok v -> exists ds steps, fixings a rate s e ds steps /\
  (1 + v * elapsed_years steps = growth steps)%R /\ (0 < elapsed_years steps)%R /\ forall d, elapsed_years steps = (IZR (last ds d - hd d ds) / 360)%R.
Proof.
  intros a rate s e v E. unfold calculate_annualized_rate in E. destruct (generate_business_days s e (sw_cal a)) as [ds|] eqn:G; cbn [bind] in E; [|discriminate].
  destruct (compound rate (pairwise ds) 1%R 0%Q) as [[g t]|] eqn:C; cbn [bind fst snd] in E; [|discriminate].
  destruct (Qeq_bool t 0) eqn:Z0; [discriminate|]. injection E as <-. apply Qeq_bool_neq in Z0.
  destruct (compound_spec _ _ _ _ _ _ C) as (st & F & Vg & Vt). exists ds, st. split; [split; assumption|].
  assert (Tt : (t == total (List.map snd st))%Q) by (rewrite Vt; ring).
  assert (Ty : elapsed_years st = Q2R t) by (unfold elapsed_years; symmetry; apply Qeq_eqR; exact Tt).
  assert (Fa : Forall2 (fun p (ra : R * Q) => acc ACT360 (fst p) (snd p) = Ok (snd ra)) (pairwise ds) st) by (eapply Forall2_weaken; [|exact F]; intros p ra [_ H]; exact H).
  assert (NN : (0 <= total (List.map snd st))%Q).
  { clear -Fa. induction Fa as [|p ra l st H F IH]; [cbn; lra|]. cbn [List.map total fold_right]. fold (total (List.map snd st)).
    destruct (act360_value _ _ _ H) as [L V]. assert (0 <= snd ra)%Q. { rewrite V. apply Qle_shift_div_l; [reflexivity|]. rewrite Qmult_0_l. change 0%Q with (inject_Z 0). rewrite <- Zle_Qle. lia. } lra. }
  assert (Pt : (0 < t)%Q) by (rewrite Tt in *; lra). assert (Pr : (0 < Q2R t)%R) by (replace 0%R with (Q2R 0) by (unfold Q2R; cbn; lra); apply Qlt_Rlt; exact Pt).
  assert (Gg : growth st = g) by (unfold growth; rewrite Vg; ring).
  split; [rewrite Ty, Gg; field; lra|]. split; [rewrite Ty; exact Pr|]. intros d. unfold elapsed_years. rewrite (Qeq_eqR _ _ (total_telescopes ds st Fa d)).
  rewrite Q2R_div by discriminate. unfold Q2R. cbn. field.
Qed.
Print Assumptions C46_compounding.

Theorem C46_bounds : forall a rate s e v, calculate_annualized_rate a rate s e = Ok v -> forall ds steps, fixings a rate s e ds steps -> forall lo hi, (0 <= lo)%R ->
  (forall ra, In ra steps -> (lo <= fst ra <= hi)%R) -> (lo <= v)%R /\ (1 + v * elapsed_years steps <= exp (hi * elapsed_years steps))%R.
Proof.
  intros a rate s e v E ds steps [G F] lo hi Lo B. destruct (C46_compounding a rate s e v E) as (ds' & st' & [G' F'] & V & P & _).
  rewrite G in G'. injection G' as <-. assert (st' = steps).
  { clear -F F'. revert st' F'. induction F as [|p ra l st [H1 H2] F IH]; intros st' F'; inversion F' as [|? ra' ? st'' [H1' H2'] F'']; subst; [reflexivity|]. f_equal; [|apply IH; auto].
    destruct ra, ra'; cbn in *; congruence. } subst st'.
  assert (NA : forall ra, In ra steps -> (0 <= Q2R (snd ra))%R).
  { intros ra I. apply In_nth_error in I. destruct I as [i I]. destruct (Forall2_nth _ _ _ F i ra I) as (p & _ & _ & H). destruct (act360_value _ _ _ H) as [L Vq]. rewrite (Qeq_eqR _ _ Vq), Q2R_div by discriminate.
    apply Rmult_le_pos; [unfold Q2R; cbn; rewrite Rinv_1, Rmult_1_r; apply IZR_le; lia | unfold Q2R; cbn; lra]. }
  assert (Ey : forall ra st, elapsed_years (ra :: st) = (Q2R (snd ra) + elapsed_years st)%R) by (intros; unfold elapsed_years; cbn [List.map total fold_right]; apply Q2R_plus).
  assert (Gy : forall ra st, growth (ra :: st) = ((1 + fst ra * Q2R (snd ra)) * growth st)%R) by reflexivity.
  assert (Y0 : forall st, (forall ra, In ra st -> (0 <= Q2R (snd ra))%R) -> (0 <= elapsed_years st)%R).
  { induction st as [|ra st IH]; intros H; [unfold elapsed_years, Q2R; cbn; lra|]. rewrite Ey. pose proof (H ra (or_introl eq_refl)). specialize (IH (fun r I => H r (or_intror I))). lra. }
  assert (K : forall st, (forall ra, In ra st -> (lo <= fst ra <= hi)%R) -> (forall ra, In ra st -> (0 <= Q2R (snd ra))%R) ->
     (1 + lo * elapsed_years st <= growth st <= exp (hi * elapsed_years st))%R).
  { induction st as [|ra st IH]; intros Hb Hn; [unfold elapsed_years, growth, Q2R; cbn; rewrite !Rmult_0_l, !Rmult_0_r, exp_0; lra|].
    specialize (IH (fun r I => Hb r (or_intror I)) (fun r I => Hn r (or_intror I))). rewrite Ey, Gy. pose proof (Hb ra (or_introl eq_refl)) as [b1 b2]. pose proof (Hn ra (or_introl eq_refl)) as n1.
    pose proof (Y0 st (fun r I => Hn r (or_intror I))) as y0. set (x := Q2R (snd ra)) in *. set (y := elapsed_years st) in *. set (r := fst ra) in *.
    assert (rx : (lo * x <= r * x <= hi * x)%R) by (split; apply Rmult_le_compat_r; lra). assert (lx : (0 <= lo * x)%R) by (apply Rmult_le_pos; lra). assert (ly : (0 <= lo * y)%R) by (apply Rmult_le_pos; lra). split.
    - apply Rle_trans with ((1 + lo * x) * (1 + lo * y))%R; [pose proof (Rmult_le_pos _ _ lx ly); lra|]. apply Rmult_le_compat; lra.
    - rewrite Rmult_plus_distr_l, exp_plus. apply Rmult_le_compat; [lra|lra| |lra]. pose proof (exp_ineq1_le (hi * x)). lra. }
  destruct (K steps B NA) as [K1 K2]. split; [|rewrite V; exact K2].
  apply Rmult_le_reg_r with (elapsed_years steps); [exact P|]. lra.
Qed.
Print Assumptions C46_bounds.

(** An overnight leg on an Act/360 day count pays notional times (growth - 1) over the business days of each period, ends included. *)
Theorem C46_payment : forall a s rate set s' c, date_ok (sw_purchase a) -> new_swap a = Ok s -> sw_class a = Overnight -> sw_float_dcc a = ACT360 ->
  generate_floating_leg_cashflow s rate set = (s', Ok c) -> exists accs ps, generate_floating_leg_accrual_schedule s = Ok accs /\ Permutation c ps /\
  Forall2 (fun p q => exists ds steps, fixings a rate (start_accrual p) (end_accrual p) ds steps /\ hd_error ds = Some (start_accrual p) /\ (exists ds', ds = ds' ++ [end_accrual p]) /\
                      calculate_settlement_date (end_accrual p) (sw_delay a) (sw_cal a) = Ok (payment_date q) /\
                      amount q = Some (sw_notional a * (growth steps - 1))%R) accs ps.
Proof.
  intros a s rate set s' c O N Cl Dc E. destruct (new_swap_inv a s O N) as (_ & _ & Ea & _). destruct (gen_float_inv _ _ _ _ _ E) as (accs & ps & A & F & -> & _). rewrite Ea, Cl in F.
  exists accs, ps. split; [auto|]. split; [apply sort_by_perm|]. unfold generate_floating_leg_accrual_schedule in A. rewrite Ea, Dc in A.
  destruct (C44_contiguous _ _ _ _ _ O N A) as (_ & B & _). clear A E.
  assert (W : forall l l', Forall2 (fun p q => ois_payment a rate p = Ok q) l l' -> (forall x, In x l -> In x accs) -> Forall2 (fun p q => In p accs /\ ois_payment a rate p = Ok q) l l').
  { induction 1 as [|x y l l' H H' IH]; intros S0; constructor; [split; [apply S0; left; auto|exact H]|apply IH; intros z I; apply S0; right; auto]. }
  specialize (W _ _ F (fun x I => I)). clear F. eapply Forall2_weaken; [|exact W]. clear W. intros p q [I H]. destruct (B p I) as (Le & Ac & Bs & Be). unfold ois_payment in H.
  destruct (calculate_settlement_date _ _ _) as [d|] eqn:Ed; cbn [bind] in H; [|discriminate]. destruct (calculate_annualized_rate _ _ _ _) as [v|] eqn:Ev; cbn [bind] in H; [|discriminate].
  injection H as <-. destruct (C46_compounding _ _ _ _ _ Ev) as (ds & st & Fx & V & P & Y). exists ds, st. split; [exact Fx|]. destruct Fx as [G _].
  destruct (C15_enumeration _ _ _ _ (proj1 Bs) G) as [Sr Mem].
  assert (Hs : In (start_accrual p) ds) by (apply Mem; split; [lia|exact Bs]). assert (He : In (end_accrual p) ds) by (apply Mem; split; [lia|exact Be]).
  assert (Hd : hd_error ds = Some (start_accrual p)).
  { destruct ds as [|x ds]; [contradiction|]. cbn. f_equal. destruct Hs as [-> | Hs]; [reflexivity|]. inversion Sr as [|? ? S1 S2]; subst. rewrite Forall_forall in S2. specialize (S2 _ Hs).
    assert (start_accrual p <= x) by (apply Mem; left; auto). lia. }
  assert (Lst : exists ds', ds = ds' ++ [end_accrual p]).
  { destruct (exists_last (l := ds)) as (ds' & z & ->); [intros ->; contradiction|]. exists ds'. f_equal. f_equal. apply in_app_or in He. destruct He as [He|[He|[]]]; [|auto].
    assert (z <= end_accrual p) by (apply Mem; apply in_or_app; right; left; auto).
    assert (end_accrual p < z). { clear -Sr He. induction ds' as [|w ds' IH]; [contradiction|]. cbn in Sr. inversion Sr as [|? ? S1 S2]; subst. destruct He as [-> | He]; [|apply IH; auto].
      rewrite Forall_forall in S2. apply S2. apply in_or_app; right; left; auto. } lia. }
  split; [exact Hd|]. split; [exact Lst|]. split; [reflexivity|]. cbn [amount]. f_equal.
  assert (T : Q2R (accrual_factor p) = elapsed_years st).
  { destruct (act360_value _ _ _ Ac) as [_ Va]. rewrite (Y (start_accrual p)). destruct Lst as [ds' ->]. rewrite last_last.
    assert (Hh : hd (start_accrual p) (ds' ++ [end_accrual p]) = start_accrual p) by (destruct (ds' ++ [end_accrual p]); [discriminate|cbn in Hd |- *; congruence]). rewrite Hh.
    rewrite (Qeq_eqR _ _ Va), Q2R_div by discriminate. unfold Q2R. cbn. field. }
  rewrite T, <- V. ring.
Qed.
Print Assumptions C46_payment.

(** Fewer than two business days: no rate. *)
Theorem C46_too_short : forall a rate s e ds, generate_business_days s e (sw_cal a) = Ok ds -> (List.length ds < 2)%nat -> calculate_annualized_rate a rate s e = Err ZeroDivisionError.
Proof. intros a rate s e ds G L. unfold calculate_annualized_rate. rewrite G. cbn [bind]. destruct ds as [|x [|y ds]]; [reflexivity|reflexivity|cbn in L; lia]. Qed.
Print Assumptions C46_too_short.

(** ---- concrete cases ---- *)
Definition swp (c : swap_class) (p : date) (t : tenor) (f g : frequency) : swap_args :=
  SwapArgs c PAYER_FIXED 1%R 100%R p T_PLUS_TWO_BUSINESS t f g ACT360 ACT360 US_FEDERAL_HOLIDAYS T_MINUS_TWO_BUSINESS T_PLUS_TWO_BUSINESS MODIFIED_FOLLOWING.
Definition legs0 := new_cf_collection [None; None] [FIXED_LEG; FLOATING_LEG].
Lemma build a s e : calculate_start_end_accrual_dates a = Ok (s, e) -> new_swap a = Ok (Swap a s e legs0).
Proof. intros H. unfold new_swap. rewrite H. reflexivity. Qed.

(** 1Y from 2023-03-03 (settled T+2): one annual and two semi-annual periods, from the start to Monday 2024-03-04 *)
Definition swap_2023 (c : swap_class) := swp c (ymd2ord 2023 3 1) (Years 1) SEMI_ANNUAL ANNUAL.
Definition swap_2023_built (c : swap_class) := Swap (swap_2023 c) (ymd2ord 2023 3 3) (ymd2ord 2024 3 3) legs0.
Lemma swap_2023_ok c : new_swap (swap_2023 c) = Ok (swap_2023_built c).
Proof. apply build. vm_compute. reflexivity. Qed.
Definition fixed_2023 := [SwapAccrual (ymd2ord 2023 3 3) (ymd2ord 2024 3 4) (367 # 360)].
Definition floating_2023 := [SwapAccrual (ymd2ord 2023 3 3) (ymd2ord 2023 9 5) (186 # 360); SwapAccrual (ymd2ord 2023 9 5) (ymd2ord 2024 3 4) (181 # 360)].
Lemma fixed_2023_ok c : generate_fixed_leg_accrual_schedule (swap_2023_built c) = Ok fixed_2023.
Proof. vm_compute. reflexivity. Qed.
Lemma floating_2023_ok c : generate_floating_leg_accrual_schedule (swap_2023_built c) = Ok floating_2023.
Proof. vm_compute. reflexivity. Qed.
Lemma swap_2023_date c : date_ok (sw_purchase (swap_2023 c)).
Proof. split; apply Z.leb_le; vm_compute; reflexivity. Qed.

Example C44_case : forall c, date_ok (sw_purchase (swap_2023 c)) /\ sw_cal (swap_2023 c) = US_FEDERAL_HOLIDAYS /\ new_swap (swap_2023 c) = Ok (swap_2023_built c) /\
  accrual_schedule (swap_2023_built c) SEMI_ANNUAL ACT360 = Ok floating_2023 /\ swap_step SEMI_ANNUAL = Ok 6 /\ tenor_months (sw_tenor (swap_2023 c)) = Some (2 * 6) /\ day (sw_start (swap_2023_built c)) <= 28.
Proof.
  intros c. split; [apply swap_2023_date|]. split; [reflexivity|]. split; [apply swap_2023_ok|]. split; [exact (floating_2023_ok c)|]. split; [reflexivity|]. split; [reflexivity|].
  apply Z.leb_le. vm_compute. reflexivity.
Qed.

(** A tenor that is not a whole number of steps: the 7M semi-annual leg accrues only from 2023-04-03, a month after the
    swap starts (2023-03-03), and the annual leg is empty. *)
Theorem C44_stub_dropped_refuted : exists a s fx p, new_swap a = Ok s /\ generate_fixed_leg_accrual_schedule s = Ok fx /\ fx = [] /\
  generate_floating_leg_accrual_schedule s = Ok [p] /\ sw_start s = ymd2ord 2023 3 3 /\ start_accrual p = ymd2ord 2023 4 3.
Proof.
  exists (swp Term (ymd2ord 2023 3 1) (Months 7) SEMI_ANNUAL ANNUAL). eexists. exists [], (SwapAccrual (ymd2ord 2023 4 3) (ymd2ord 2023 10 3) (183 # 360)).
  split; [apply (build _ (ymd2ord 2023 3 3) (ymd2ord 2023 10 3)); vm_compute; reflexivity|]. split; [vm_compute; reflexivity|]. split; [reflexivity|]. split; [vm_compute; reflexivity|]. split; reflexivity.
Qed.
Print Assumptions C44_stub_dropped_refuted.

(** A swap starting 2023-08-31: counting back from 2024-08-31 by six months gives Feb 29 and then Aug 29 < start, so the
    first half year of a 1Y semi-annual leg is lost. *)
Theorem C44_month_end_refuted : exists a s p, new_swap a = Ok s /\ tenor_months (sw_tenor a) = Some (2 * 6) /\ sw_start s = ymd2ord 2023 8 31 /\
  generate_floating_leg_accrual_schedule s = Ok [p] /\ start_accrual p = ymd2ord 2024 2 29.
Proof.
  exists (swp Term (ymd2ord 2023 8 29) (Years 1) SEMI_ANNUAL ANNUAL). eexists. exists (SwapAccrual (ymd2ord 2024 2 29) (ymd2ord 2024 8 30) (183 # 360)).
  split; [apply (build _ (ymd2ord 2023 8 31) (ymd2ord 2024 8 31)); vm_compute; reflexivity|]. split; [reflexivity|]. split; [reflexivity|]. split; [vm_compute; reflexivity|]. reflexivity.
Qed.
Print Assumptions C44_month_end_refuted.

(** discount factors all 1 from 2023-01-01 to 2025-01-01, and a floating rate of 3 *)
Definition no_spline : interp_method -> list (Q * R) -> Q -> R := fun _ _ _ => 0%R.
Definition unit_curve : curve :=
  match new_curve [(ymd2ord 2023 1 1, 1%R); (ymd2ord 2025 1 1, 1%R)] PREVIOUS ACT360 None ERROR ERROR with Ok c => c | Err _ => Curve [] LINEAR ACT360 0 ERROR ERROR [] end.
Definition three : date -> res R := fun _ => Ok 3%R.
Lemma unit_curve_one d : In d [ymd2ord 2023 9 7; ymd2ord 2024 3 6] -> interpolate no_spline unit_curve d None = Ok 1%R.
Proof. intros [<- |[<- |[]]]; (transitivity (@Ok R (1 + 0)%R); [vm_compute; reflexivity|f_equal; lra]). Qed.

Example C45_case : exists s1 r, date_ok (sw_purchase (swap_2023 Term)) /\ new_swap (swap_2023 Term) = Ok (swap_2023_built Term) /\
  implied_rate no_spline (swap_2023_built Term) unit_curve three true = (s1, Ok r) /\ generate_fixed_leg_accrual_schedule (swap_2023_built Term) = Ok fixed_2023 /\
  (forall p d, In p fixed_2023 -> calculate_settlement_date (end_accrual p) (sw_delay (swap_2023 Term)) (sw_cal (swap_2023 Term)) = Ok d -> c_ref unit_curve <= d).
Proof.
  set (ps := [Payment (ymd2ord 2023 9 7) (Some (Q2R (186 # 360) * 100 * 3)%R); Payment (ymd2ord 2024 3 6) (Some (Q2R (181 # 360) * 100 * 3)%R)]).
  assert (M : mapM (term_payment (swap_2023 Term) three) floating_2023 = Ok ps) by (vm_compute; reflexivity).
  assert (G : generate_floating_leg_cashflow (swap_2023_built Term) three true = (set_leg FLOATING_LEG true (new_cashflow ps) (swap_2023_built Term), Ok (new_cashflow ps))).
  { unfold generate_floating_leg_cashflow. rewrite floating_2023_ok. cbn [bind]. change (mapM _ floating_2023) with (mapM (term_payment (swap_2023 Term) three) floating_2023). rewrite M. reflexivity. }
  assert (P : cf_present_value no_spline (new_cashflow ps) unit_curve = Ok (rsum (List.map (worth (fun _ => 1%R) (c_ref unit_curve)) ps))).
  { apply C34_sum. intros p I _. apply unit_curve_one. destruct I as [<- |[<- |[]]]; [left|right; left]; reflexivity. }
  assert (A : annuity no_spline (swap_2023 Term) unit_curve fixed_2023 0%R = Ok (0 + 1 * (Q2R (367 # 360) * 100))%R).
  { unfold fixed_2023. cbn [annuity end_accrual accrual_factor]. change (calculate_settlement_date (ymd2ord 2024 3 4) (sw_delay (swap_2023 Term)) (sw_cal (swap_2023 Term))) with (calculate_settlement_date (ymd2ord 2024 3 4) T_PLUS_TWO_BUSINESS US_FEDERAL_HOLIDAYS).
    replace (calculate_settlement_date (ymd2ord 2024 3 4) T_PLUS_TWO_BUSINESS US_FEDERAL_HOLIDAYS) with (@Ok date (ymd2ord 2024 3 6)) by (vm_compute; reflexivity). cbn [bind].
    rewrite unit_curve_one by (right; left; reflexivity). reflexivity. }
  eexists. eexists. split; [apply swap_2023_date|]. split; [apply swap_2023_ok|]. split; [|split; [apply fixed_2023_ok|]].
  - unfold implied_rate. rewrite G. cbn [bind]. rewrite P. cbn [bind]. rewrite fixed_2023_ok. cbn [bind]. change (sw (swap_2023_built Term)) with (swap_2023 Term). rewrite A. cbn [bind].
    destruct (Req_EM_T _ 0) as [Z0|_]; [exfalso; revert Z0; unfold Q2R; cbn; lra|reflexivity].
  - intros p d [<- |[]] E. replace (calculate_settlement_date _ _ _) with (@Ok date (ymd2ord 2024 3 6)) in E by (vm_compute; reflexivity). injection E as <-. apply Z.leb_le. vm_compute. reflexivity.
Qed.

(** a week of fixings at rate 3: 2023-03-03 (Friday) to 2023-03-10, and the whole period is compounded *)
Example C46_case : exists v, calculate_annualized_rate (swap_2023 Overnight) three (ymd2ord 2023 3 3) (ymd2ord 2023 3 10) = Ok v /\
  exists ds, generate_business_days (ymd2ord 2023 3 3) (ymd2ord 2023 3 10) US_FEDERAL_HOLIDAYS = Ok ds /\ List.length ds = 6%nat.
Proof.
  set (ds := [738582; 738585; 738586; 738587; 738588; 738589]).
  assert (G : generate_business_days (ymd2ord 2023 3 3) (ymd2ord 2023 3 10) US_FEDERAL_HOLIDAYS = Ok ds) by (vm_compute; reflexivity).
  eexists. split; [|exists ds; split; [exact G|reflexivity]].
  unfold calculate_annualized_rate. change (sw_cal (swap_2023 Overnight)) with US_FEDERAL_HOLIDAYS. rewrite G. cbn [bind].
  set (q := (3 # 360) : Q). set (r := (1 # 360) : Q).
  change (pairwise ds) with [(738582, 738585); (738585, 738586); (738586, 738587); (738587, 738588); (738588, 738589)]. cbn [compound].
  replace (acc ACT360 738582 738585) with (@Ok Q q) by (vm_compute; reflexivity). cbn [bind].
  do 4 (match goal with |- context [acc ACT360 ?x ?y] => replace (acc ACT360 x y) with (@Ok Q r) by (vm_compute; reflexivity); cbn [bind] end).
  cbn [three bind fst snd]. replace (Qeq_bool _ 0) with false by (vm_compute; reflexivity). reflexivity.
Qed.

Example C64_case : exists c, generate_fixed_leg_cashflow (swap_2023_built Term) true = (set_leg FIXED_LEG true c (swap_2023_built Term), Ok c) /\
  List.map payment_date c = [ymd2ord 2024 3 6] /\ In (sw_delay (swap_2023 Term)) [T_PLUS_ZERO_BUSINESS; T_PLUS_ONE_BUSINESS; T_PLUS_TWO_BUSINESS; T_PLUS_THREE_BUSINESS].
Proof.
  set (ps := [Payment (ymd2ord 2024 3 6) (Some (Q2R (367 # 360) * 100 * 1)%R)]).
  assert (M : mapM (fixed_payment (swap_2023 Term) 1%R) fixed_2023 = Ok ps) by (vm_compute; reflexivity).
  exists (new_cashflow ps). split; [|split; [reflexivity|right; right; left; reflexivity]].
  unfold generate_fixed_leg_cashflow. rewrite fixed_2023_ok. cbn [bind]. change (sw_rate (sw (swap_2023_built Term))) with 1%R. change (sw (swap_2023_built Term)) with (swap_2023 Term). rewrite M. reflexivity.
Qed.
