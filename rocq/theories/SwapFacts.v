(** Facts about swaps. *)
From Verif Require Import Base PyDate PyDateFacts DayCount DayCountFacts Holidays Scheduler SchedulerFacts UsFacts ModFollFacts P_Scheduler KeyRate KeyRateFacts PyList Curve CurveFacts Cashflow CashflowFacts P_Cashflow Bond BondFacts P_DayCount Loan LoanFacts P_BondYield Swap.
From Coq Require Import Lra Lqa Reals Permutation.
Open Scope Z_scope.
Ltac lra := first [Lra.lra | Lqa.lra].
Ltac nra := first [Lra.nra | Lqa.nra].
Local Opaque add_business_days.

Lemma Forall2_nth {A B} (P : A -> B -> Prop) l l' : Forall2 P l l' -> forall i b, nth_error l' i = Some b -> exists a, nth_error l i = Some a /\ P a b.
Proof. induction 1 as [|x y l l' H F IH]; intros [|i] b; cbn; try discriminate; [intros [= <-]; eauto|apply IH]. Qed.
Lemma Forall2_nth' {A B} (P : A -> B -> Prop) l l' : Forall2 P l l' -> forall i a, nth_error l i = Some a -> exists b, nth_error l' i = Some b /\ P a b.
Proof. induction 1 as [|x y l l' H F IH]; intros [|i] b; cbn; try discriminate; [intros [= <-]; eauto|apply IH]. Qed.
Lemma Forall2_weaken {A B} (P Q : A -> B -> Prop) l l' : (forall a b, P a b -> Q a b) -> Forall2 P l l' -> Forall2 Q l l'.
Proof. intros H. induction 1; constructor; auto. Qed.
Lemma F2_length {A B} (P : A -> B -> Prop) l l' : Forall2 P l l' -> List.length l = List.length l'.
Proof. induction 1; cbn; congruence. Qed.
Lemma nth_error_rev {A} (l : list A) i : (i < List.length l)%nat -> nth_error (rev l) i = nth_error l (List.length l - 1 - i).
Proof.
  intros L. destruct l as [|d l]; [cbn in L; lia|]. set (m := d :: l) in *.
  rewrite (nth_error_nth' (rev m) d) by (rewrite rev_length; exact L). rewrite rev_nth by exact L.
  rewrite (nth_error_nth' m d) by lia. f_equal. f_equal. lia.
Qed.

Lemma acc_le c s e q : acc c s e = Ok q -> s <= e.
Proof.
  intros E. destruct (Z_le_gt_dec s e) as [|G]; auto. exfalso. unfold acc in E. rewrite (C04_inverted_rejected (Day s) (Day e) c) in E; [discriminate|].
  unfold elapsed, dt_abs, to_datetime. cbn [dt_date dt_us]. unfold us_per_day. lia.
Qed.

Lemma gap_months x y : month_index x + 2 <= month_index y -> x + 28 < y.
Proof.
  intros L. unfold month_index in L. destruct (date_parts x) as (Mx & Dx & X & _). destruct (date_parts y) as (My & Dy & Y & _).
  set (ny := if month x =? 12 then year x + 1 else year x). set (nm := if month x =? 12 then 1 else month x + 1).
  assert (Nm : 1 <= nm <= 12 /\ ny * 12 + nm = year x * 12 + month x + 1) by (unfold ny, nm; destruct (month x =? 12) eqn:C; lia).
  pose proof (month_len ny nm ltac:(lia)) as L1. pose proof (month_len (year y) (month y) ltac:(lia)) as L2. unfold days_in_month in *.
  destruct (ymd2ord_inj_parts ny nm 1 ltac:(lia) ltac:(unfold days_in_month; lia)) as (P1 & P2 & P3).
  destruct (ymd2ord_inj_parts (year y) (month y) 1 ltac:(lia) ltac:(unfold days_in_month; lia)) as (Q1 & Q2 & Q3).
  assert (G := index_gap (ymd2ord ny nm 1) (ymd2ord (year y) (month y) 1) ltac:(lia)). unfold month_index in G. rewrite P1, P2, Q1, Q2 in G. specialize (G ltac:(lia)).
  assert (x < ymd2ord ny nm 1) by (apply date_lt_lex; rewrite P1, P2, P3; lia).
  assert (ymd2ord (year y) (month y) 1 <= y). { unfold ymd2ord in Y |- *. lia. }
  lia.
Qed.

(** what an accrual schedule is made of: unadjusted dates (latest first), adjusted dates (earliest first), periods *)
Record accruals (s : swap) (f : frequency) (c : dcc) (accs : list swap_accrual) := Accruals {
  ac_m : Z; ac_us : list date; ac_ds : list date;
  ac_step : swap_step f = Ok ac_m;
  ac_grid : generate_dates_by_increments (sw_end s) (sw_start s) (Relativedelta (- ac_m) 0) 1000 = Ok ac_us;
  ac_adj : Forall2 (fun u d => sw_adjustment (sw s) u = Ok d) (rev ac_us) ac_ds;
  ac_acc : Forall2 (fun p a => start_accrual a = fst p /\ end_accrual a = snd p /\ acc c (fst p) (snd p) = Ok (accrual_factor a)) (pairwise ac_ds) accs }.
Lemma accruals_inv s f c accs : accrual_schedule s f c = Ok accs -> inhabited (accruals s f c accs).
Proof.
  unfold accrual_schedule, accrual_dates. destruct (swap_step f) as [m|] eqn:E1; cbn [bind]; [|discriminate].
  destruct (generate_dates_by_increments _ _ _ _) as [us|] eqn:E2; cbn [bind]; [|discriminate].
  destruct (mapM _ (rev us)) as [ds|] eqn:E3; cbn [bind]; [|discriminate]. intros E4. constructor.
  apply mapM_Forall2 in E3. apply mapM_Forall2 in E4. refine (Accruals _ _ _ _ m us ds E1 E2 E3 _).
  eapply Forall2_weaken; [|exact E4]. intros p a H. cbv beta in H. destruct (acc c (fst p) (snd p)) as [q|]; cbn [bind] in H; [|discriminate]. injection H as <-. cbn. auto.
Qed.

Lemma swap_step_bounds f m : swap_step f = Ok m -> 3 <= m <= 12.
Proof. destruct f; cbn; intros [= <-]; lia. Qed.

Lemma sw_adjust_isbd a d r : date_ok d -> sw_adjustment a d = Ok r -> isbd (sw_cal a) r.
Proof.
  intros O. unfold sw_adjustment. destruct (sw_adjust a); intros E.
  - unfold following_date_adjustment in E. apply abd_isbd in E; auto.
  - apply mf_spec in E; auto. apply E.
Qed.
Lemma sw_adjust_fix a d : isbd (sw_cal a) d -> sw_adjustment a d = Ok d.
Proof.
  intros B. unfold sw_adjustment. destruct (sw_adjust a); [unfold following_date_adjustment; rewrite add0, seek_self by auto; reflexivity | apply mf_fix; auto].
Qed.
Lemma sw_adjust_us a d r : sw_cal a = US_FEDERAL_HOLIDAYS -> date_ok d -> sw_adjustment a d = Ok r -> d - 4 <= r <= d + 3.
Proof.
  intros C O. unfold sw_adjustment. rewrite C. destruct (sw_adjust a); intros E.
  - destruct (us_following d O) as (c & Ec & F & L). unfold following_date_adjustment in E. rewrite Ec in E. injection E as <-. destruct F as [F _]. lia.
  - destruct (us_mf d O) as (r' & E' & _ & _ & _ & L). rewrite E' in E. injection E as <-. lia.
Qed.
Lemma sw_adjust_us_ok a d : sw_cal a = US_FEDERAL_HOLIDAYS -> date_ok d -> exists r, sw_adjustment a d = Ok r.
Proof.
  intros C O. unfold sw_adjustment. rewrite C. destruct (sw_adjust a).
  - destruct (us_following d O) as (c & Ec & _). eauto.
  - destruct (us_mf d O) as (r' & E' & _). eauto.
Qed.

(** a constructed swap *)
Lemma new_swap_inv a s : date_ok (sw_purchase a) -> new_swap a = Ok s -> exists T, (sw_tenor a = Years (T / 12) /\ T = 12 * (T / 12) \/ sw_tenor a = Months T) /\
  sw s = a /\ calculate_settlement_date (sw_purchase a) (sw_settlement a) (sw_cal a) = Ok (sw_start s) /\ isbd (sw_cal a) (sw_start s) /\
  add_months (sw_start s) T = Ok (sw_end s) /\ date_ok (sw_end s) /\ sw_legs s = new_cf_collection [None; None] [FIXED_LEG; FLOATING_LEG].
Proof.
  intros O E. unfold new_swap, calculate_start_end_accrual_dates in E.
  destruct (calculate_settlement_date _ _ _) as [d|] eqn:Ed; cbn [bind] in E; [|discriminate].
  pose proof (settle_isbd _ _ _ _ O Ed) as B.
  destruct (sw_tenor a) as [n|n|] eqn:Et; [| |discriminate].
  - destruct (add_months d (12 * n)) as [e|] eqn:Ee; cbn [bind] in E; [|discriminate]. injection E as <-. exists (12 * n). cbn [sw sw_start sw_end sw_legs fst snd].
    replace (12 * n / 12) with n by (rewrite Z.mul_comm, Z.div_mul; lia). destruct (add_months_parts _ _ _ Ee) as (Oe & _).
    split; [left; split; [auto|lia]|]. auto 8.
  - destruct (add_months d n) as [e|] eqn:Ee; cbn [bind] in E; [|discriminate]. injection E as <-. exists n. cbn [sw sw_start sw_end sw_legs fst snd].
    destruct (add_months_parts _ _ _ Ee) as (Oe & _). split; [right; auto|]. auto 8.
Qed.

(** the unadjusted dates of a schedule are valid dates, descending by m months *)
Lemma us_ok s f c accs (h : accruals s f c accs) : date_ok (sw_end s) -> Forall date_ok (ac_us _ _ _ _ h).
Proof.
  intros O. destruct h as [m us ds E1 E2 E3 E4]. cbn. unfold generate_dates_by_increments in E2. destruct (positive_increment _ _) as [up|]; cbn [bind] in E2; [|discriminate].
  eapply grid_dates_ok; eauto.
Qed.
Lemma us_chain s f c accs (h : accruals s f c accs) : (ac_us _ _ _ _ h <> [] -> nth_error (ac_us _ _ _ _ h) 0 = Some (sw_end s)) /\
  forall j x y, nth_error (ac_us _ _ _ _ h) j = Some x -> nth_error (ac_us _ _ _ _ h) (S j) = Some y -> add_months x (- ac_m _ _ _ _ h) = Ok y.
Proof.
  destruct h as [m us ds E1 E2 E3 E4]. cbn [ac_us ac_m]. destruct (C17_grid_steps _ _ _ _ _ E2) as (up & _ & H0 & H1 & _). split; [exact H0|].
  intros j x y A B. specialize (H1 _ _ _ A B). cbn [add_increment] in H1. destruct (add_months x (- m)) as [d|]; cbn [bind] in H1; [|discriminate].
  apply add_days_ok in H1. destruct H1 as [-> _]. f_equal. lia.
Qed.
Lemma accs_length s f c accs (h : accruals s f c accs) : List.length accs = (List.length (ac_us _ _ _ _ h) - 1)%nat /\ List.length (ac_ds _ _ _ _ h) = List.length (ac_us _ _ _ _ h).
Proof.
  destruct h as [m us ds E1 E2 E3 E4]. cbn. apply F2_length in E3. apply F2_length in E4. rewrite rev_length in E3. rewrite pairwise_length in E4. lia.
Qed.
(** period i lies between unadjusted dates n-i and n-1-i *)
Lemma accs_nth s f c accs (h : accruals s f c accs) i p : nth_error accs i = Some p -> exists u v,
  nth_error (ac_us _ _ _ _ h) (List.length accs - i) = Some u /\ nth_error (ac_us _ _ _ _ h) (List.length accs - 1 - i) = Some v /\
  sw_adjustment (sw s) u = Ok (start_accrual p) /\ sw_adjustment (sw s) v = Ok (end_accrual p) /\ acc c (start_accrual p) (end_accrual p) = Ok (accrual_factor p) /\
  nth_error (ac_ds _ _ _ _ h) i = Some (start_accrual p) /\ nth_error (ac_ds _ _ _ _ h) (S i) = Some (end_accrual p).
Proof.
  intros E. destruct (accs_length _ _ _ _ h) as [L1 L2]. assert (Li : (i < List.length accs)%nat) by (apply nth_error_Some; congruence).
  destruct h as [m us ds E1 E2 E3 E4]. cbn [ac_us ac_ds] in *.
  destruct (Forall2_nth _ _ _ E4 i p E) as ([x y] & N & S1 & S2 & S3). cbn [fst snd] in *. subst x y. apply pairwise_nth in N. destruct N as [N1 N2].
  destruct (Forall2_nth _ _ _ E3 _ _ N1) as (u & U1 & U2). destruct (Forall2_nth _ _ _ E3 _ _ N2) as (v & V1 & V2).
  rewrite nth_error_rev in U1, V1 by lia. exists u, v. replace (List.length accs - i)%nat with (List.length us - 1 - i)%nat by lia.
  replace (List.length accs - 1 - i)%nat with (List.length us - 1 - S i)%nat by lia. auto 8.
Qed.
