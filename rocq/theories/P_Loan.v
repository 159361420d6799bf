(** Loans: C41-C43. *)
From Verif Require Import Base PyDate PyDateFacts DayCount DayCountFacts Scheduler SchedulerFacts ModFollFacts KeyRate KeyRateFacts Curve Cashflow CashflowFacts Bond BondFacts P_DayCount Loan LoanFacts.
From Coq Require Import Lra Lqa Reals.
Open Scope Z_scope.
Ltac lra := first [Lra.lra | Lqa.lra].
Ltac nra := first [Lra.nra | Lqa.nra].

(** ---- specification ---- *)
(** what is still owed once the first k payments are made *)
Definition outstanding (l : loan) (ps : list loan_payment) (k : nat) : R := (l_principal l - rsum (List.map lp_principal (firstn k ps)))%R.
(** the date interest has been paid up to before payment k *)
Definition accrues_from (l : loan) (ps : list loan_payment) (k : nat) (d : date) : Prop :=
  match k with O => schedule_start l = Ok d | S k' => exists q, nth_error ps k' = Some q /\ lp_date q = d end.

Lemma accrues l pay x ps (h : sched l pay x ps) k d p : nth_error ps k = Some p -> nth_error (sc_dates _ _ _ _ h) k = Some d -> accrues_from l ps k d.
Proof.
  intros E D. destruct k as [|k]; cbn.
  - destruct (step_bounds _ _ (sc_step _ _ _ _ h)) as [M _]. rewrite (grid_head _ _ _ _ _ M (sc_grid _ _ _ _ h) D). apply sc_start.
  - destruct (nth_error ps k) as [q|] eqn:Eq; [|apply nth_error_None in Eq; assert (nth_error ps (S k) = None) by (apply nth_error_None; lia); congruence].
    exists q. split; [auto|]. destruct (sched_entry _ _ _ _ h k q Eq) as (d0 & a & _ & N & _). congruence.
Qed.

(** C41: interest is charged on what is outstanding, and no more than that is ever repaid - whatever the signs *)
Theorem C41_principal_conserved : forall l pay x ps, generate_payment_schedule l pay x = Ok ps -> forall k p, nth_error ps k = Some p ->
  (exists d a, accrues_from l ps k d /\ acc (l_dcc l) d (lp_date p) = Ok a /\ lp_interest p = (Q2R a * l_rate l * outstanding l ps k)%R) /\
  outstanding l ps (S k) = (outstanding l ps k - lp_principal p)%R /\ (0 <= outstanding l ps (S k))%R.
Proof.
  intros l pay x ps G k p E. destruct (schedule_inv _ _ _ _ G) as [h].
  destruct (sched_entry _ _ _ _ h k p E) as (d & a & N1 & N2 & _ & A & I & P).
  assert (B := bal_step (l_principal l) ps k p E). unfold outstanding, bal in *. split; [|split; [exact B|rewrite B; lra]].
  exists d, a. split; [eapply accrues; eauto|]. split; auto.
Qed.
Print Assumptions C41_principal_conserved.

(** Non-negative terms: what each payment is, and what happens to the balance. *)
Theorem C41_balance : forall l pay x ps, generate_payment_schedule l pay x = Ok ps -> real_date (l_origination l) ->
  (0 <= l_principal l)%R -> (0 <= l_rate l)%R -> (0 <= pay)%R -> (forall k, (0 <= extra_at x k)%R) ->
  (forall k, (k <= List.length ps)%nat -> (0 <= outstanding l ps k)%R) /\
  forall k p, nth_error ps k = Some p -> let owed := (outstanding l ps k + lp_interest p)%R in let offered := (pay + extra_at x k)%R in
    (0 <= lp_interest p)%R /\
    (outstanding l ps k = 0 -> lp_payment p = 0 /\ lp_principal p = 0 /\ lp_interest p = 0)%R /\
    (offered < owed /\ outstanding l ps k <> 0 -> lp_payment p = pay /\ lp_principal p = offered - lp_interest p)%R /\
    (owed <= offered -> lp_payment p = owed /\ lp_principal p = outstanding l ps k)%R /\
    (outstanding l ps k < outstanding l ps (S k) <-> offered < lp_interest p /\ outstanding l ps k <> 0)%R /\
    (outstanding l ps k = 0 -> forall j, (k <= j <= List.length ps)%nat -> outstanding l ps j = 0)%R.
Proof.
  intros l pay x ps G Or Pp Rp Yp Xp. destruct (schedule_inv _ _ _ _ G) as [h].
  destruct (step_bounds _ _ (sc_step _ _ _ _ h)) as [M _]. pose proof (schedule_start_real _ _ Or (sc_start _ _ _ _ h)) as Rs.
  pose proof (sc_grid _ _ _ _ h) as W. pose proof (while_le_spec _ _ _ _ _ M W) as (_ & _ & ST & _).
  destruct (unpack_nth _ _ _ (sc_extra _ _ _ _ h)) as [_ Ex].
  assert (HH := amortize_nonneg l pay (combine (sc_ex _ _ _ _ h) (pairwise (sc_dates _ _ _ _ h)))).
  assert (A1 : forall v s e, In (v, (s, e)) (combine (sc_ex _ _ _ _ h) (pairwise (sc_dates _ _ _ _ h))) -> (0 <= v)%R).
  { intros v s e I. apply In_nth_error in I. destruct I as [j I]. apply combine_nth_error in I. destruct I as [I _]. apply Ex in I. subst. auto. }
  assert (A2 : forall v s e a, In (v, (s, e)) (combine (sc_ex _ _ _ _ h) (pairwise (sc_dates _ _ _ _ h))) -> acc (l_dcc l) s e = Ok a -> (0 <= Q2R a)%R).
  { intros v s e a I A. apply In_nth_error in I. destruct I as [j I]. apply combine_nth_error in I. destruct I as [_ I]. apply pairwise_nth in I.
    destruct I as [I1 I2]. eapply step_accrual; [exact M| |exact (ST _ _ _ I1 I2)|exact A]. eapply (grid_real _ _ _ _ M Rs W). exact I1. }
  specialize (HH A1 Rp A2 pay (l_principal l) ps Yp Pp (or_introl eq_refl) (sc_run _ _ _ _ h)). clear A1 A2.
  assert (Ent : forall k p, nth_error ps k = Some p -> exists a, lp_interest p = (Q2R a * l_rate l * bal (l_principal l) ps k)%R /\ (0 <= lp_interest p)%R /\ (0 <= bal (l_principal l) ps k)%R /\
    ((bal (l_principal l) ps k + lp_interest p > pay + extra_at x k /\ bal (l_principal l) ps k > 0 /\ lp_payment p = pay /\ lp_principal p = pay + extra_at x k - lp_interest p)%R \/
     ((bal (l_principal l) ps k + lp_interest p <= pay + extra_at x k \/ bal (l_principal l) ps k = 0) /\ lp_payment p = bal (l_principal l) ps k + lp_interest p /\ lp_principal p = bal (l_principal l) ps k)%R)).
  { intros k p E. destruct (HH k) as [B0 H]. destruct (H p E) as (v & s & N & Ip & Cs). destruct (sched_entry _ _ _ _ h k p E) as (d & a & _ & _ & N' & _ & I & _).
    rewrite N in N'. injection N' as -> ->. exists a. auto. }
  change (forall k, outstanding l ps k = bal (l_principal l) ps k) with (forall k, outstanding l ps k = outstanding l ps k).
  assert (Zr : forall j k, (k <= j <= List.length ps)%nat -> bal (l_principal l) ps k = 0%R -> bal (l_principal l) ps j = 0%R).
  { induction j as [|j IH]; intros k L Z0; [replace O with k by lia; exact Z0|]. destruct (Nat.eq_dec k (S j)) as [<- | K]; [exact Z0|].
    assert (Zj := IH k ltac:(lia) Z0). destruct (nth_error ps j) as [p|] eqn:E; [|apply nth_error_None in E; lia].
    rewrite (bal_step _ _ _ _ E). destruct (Ent j p E) as (a & I & _ & _ & C). destruct C as [C|C]; lra. }
  split; [intros k _; apply (HH k)|]. intros k p E. cbv zeta. destruct (Ent k p E) as (a & I & Ip & B0 & C).
  assert (St := bal_step (l_principal l) ps k p E). change (outstanding l ps k) with (bal (l_principal l) ps k). change (outstanding l ps (S k)) with (bal (l_principal l) ps (S k)).
  assert (I0 : bal (l_principal l) ps k = 0%R -> lp_interest p = 0%R) by (intros Z0; rewrite I, Z0; ring).
  pose proof (Xp k) as Xk.
  split; [exact Ip|]. split; [intros Z0; specialize (I0 Z0); destruct C as [C|C]; lra|]. split; [intros [L NZ]; destruct C as [C|([C|C] & _)]; [lra|lra|contradiction]|].
  split; [intros L; destruct C as [C|C]; lra|]. split.
  - split; [intros L; destruct C as [C|C]; [|lra]; split; lra|]. intros [L NZ]. destruct C as [C|([C|C] & _)]; [lra|lra|contradiction].
  - intros Z0 j L. apply (Zr j k L Z0).
Qed.
Print Assumptions C41_balance.

(** an integer extra payment, the annotation's [float], is not iterable; present_value never works *)
Theorem C41_int_extra_refuted : forall l pay z ps, generate_payment_schedule l pay (IntExtra z) <> Ok ps.
Proof. intros l pay z ps G. destruct (schedule_inv _ _ _ _ G) as [h]. pose proof (sc_extra _ _ _ _ h) as E. discriminate. Qed.
Print Assumptions C41_int_extra_refuted.
Theorem C41_present_value_refuted : forall l dc, loan_present_value l dc = Err TypeError.
Proof. reflexivity. Qed.
Print Assumptions C41_present_value_refuted.

(** ---- C42 ---- *)
Theorem C42_level_payment : forall (l : loan) (N : nat) m a z, l_time l = START_OF_MONTH -> l_dcc l = THIRTY360 ->
  loan_step (l_freq l) = Ok m -> (0 < N)%nat -> l_term l = Relativedelta (Z.of_nat N * m) 0 -> (0 < l_principal l)%R -> (0 < l_rate l)%R ->
  acc (l_dcc l) (l_origination l) (l_end l) = Ok a -> (a == inject_Z (Z.of_nat N) / inject_Z (per_year (l_freq l)))%Q ->
  (forall s, schedule_start l = Ok s -> add_months s (Z.of_nat (S N) * m) = Ok z) -> (exists s, schedule_start l = Ok s) ->
  let q := (1 + l_rate l / IZR (per_year (l_freq l)))%R in
  exists pay ps, calculate_fixed_payment_amount l = Ok pay /\ generate_payment_schedule l pay NoExtra = Ok ps /\
    List.length ps = N /\ (forall p, In p ps -> lp_payment p = pay) /\
    (forall k, (k <= N)%nat -> outstanding l ps k = (l_principal l * (q ^ N - q ^ k) / (q ^ N - 1))%R) /\
    outstanding l ps N = 0%R /\ (forall k, (k < N)%nat -> (0 < outstanding l ps k)%R).
Proof.
  intros l N m a z T Dc Stp Np Tm Pp Rp A Av Az [s Es] q. specialize (Az s Es).
  destruct (step_bounds _ _ Stp) as (M & Mn & Nn). set (n := per_year (l_freq l)) in *.
  assert (NR : (0 < IZR n)%R) by (apply IZR_lt; lia). set (c := (l_rate l / IZR n)%R) in *.
  assert (Cp : (0 < c)%R) by (unfold c; apply Rdiv_lt_0_compat; auto).
  assert (Q1 : (1 < q ^ N)%R) by (apply Rlt_pow_R1; [unfold q; lra|lia]).
  assert (Comp : Rpower (1 + c) (Q2R (a * inject_Z n)) = (q ^ N)%R).
  { replace (Q2R (a * inject_Z n)) with (INR N); [apply Rpower_pow; unfold q; lra|]. rewrite INR_IZR_INZ.
    transitivity (Q2R (inject_Z (Z.of_nat N))); [unfold Q2R; cbn; field|]. apply Qeq_eqR. rewrite Av. field.
    intros X. unfold Qeq in X. cbn in X. lia. }
  set (pay := (l_principal l * q ^ N / ((1 - q ^ N) / - c))%R).
  assert (Pay : calculate_fixed_payment_amount l = Ok pay).
  { unfold calculate_fixed_payment_amount. rewrite A. cbn [bind]. fold n. destruct (n =? 0) eqn:C0; [lia|]. fold c.
    destruct (Rlt_dec 0 (1 + c)) as [C1|C1]; [|lra]. rewrite Comp. destruct (Req_EM_T c 0) as [C2|C2]; [lra|].
    destruct (Req_EM_T ((1 - q ^ N) / - c) 0) as [C3|C3]; [|reflexivity]. exfalso.
    assert (0 < (q ^ N - 1) / c)%R by (apply Rdiv_lt_0_compat; lra). replace ((1 - q ^ N) / - c)%R with ((q ^ N - 1) / c)%R in C3 by (field; lra). lra. }
  assert (PayV : pay = (l_principal l * c * q ^ N / (q ^ N - 1))%R) by (unfold pay; field; split; lra).
  assert (PayP : (0 < pay)%R). { rewrite PayV. apply Rdiv_lt_0_compat; [|lra]. apply Rmult_lt_0_compat; [apply Rmult_lt_0_compat; lra|lra]. }
  destruct (schedule_start_first _ _ T Es) as (D1 & Os & _).
  (* the end of the schedule *)
  assert (K1 : exists e, add_months s (Z.of_nat N * m) = Ok e).
  { pose proof (add_months_parts _ _ _ Az) as (Oz & Mz & _). apply date_ok_year in Oz. pose proof (date_parts z) as (Bz & _). pose proof (date_parts s) as (Bd & _).
    pose proof Os as Os'. apply date_ok_year in Os'. assert (0 <= Z.of_nat N * m < Z.of_nat (S N) * m) by nia.
    set (t := year s * 12 + (month s - 1) + Z.of_nat N * m) in *. exists (ymd2ord (t / 12) (t mod 12 + 1) (Z.min (day s) (days_in_month (t / 12) (t mod 12 + 1)))).
    apply add_months_ok. exists (t / 12), (t mod 12 + 1). pose proof (Z.div_mod t 12 ltac:(lia)). pose proof (Z.mod_pos_bound t 12 ltac:(lia)).
    unfold t in *. repeat split; lia. }
  destruct K1 as [e Ae].
  assert (Lez : e < z) by (apply (add_months_order s _ _ _ _ ltac:(lia) Ae Az); nia).
  destruct (grid_ok s e m (Z.of_nat (S N)) z M ltac:(lia) Os ltac:(lia) Az Lez) as [ds Ds].
  pose proof (grid_28 s e m ds M ltac:(lia) Os Ds) as Grid.
  assert (Ln : List.length ds = S N).
  { assert (E1 : nth_error ds N = Some e) by (apply Grid; split; [exact Ae|lia]).
    assert (E2 : nth_error ds (S N) = None).
    { destruct (nth_error ds (S N)) as [y|] eqn:Ey; [|reflexivity]. apply Grid in Ey. destruct Ey as [Ay Ly]. assert (y = z) by congruence. lia. }
    apply nth_error_None in E2. assert (N < List.length ds)%nat by (apply nth_error_Some; congruence). lia. }
  assert (Lp : List.length (combine (repeat 0%R (List.length ds)) (pairwise ds)) = N) by (rewrite combine_length, repeat_length, pairwise_length; lia).
  pose proof (while_le_spec _ _ _ _ _ M Ds) as (_ & _ & ST & _).
  destruct (amortize_level l c Cp (combine (repeat 0%R (List.length ds)) (pairwise ds)) pay (l_principal l) PayP) as (ps & Run & Lps & Pays & Bal).
  { intros v d1 d2 I. apply In_nth_error in I. destruct I as [j I]. apply combine_nth_error in I. destruct I as [I1 I2]. apply nth_error_In, repeat_spec in I1. split; [exact I1|].
    apply pairwise_nth in I2. destruct I2 as [I2 I3]. assert (Aj := ST _ _ _ I2 I3). apply Grid in I2. destruct I2 as [I2 _].
    destruct (add_months_28 s _ _ ltac:(lia) I2) as (_ & Dd & _). destruct (C03_months d1 d2 m ltac:(lia) Aj ltac:(lia)) as (_ & b & Eb & Vb).
    exists b. rewrite Dc. split; [exact Eb|]. unfold c. apply Qeq_eqR in Vb. rewrite Vb.
    unfold Q2R. cbn [Qnum Qden]. replace (inject_Z m / 12)%Q with (m # 12)%Q by (unfold Qdiv, Qmult, inject_Z; cbn; f_equal; lia). cbn [Qnum Qden].
    assert (IZR m * IZR n = 12)%R by (rewrite <- mult_IZR, Mn; reflexivity).
    assert (Hm : (IZR m = 12 / IZR n)%R) by (rewrite <- H; field; lra). rewrite Hm. field. lra. }
  { rewrite Lp. fold q. rewrite PayV. field. lra. }
  exists pay, ps. split; [exact Pay|]. split.
  { unfold generate_payment_schedule. rewrite Es. cbn [bind]. rewrite Tm. cbn [add_increment]. rewrite Ae. cbn [bind].
    assert (AD : add_days e 0 = Ok e). { unfold add_days. replace (e + 0) with e by lia. destruct (add_months_28 s _ _ ltac:(lia) Ae) as (Oe & _). unfold date_ok in Oe.
      destruct ((min_date <=? e) && (e <=? max_date)) eqn:C; [reflexivity|]. apply andb_false_iff in C. lia. }
    rewrite AD. cbn [bind]. rewrite Stp. cbn [bind]. rewrite Ds. cbn [bind unpack_extra]. exact Run. }
  rewrite Lp in *. split; [lia|]. split; [exact Pays|]. fold q in Bal.
  assert (Form : forall k, (k <= N)%nat -> outstanding l ps k = (l_principal l * (q ^ N - q ^ k) / (q ^ N - 1))%R).
  { intros k K. change (outstanding l ps k) with (bal (l_principal l) ps k). specialize (Bal k K).
    assert (Sp : (q ^ N = q ^ k * q ^ (N - k))%R) by (rewrite <- pow_add; f_equal; lia).
    assert (Qk : (0 < q ^ (N - k))%R) by (apply pow_lt; unfold q; lra). assert (Qk' : (0 < q ^ k)%R) by (apply pow_lt; unfold q; lra).
    apply Rmult_eq_reg_r with (c * q ^ (N - k))%R; [|apply Rgt_not_eq; apply Rmult_lt_0_compat; lra].
    replace (bal (l_principal l) ps k * (c * q ^ (N - k)))%R with (bal (l_principal l) ps k * c * q ^ (N - k))%R by ring. rewrite Bal, PayV.
    set (u := (q ^ (N - k))%R) in *. set (v := (q ^ k)%R) in *. rewrite Sp in *. field. lra. }
  split; [exact Form|]. split; [rewrite Form by lia; unfold Rdiv; ring|]. intros k K. rewrite Form by lia.
  apply Rdiv_lt_0_compat; [|lra]. apply Rmult_lt_0_compat; [lra|]. assert (q ^ k < q ^ N)%R by (apply Rlt_pow; [unfold q; lra|lia]). lra.
Qed.
Print Assumptions C42_level_payment.

(** the accrual hypothesis holds whenever the origination day is at most 27 *)
Theorem C42_term_accrual : forall principal rate orig (N : nat) m f l, loan_step f = Ok m ->
  new_loan principal rate orig (Relativedelta (Z.of_nat N * m) 0) THIRTY360 f START_OF_MONTH = Ok l -> day orig <= 27 ->
  exists a, acc (l_dcc l) (l_origination l) (l_end l) = Ok a /\ (a == inject_Z (Z.of_nat N) / inject_Z (per_year (l_freq l)))%Q.
Proof.
  intros p r orig N m f l Stp E D. destruct (step_bounds _ _ Stp) as (M & Mn & Nn). unfold new_loan in E. cbn [add_increment] in E.
  destruct (add_months orig (Z.of_nat N * m)) as [e'|] eqn:A; cbn [bind] in E; [|discriminate].
  destruct (add_days e' 0) as [e|] eqn:A'; cbn [bind] in E; [|discriminate]. injection E as <-. cbn [l_dcc l_origination l_end l_freq].
  assert (e = e'). { unfold add_days in A'. destruct (_ && _); [|discriminate]. injection A' as <-. lia. } subst e'.
  destruct (C03_months orig e (Z.of_nat N * m) D A ltac:(nia)) as (_ & a & Ea & Va). exists a. split; [exact Ea|]. rewrite Va.
  unfold Qeq, Qdiv, Qmult, Qinv, inject_Z. destruct (per_year f) as [|n|n] eqn:En; cbn; try lia. nia.
Qed.
Print Assumptions C42_term_accrual.

(** a rate of 0 has no level payment: ZeroDivisionError, though principal / N would amortise the loan *)
Theorem C42_zero_rate_refuted : forall l a, l_rate l = 0%R -> acc (l_dcc l) (l_origination l) (l_end l) = Ok a -> calculate_fixed_payment_amount l = Err ZeroDivisionError.
Proof.
  intros l a R0 A. unfold calculate_fixed_payment_amount. rewrite A. cbn [bind]. destruct (per_year (l_freq l) =? 0); [reflexivity|]. rewrite R0.
  replace (0 / IZR (per_year (l_freq l)))%R with 0%R by (unfold Rdiv; ring). destruct (Rlt_dec 0 (1 + 0)); [|lra]. destruct (Req_EM_T 0 0); [reflexivity|lra].
Qed.
Print Assumptions C42_zero_rate_refuted.

(** ---- C43 ---- *)
(** START_OF_MONTH: the firsts of every m-th month after the first month start, up to the term *)
Theorem C43_start_of_month : forall l pay x ps s e m, l_time l = START_OF_MONTH -> generate_payment_schedule l pay x = Ok ps ->
  schedule_start l = Ok s -> add_increment s (l_term l) = Ok e -> loan_step (l_freq l) = Ok m ->
  day s = 1 /\ month_index s = month_index (l_origination l) + 1 /\
  (forall k d, (exists p, nth_error ps k = Some p /\ lp_date p = d) <-> add_months s (Z.of_nat (S k) * m) = Ok d /\ d <= e) /\
  (forall p, In p ps -> day (lp_date p) = 1).
Proof.
  intros l pay x ps s e m T G Es Ee Em. destruct (schedule_inv _ _ _ _ G) as [h]. pose proof (sched_length _ _ _ _ h) as Ln. pose proof (sched_entry _ _ _ _ h) as Ent.
  destruct h as [s' e' m' ds ex H1 H2 H3 H4 H5 H6]. cbn [sc_dates sc_ex] in Ln, Ent. rewrite Es in H1. injection H1 as <-. rewrite Ee in H2. injection H2 as <-. rewrite Em in H3. injection H3 as <-.
  destruct (step_bounds _ _ Em) as (M & _). destruct (schedule_start_first _ _ T Es) as (D1 & Os & Mi). pose proof (grid_28 s e m ds M ltac:(lia) Os H4) as Grid.
  assert (F : forall k d, (exists p, nth_error ps k = Some p /\ lp_date p = d) <-> add_months s (Z.of_nat (S k) * m) = Ok d /\ d <= e).
  { intros k d. rewrite <- Grid. split.
    - intros (p & E & <-). destruct (Ent k p E) as (d0 & a & _ & N & _). exact N.
    - intros N. assert (S k < List.length ds)%nat by (apply nth_error_Some; congruence).
      destruct (nth_error ps k) as [p|] eqn:E; [|apply nth_error_None in E; lia]. exists p. split; [auto|]. destruct (Ent k p E) as (d0 & a & _ & N' & _). congruence. }
  split; [exact D1|]. split; [exact Mi|]. split; [exact F|]. intros p I. apply In_nth_error in I. destruct I as [k I].
  destruct (proj1 (F k (lp_date p)) (ex_intro _ p (conj I eq_refl))) as [A _]. destruct (add_months_28 s _ _ ltac:(lia) A) as (_ & Dd & _). lia.
Qed.
Print Assumptions C43_start_of_month.

(** any loan: consecutive payments are m months apart, the first m months after the start, and the day of month never grows *)
Theorem C43_steps : forall l pay x ps m, generate_payment_schedule l pay x = Ok ps -> loan_step (l_freq l) = Ok m ->
  forall k p d, nth_error ps k = Some p -> accrues_from l ps k d -> add_months d m = Ok (lp_date p) /\ month_index (lp_date p) = month_index d + m /\ day (lp_date p) <= day d.
Proof.
  intros l pay x ps m G Em k p d E Ac. destruct (schedule_inv _ _ _ _ G) as [h]. pose proof (sched_entry _ _ _ _ h) as Ent.
  destruct (Ent k p E) as (d0 & a & N1 & N2 & _). assert (d0 = d).
  { pose proof (accrues _ _ _ _ h k d0 p E N1) as A0. destruct k; cbn in *; [congruence|]. destruct A0 as (q & ? & <-), Ac as (q' & ? & <-). congruence. } subst d0.
  destruct (step_bounds _ _ Em) as (M & _). pose proof (sc_grid _ _ _ _ h) as W. pose proof (sc_step _ _ _ _ h) as Em'. rewrite Em in Em'. injection Em' as Em'. rewrite <- Em' in W.
  pose proof (while_le_spec _ _ _ _ _ M W) as (_ & _ & ST & _). assert (A := ST _ _ _ N1 N2). split; [exact A|].
  destruct (add_months_after _ _ _ A M) as (_ & _ & MI). split; [exact MI|]. destruct (add_months_parts _ _ _ A) as (_ & _ & Dd). lia.
Qed.
Print Assumptions C43_steps.

(** END_OF_MONTH starts on the 30th, whatever the month: February raises ValueError, and no payment ever falls on a 31st *)
Theorem C43_end_of_month_start : forall l s, l_time l = END_OF_MONTH -> date_ok (l_origination l) ->
  (schedule_start l = Ok s <-> month (l_origination l) <> 2 /\ date_ok s /\ day s = 30 /\ month s = month (l_origination l) /\ year s = year (l_origination l)) /\
  (month (l_origination l) = 2 -> schedule_start l = Err ValueError).
Proof.
  intros l s T O. unfold schedule_start. rewrite T. set (d := l_origination l) in *.
  assert (N30 : days_in_month (year d) 11 = 30) by (unfold days_in_month; destruct (is_leap _); reflexivity). rewrite N30.
  pose proof (date_parts d) as (Bm & Bd & _). apply date_ok_year in O.
  assert (L : month d <> 2 -> 30 <= days_in_month (year d) (month d)).
  { intros N. assert (C : month d = 1 \/ month d = 3 \/ month d = 4 \/ month d = 5 \/ month d = 6 \/ month d = 7 \/ month d = 8 \/ month d = 9 \/ month d = 10 \/ month d = 11 \/ month d = 12) by lia.
    unfold days_in_month. repeat (destruct C as [C|C]; [rewrite C; destruct (is_leap _); cbn; lia|]). rewrite C; destruct (is_leap _); cbn; lia. }
  assert (L2 : month d = 2 -> days_in_month (year d) (month d) < 30) by (intros ->; unfold days_in_month; destruct (is_leap _); cbn; lia).
  split; [split|].
  - intros E. pose proof E as E'. apply mk_date_ok in E'. apply mk_date_date_ok in E. destruct E as (Os & Ys & Ms & Ds). split; [intros M2; specialize (L2 M2); lia|]. tauto.
  - intros (N & Os & Ds & Ms & Ys). rewrite <- Ms, <- Ys. rewrite <- Ds at 1. apply mk_date_parts. exact Os.
  - intros M2. unfold mk_date. destruct (ymd_ok _ _ _) eqn:C; [|reflexivity]. apply ymd_ok_spec in C. specialize (L2 M2). lia.
Qed.
Print Assumptions C43_end_of_month_start.

Theorem C43_end_of_month_refuted : forall l pay x ps p, l_time l = END_OF_MONTH -> date_ok (l_origination l) -> generate_payment_schedule l pay x = Ok ps -> In p ps -> day (lp_date p) <= 30.
Proof.
  intros l pay x ps p T O G I. destruct (schedule_inv _ _ _ _ G) as [h]. pose proof (sc_step _ _ _ _ h) as Em. set (m := sc_m _ _ _ _ h) in *. clearbody m.
  pose proof (sc_start _ _ _ _ h) as Es. set (s := sc_s _ _ _ _ h) in *. clearbody s. destruct (C43_end_of_month_start l s T O) as [[Q _] _]. specialize (Q Es).
  apply In_nth_error in I. destruct I as [k I]. revert p I. induction k as [|k IH]; intros p E.
  - destruct (C43_steps _ _ _ _ _ G Em 0%nat p s E Es) as (_ & _ & D). lia.
  - destruct (nth_error ps k) as [q|] eqn:Eq; [|apply nth_error_None in Eq; assert (nth_error ps (S k) = None) by (apply nth_error_None; lia); congruence].
    destruct (C43_steps _ _ _ _ _ G Em (S k) p (lp_date q) E (ex_intro _ q (conj Eq eq_refl))) as (_ & _ & D). specialize (IH q eq_refl). lia.
Qed.
Print Assumptions C43_end_of_month_refuted.

Theorem C43_unsupported : forall l pay x, (l_time l = FIXED_DATE -> generate_payment_schedule l pay x = Err ValueError) /\
  (l_freq l = ZERO_COUPON -> forall ps, generate_payment_schedule l pay x <> Ok ps).
Proof.
  intros l pay x. split.
  - intros T. unfold generate_payment_schedule, schedule_start. rewrite T. reflexivity.
  - intros F ps G. destruct (schedule_inv _ _ _ _ G) as [h]. pose proof (sc_step _ _ _ _ h) as E. rewrite F in E. discriminate.
Qed.
Print Assumptions C43_unsupported.

(** ---- concrete cases ---- *)
(** a 12-month, 6% loan of 1000 from 2023-01-15: payments Mar 1 2023 .. Feb 1 2024 *)
Definition orig_2023 : date := 738535.
Definition loan_2023 : loan := Loan 1000 (6 / 100) orig_2023 (Relativedelta 12 0) THIRTY360 MONTHLY START_OF_MONTH 738900.
Example C42_case : mk_date 2023 1 15 = Ok orig_2023 /\ new_loan 1000 (6 / 100) orig_2023 (Relativedelta 12 0) THIRTY360 MONTHLY START_OF_MONTH = Ok loan_2023 /\
  exists pay ps, calculate_fixed_payment_amount loan_2023 = Ok pay /\ generate_payment_schedule loan_2023 pay NoExtra = Ok ps /\ List.length ps = 12%nat /\
    outstanding loan_2023 ps 12 = 0%R /\ (0 < outstanding loan_2023 ps 11)%R.
Proof.
  split; [vm_compute; reflexivity|]. assert (E : new_loan 1000 (6 / 100) orig_2023 (Relativedelta 12 0) THIRTY360 MONTHLY START_OF_MONTH = Ok loan_2023).
  { unfold new_loan. replace (add_increment orig_2023 (Relativedelta 12 0)) with (Ok 738900 : res date) by (vm_compute; reflexivity). reflexivity. }
  split; [exact E|]. destruct (C42_term_accrual 1000 (6 / 100) orig_2023 12 1 MONTHLY loan_2023 eq_refl E) as (a & A & V).
  { apply Z.leb_le. vm_compute. reflexivity. }
  destruct (C42_level_payment loan_2023 12 1 a 738946 eq_refl eq_refl eq_refl ltac:(lia) eq_refl) as (pay & ps & H1 & H2 & H3 & _ & _ & H4 & H5); auto.
  - cbn. lra.
  - cbn. lra.
  - intros s Es. assert (Es' : schedule_start loan_2023 = Ok 738552) by (vm_compute; reflexivity). rewrite Es in Es'. injection Es' as ->. vm_compute. reflexivity.
  - exists 738552. vm_compute. reflexivity.
  - exists pay, ps. repeat split; auto.
Qed.

(** a schedule with an extra payment exists: C41 and C43 apply to it *)
Example C41_case : exists ps, generate_payment_schedule loan_2023 100 (FloatExtra 50) = Ok ps /\ List.length ps = 12%nat /\ real_date orig_2023.
Proof.
  assert (E : schedule_start loan_2023 = Ok 738552) by (vm_compute; reflexivity).
  assert (E2 : add_increment 738552 (Relativedelta 12 0) = Ok 738917) by (vm_compute; reflexivity).
  destruct (payment_dates 738552 738917 1) as [ds|] eqn:W; [|exfalso; revert W; vm_compute; discriminate].
  assert (Ln : List.length ds = 13%nat). { assert (W' : match payment_dates 738552 738917 1 with Ok d => List.length d = 13%nat | Err _ => False end) by (vm_compute; reflexivity). rewrite W in W'. exact W'. }
  assert (Rl : real_date orig_2023) by (split; [split; apply Z.leb_le; vm_compute; reflexivity|apply Z.leb_le; vm_compute; reflexivity]).
  assert (Ok' : forall periods pay rem, (forall v s e, In (v, (s, e)) periods -> s <= e) -> exists ps, amortize loan_2023 periods pay rem = Ok ps /\ List.length ps = List.length periods).
  { induction periods as [|[v [s e]] rest IH]; intros pay rem H; cbn [amortize]; [exists []; auto|].
    unfold calculate_interest_payment. destruct (thirty_value s e (H v s e (or_introl eq_refl))) as (a & A & _).
    change (acc (l_dcc loan_2023) s e) with (compute_accrual_length (Day s) (Day e) THIRTY360). rewrite A. cbn [bind].
    destruct (Rle_dec rem _).
    - destruct (IH (rem + Q2R a * l_rate loan_2023 * rem)%R (rem - rem)%R (fun v s e I => H v s e (or_intror I))) as (ps & -> & L). cbn [bind]. eexists; split; [reflexivity|]. cbn. lia.
    - destruct (IH pay (rem - (pay - Q2R a * l_rate loan_2023 * rem + v))%R (fun v s e I => H v s e (or_intror I))) as (ps & -> & L). cbn [bind]. eexists; split; [reflexivity|]. cbn. lia. }
  destruct (Ok' (combine (repeat 50%R (List.length ds)) (pairwise ds)) 100%R 1000%R) as (ps & Run & L).
  { intros v s e I. apply In_nth_error in I. destruct I as [j I]. apply combine_nth_error in I. destruct I as [_ I]. apply pairwise_nth in I. destruct I as [I1 I2].
    pose proof (while_le_spec _ _ _ 1 _ Z.lt_0_1 W) as (_ & _ & ST & _). destruct (add_months_after _ _ _ (ST _ _ _ I1 I2) Z.lt_0_1). lia. }
  exists ps. split.
  - unfold generate_payment_schedule. rewrite E. cbn [bind]. change (l_term loan_2023) with (Relativedelta 12 0). rewrite E2. cbn [bind loan_step loan_2023 l_freq]. rewrite W. cbn [bind unpack_extra]. exact Run.
  - split; [|exact Rl]. rewrite L, combine_length, repeat_length, pairwise_length. lia.
Qed.

(** END_OF_MONTH from 2023-01-15: Jan 30, then Feb 28, Mar 28, Apr 28 - not month ends *)
Example C43_end_of_month_case : forall l, l_time l = END_OF_MONTH -> l_origination l = orig_2023 -> l_term l = Relativedelta 3 0 -> l_freq l = MONTHLY ->
  schedule_start l = mk_date 2023 1 30 /\ exists d0 d1 d2 d3 e, mk_date 2023 1 30 = Ok d0 /\ add_increment d0 (l_term l) = Ok e /\ payment_dates d0 e 1 = Ok [d0; d1; d2; d3] /\
    mk_date 2023 2 28 = Ok d1 /\ mk_date 2023 3 28 = Ok d2 /\ mk_date 2023 4 28 = Ok d3.
Proof.
  intros l T O Tm F. split; [unfold schedule_start; rewrite T, O; vm_compute; reflexivity|]. exists 738550, 738579, 738607, 738638, 738640. rewrite Tm.
  split; [vm_compute; reflexivity|]. split; [vm_compute; reflexivity|]. split; [vm_compute; reflexivity|]. split; [vm_compute; reflexivity|]. split; vm_compute; reflexivity.
Qed.
