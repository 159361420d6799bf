(** Loans in double precision: C107. *)
From Verif Require Import Base PyDate PyDateFacts DayCount DayCountFacts Scheduler SchedulerFacts ModFollFacts KeyRate KeyRateFacts Curve Cashflow CashflowFacts Bond BondFacts P_DayCount Loan LoanFacts P_Loan Float FloatFacts FloatDayCount P_FloatDayCount FloatLoan.
From Coq Require Import Lra Reals.
From Flocq Require Import Core BinarySingleNaN.
Open Scope Z_scope.

(** ---- specification ---- *)
(** the payer's own ledger: the principal less the principal parts paid, subtracted one after another in double precision *)
Fixpoint f_balance (b : f64) (ps : list f_loan_payment) (k : nat) : f64 :=
  match k, ps with S k', p :: ps' => f_balance (fsub b (flp_principal p)) ps' k' | _, _ => b end.
(** the sum of the first k principal parts as real numbers *)
Definition repaid (ps : list f_loan_payment) (k : nat) : R := rsum (List.map (fun p => B2R (flp_principal p)) (firstn k ps)).
(** an amount (or rate): a finite double between 0 and 2^300 *)
Definition amount (x : f64) : Prop := is_finite x = true /\ (0 <= B2R x <= bpow radix2 300)%R.
(** the k-th extra payment *)
Definition f_extra_at (x : f_extra) (k : nat) : f64 := match x with FNoExtra => of_int 0 | FFloatExtra v => v | FListExtra l => nth k l (of_int 0) end.
(** the date interest has been paid up to before payment k *)
Definition f_accrues_from (l : f_loan) (ps : list f_loan_payment) (k : nat) (d : date) : Prop :=
  match k with O => schedule_start (fl_terms l) = Ok d | S k' => exists q, nth_error ps k' = Some q /\ flp_date q = d end.

(** ---- bounds ---- *)
Lemma rn_bound x k : (-1000 <= k)%Z -> (Rabs x <= bpow radix2 k)%R -> (Rabs (rn x) <= bpow radix2 k)%R.
Proof. intros K H. unfold rn. apply abs_round_le_generic; try typeclasses eauto; [|exact H]. rewrite fe_FLT. apply generic_format_FLT_bpow; [reflexivity|lia]. Qed.
Lemma rn_pos x k : (-1000 <= k)%Z -> (0 <= x <= bpow radix2 k)%R -> (0 <= rn x <= bpow radix2 k)%R.
Proof.
  intros K H. split; [rewrite <- rn_0; apply rn_le; lra|]. apply Rle_trans with (1 := Rle_abs _). apply rn_bound; [exact K|]. rewrite Rabs_pos_eq; lra.
Qed.
Lemma mul_pow a b j k : (0 <= a <= bpow radix2 j -> 0 <= b <= bpow radix2 k -> 0 <= a * b <= bpow radix2 (j + k))%R.
Proof. intros A B. split; [apply Rmult_le_pos; lra|]. rewrite bpow_plus. apply Rmult_le_compat; lra. Qed.
Lemma pow_double j k : (j + 1 <= k)%Z -> (2 * bpow radix2 j <= bpow radix2 k)%R.
Proof. intros H. apply Rle_trans with (bpow radix2 (j + 1)); [rewrite bpow_plus; change (bpow radix2 1) with 2%R; lra|apply bpow_le; exact H]. Qed.
Lemma pow_le j k : (j <= k)%Z -> (bpow radix2 j <= bpow radix2 k)%R. Proof. apply bpow_le. Qed.
Lemma big_of x k : (k <= 1000)%Z -> (0 <= x <= bpow radix2 k)%R -> (Rabs x <= big)%R.
Proof. intros K H. rewrite Rabs_pos_eq by lra. apply Rle_trans with (bpow radix2 k); [lra|]. apply bpow_le. exact K. Qed.
Lemma amount_val x : amount x -> val x (B2R x). Proof. intros [F _]. split; auto. Qed.

(** the interest of a period of a loan *)
Lemma accrual_bounds c s e m a : real_date s -> 0 < m -> add_months s m = Ok e -> f_compute_accrual_length (Day s) (Day e) c = Ok a ->
  exists v, val a v /\ (0 <= v <= bpow radix2 20)%R.
Proof.
  intros Rs M A F. destruct (add_months_after _ _ _ A M) as (Lt & Oe & _). destruct (f_defined _ _ _ _ F) as (_ & q & Eq).
  assert (Os : date_ok s) by apply Rs. destruct (f_value c s e a q Os Oe F Eq) as (v & V & (C1 & C2 & C3) & _). exists v. split; [exact V|].
  pose proof (step_accrual c s e m q M Rs A Eq) as Qp. specialize (C3 ltac:(lia)). rewrite (Rabs_pos_eq (Q2R q) Qp) in C2, C3. pose proof u_small as Us.
  pose proof (ok_span s e Os Oe) as [S0 S1]. apply IZR_le in S1. apply Rabs_le_inv in C3.
  assert (4 * u * Q2R q <= Q2R q)%R by nra. change (bpow radix2 20) with 1048576%R. split; lra.
Qed.
Lemma interest_bounds l s e m rem i r : real_date s -> 0 < m -> add_months s m = Ok e -> amount (fl_rate l) -> val rem r -> (0 <= r <= bpow radix2 300)%R ->
  f_calculate_interest_payment l s e (fl_rate l) rem = Ok i ->
  exists a v, f_compute_accrual_length (Day s) (Day e) (l_dcc (fl_terms l)) = Ok a /\ i = fmul (fmul a (fl_rate l)) rem /\ val i v /\ (0 <= v <= bpow radix2 620)%R /\ (r = 0 -> v = 0)%R.
Proof.
  intros Rs M A Ra Vr Br H. unfold f_calculate_interest_payment in H. destruct (f_compute_accrual_length _ _ _) as [a|] eqn:F; cbn [bind] in H; [|discriminate]. injection H as <-.
  destruct (accrual_bounds _ _ _ _ _ Rs M A F) as (v & V & B). pose proof (amount_val _ Ra) as Vt. destruct Ra as [_ Bt].
  pose proof (mul_pow _ _ _ _ B Bt) as B1. pose proof (fmul_val _ _ _ _ V Vt (big_of _ (20 + 300) ltac:(lia) B1)) as V1. pose proof (rn_pos _ (20 + 300) ltac:(lia) B1) as B2.
  pose proof (mul_pow _ _ _ _ B2 Br) as B3. pose proof (fmul_val _ _ _ _ V1 Vr (big_of _ (20 + 300 + 300) ltac:(lia) B3)) as V2. pose proof (rn_pos _ (20 + 300 + 300) ltac:(lia) B3) as B4.
  exists a, (rn (rn (v * B2R (fl_rate l)) * r)). split; [reflexivity|]. split; [reflexivity|]. split; [exact V2|]. split; [exact B4|].
  intros ->. rewrite Rmult_0_r. apply rn_0.
Qed.

(** one period *)
Record f_row (l : f_loan) (pay0 : f64) (b : f64) (x : f64) (s : date) (p : f_loan_payment) : Prop := FRow {
  fr_accrual : exists a, f_compute_accrual_length (Day s) (Day (flp_date p)) (l_dcc (fl_terms l)) = Ok a /\ flp_interest p = fmul (fmul a (fl_rate l)) b;
  fr_finite : is_finite (flp_payment p) = true /\ is_finite (flp_principal p) = true /\ is_finite (flp_interest p) = true;
  fr_interest : (0 <= B2R (flp_interest p))%R;
  fr_zero : B2R b = 0%R -> B2R (flp_payment p) = 0%R /\ B2R (flp_principal p) = 0%R /\ B2R (flp_interest p) = 0%R;
  fr_split :
    (B2R b > 0 /\ flp_payment p = pay0 /\ flp_principal p = fadd (fsub pay0 (flp_interest p)) x /\ B2R (flp_principal p) < B2R b /\
      B2R (flp_principal p) = rn (rn (B2R pay0 - B2R (flp_interest p)) + B2R x))%R \/
    (flp_payment p = fadd b (flp_interest p) /\ flp_principal p = b /\ B2R (flp_payment p) = rn (B2R b + B2R (flp_interest p)) /\
      (B2R b = 0 \/ B2R b <= rn (rn (B2R pay0 - B2R (flp_interest p)) + B2R x)))%R }.

Lemma balance_0 b ps : f_balance b ps 0 = b. Proof. destruct ps; reflexivity. Qed.
Lemma balance_S b p ps k : f_balance b (p :: ps) (S k) = f_balance (fsub b (flp_principal p)) ps k. Proof. reflexivity. Qed.
Lemma f_amortize_rows l pay0 m periods : 0 < m -> (forall x s e, In (x, (s, e)) periods -> amount x /\ real_date s /\ add_months s m = Ok e) -> amount (fl_rate l) -> amount pay0 ->
  forall pay rem ps, is_finite pay = true -> (0 <= B2R pay <= bpow radix2 630)%R -> amount rem -> (pay = pay0 \/ B2R rem = 0%R) -> f_amortize l periods pay rem = Ok ps ->
  List.length ps = List.length periods /\
  forall k, (k <= List.length ps)%nat -> (forall j p, (j < k)%nat -> nth_error ps j = Some p -> (0 <= B2R (flp_principal p))%R) ->
    amount (f_balance rem ps k) /\ forall p, nth_error ps k = Some p ->
      exists x s, nth_error periods k = Some (x, (s, flp_date p)) /\ f_row l pay0 (f_balance rem ps k) x s p /\
        ((0 <= B2R (flp_principal p))%R -> B2R (f_balance rem ps (S k)) = rn (B2R (f_balance rem ps k) - B2R (flp_principal p))).
Proof.
  intros M Per Rt Py. induction periods as [|[x [s e]] rest IH]; intros pay rem ps Fp Bp Am Dj; cbn [f_amortize].
  - intros [= <-]. split; [reflexivity|]. intros [|k] K _; [|cbn in K; lia]. split; [exact Am|]. intros p; discriminate.
  - destruct (Per x s e (or_introl eq_refl)) as (Ax & Rs & Ad). assert (IH' := IH (fun x s e I => Per x s e (or_intror I))). clear IH.
    destruct (f_calculate_interest_payment _ _ _ _ _) as [i|] eqn:Ei; cbn [bind]; [|discriminate].
    pose proof (amount_val _ Am) as Vr. pose proof (proj2 Am) as Br.
    destruct (interest_bounds l s e m rem i (B2R rem) Rs M Ad Rt Vr Br Ei) as (a & v & Ea & Ii & Vi & Bi & Zi).
    pose proof (amount_val _ Ax) as Vx. destruct Ax as [Fx Bx]. assert (Vp : val pay (B2R pay)) by (split; auto).
    assert (P1 : (2 * bpow radix2 630 <= bpow radix2 640)%R) by (apply pow_double; lia). assert (P2 : (2 * bpow radix2 640 <= bpow radix2 650)%R) by (apply pow_double; lia).
    assert (P3 : (bpow radix2 650 <= big)%R) by (apply pow_le; lia). assert (P4 : (bpow radix2 300 <= bpow radix2 620)%R) by (apply pow_le; lia).
    assert (P5 : (2 * bpow radix2 620 <= bpow radix2 630)%R) by (apply pow_double; lia).
    assert (D1 : (Rabs (B2R pay - v) <= bpow radix2 640)%R) by (apply Rabs_le; lra).
    pose proof (fsub_val _ _ _ _ Vp Vi ltac:(lra)) as V1. pose proof (rn_bound _ 640 ltac:(lia) D1) as D2. apply Rabs_le_inv in D2.
    assert (D3 : (Rabs (rn (B2R pay - v) + B2R x) <= bpow radix2 650)%R) by (apply Rabs_le; lra).
    pose proof (fadd_val _ _ _ _ V1 Vx ltac:(lra)) as V2. set (pp := fadd (fsub pay i) x) in *.
    pose proof (fle_val _ _ _ _ Vr V2) as Le. destruct Vi as [Fi Vi].
    destruct (fle rem pp) eqn:C.
    + assert (Le' := proj1 Le eq_refl). destruct (f_amortize l rest _ _) as [r|] eqn:E; cbn [bind]; [|discriminate]. intros [= <-].
      assert (D4 : (Rabs (B2R rem + v) <= big)%R) by (apply Rabs_le; lra).
      destruct (fadd_val _ _ _ _ Vr (conj Fi Vi) D4) as [F4 V4]. assert (B4 : (0 <= rn (B2R rem + v) <= bpow radix2 630)%R) by (apply rn_pos; [lia|lra]).
      destruct (fsub_val _ _ _ _ Vr Vr) as [F5 V5]; [rewrite Rminus_diag_eq, Rabs_R0 by reflexivity; apply Rlt_le, bpow_gt_0|].
      rewrite Rminus_diag_eq, rn_0 in V5 by reflexivity.
      assert (A5 : amount (fsub rem rem)) by (split; [exact F5|rewrite V5; pose proof (bpow_ge_0 radix2 300); lra]).
      destruct (IH' (fadd rem i) (fsub rem rem) r F4 ltac:(rewrite V4; exact B4) A5 (or_intror V5) E) as [Ln H]. split; [cbn; lia|].
      intros [|k] K Nn.
      * split; [exact Am|]. intros p [= <-]. exists x, s. split; [reflexivity|]. split; [|intros _; rewrite balance_S, !balance_0; cbn [flp_principal]; rewrite V5, Rminus_diag_eq, rn_0; reflexivity].
        constructor; cbn [f_balance flp_date flp_interest flp_payment flp_principal].
        -- exists a. auto.
        -- split; [exact F4|]. split; [apply Am|exact Fi].
        -- rewrite Vi. lra.
        -- intros Z0. specialize (Zi Z0). rewrite V4, Vi, Z0, Zi, Rplus_0_r, rn_0. auto.
        -- right. split; [reflexivity|]. split; [reflexivity|]. rewrite Vi. split; [exact V4|]. destruct Dj as [-> | Z0]; [right; exact Le'|left; exact Z0].
      * rewrite balance_S. cbn [flp_principal nth_error]. cbn [List.length] in K. destruct (H k ltac:(lia)) as [Q1 Q2]; [intros j p J N; apply (Nn (S j) p ltac:(lia) N)|].
        split; [exact Q1|]. intros p N. destruct (Q2 p N) as (x' & s' & N' & W). exists x', s'. auto.
    + assert (Lt : (rn (rn (B2R pay - v) + B2R x) < B2R rem)%R). { destruct (Rle_or_lt (B2R rem) (rn (rn (B2R pay - v) + B2R x))) as [H|H]; [apply Le in H; discriminate|exact H]. }
      destruct (f_amortize l rest _ _) as [r|] eqn:E; cbn [bind]; [|discriminate]. intros [= <-]. destruct V2 as [F2 V2].
      assert (Z0 : B2R rem <> 0%R).
      { intros Z0. specialize (Zi Z0). apply Rlt_not_le in Lt. apply Lt. rewrite Z0. rewrite <- rn_0 at 1. apply rn_le. rewrite Zi, Rminus_0_r, rn_B2R. lra. }
      assert (pay = pay0) by (destruct Dj as [D|D]; [exact D|contradiction]). subst pay.
      assert (Row : f_row l pay0 rem x s (FLoanPayment e pay0 pp i)).
      { constructor; cbn [flp_date flp_interest flp_payment flp_principal].
        - exists a. auto.
        - split; [exact Fp|]. split; [exact F2|exact Fi].
        - rewrite Vi. lra.
        - contradiction.
        - left. rewrite Vi, V2. split; [lra|]. split; [reflexivity|]. split; [reflexivity|]. split; [exact Lt|reflexivity]. }
      assert (St : (0 <= B2R pp)%R -> val (fsub rem pp) (rn (B2R rem - B2R pp)) /\ amount (fsub rem pp)).
      { intros Np. rewrite V2 in Np. assert (B6 : (0 <= B2R rem - B2R pp <= bpow radix2 300)%R) by (rewrite V2; lra).
        pose proof (fsub_val _ _ _ _ Vr (conj F2 eq_refl) (big_of _ 300 ltac:(lia) B6)) as V6. split; [exact V6|]. split; [apply V6|]. rewrite (proj2 V6). apply rn_pos; [lia|exact B6]. }
      split.
      { cbn. f_equal. clear - E. revert E. generalize pay0, (fsub rem pp). revert r. induction rest as [|[x' [s' e']] rest IH]; intros r q b; cbn [f_amortize]; [intros [= <-]; reflexivity|].
        destruct (f_calculate_interest_payment _ _ _ _ _) as [i'|]; cbn [bind]; [|discriminate]. destruct (fle _ _); destruct (f_amortize l rest _ _) as [r'|] eqn:E'; cbn [bind]; try discriminate; intros [= <-]; cbn; f_equal; eapply IH; eauto. }
      intros [|k] K Nn.
      * split; [exact Am|]. intros p [= <-]. exists x, s. split; [reflexivity|]. split; [exact Row|]. rewrite balance_S, !balance_0. cbn [flp_principal]. intros Np. apply St. exact Np.
      * assert (Np := Nn O _ ltac:(lia) eq_refl). cbn [flp_principal] in Np. destruct (St Np) as [_ A6].
        destruct (IH' pay0 (fsub rem pp) r Fp Bp A6 (or_introl eq_refl) E) as [Ln H].
        rewrite balance_S. cbn [flp_principal nth_error]. cbn [List.length] in K. destruct (H k ltac:(lia)) as [Q1 Q2]; [intros j p J N; apply (Nn (S j) p ltac:(lia) N)|].
        split; [exact Q1|]. intros p N. destruct (Q2 p N) as (x' & s' & N' & W). exists x', s'. auto.
Qed.

Lemma f_unpack_nth x n k v : nth_error (f_unpack_extra x n) k = Some v -> v = f_extra_at x k.
Proof.
  assert (Rp : forall (y : f64) n k v, nth_error (repeat y n) k = Some v -> v = y) by (intros y n' k' v' E; apply nth_error_In in E; symmetry; apply repeat_spec in E; congruence).
  destruct x as [|y|li]; cbn [f_unpack_extra f_extra_at]; [apply Rp|apply Rp|].
  destruct (Nat.leb (List.length li) n) eqn:C; intros E.
  - destruct (Nat.lt_ge_cases k (List.length li)) as [L|L].
    + rewrite nth_error_app1 in E by auto. symmetry. apply nth_error_nth. exact E.
    + rewrite nth_error_app2 in E by auto. apply Rp in E. rewrite nth_overflow by auto. exact E.
  - apply Nat.leb_gt in C. symmetry. apply nth_error_nth. rewrite <- E. symmetry. apply nth_error_firstn'.
    assert (k < List.length (firstn n li))%nat by (apply nth_error_Some; congruence). rewrite firstn_length in *. lia.
Qed.
Lemma f_unpack_length x n : List.length (f_unpack_extra x n) = n.
Proof.
  destruct x as [|y|li]; cbn [f_unpack_extra]; try apply repeat_length.
  destruct (Nat.leb (List.length li) n) eqn:C; [apply Nat.leb_le in C; rewrite app_length, repeat_length; lia|apply Nat.leb_gt in C; rewrite firstn_length; lia].
Qed.

(** the terms the theorems are about: amounts, a rate and extra payments between 0 and 2^300 *)
Definition plain_terms (l : f_loan) (pay : f64) (x : f_extra) : Prop :=
  real_date (l_origination (fl_terms l)) /\ amount (fl_principal l) /\ amount (fl_rate l) /\ amount pay /\ forall k, amount (f_extra_at x k).
(** the first k payments cover their interest: their principal parts are not negative *)
Definition covers (ps : list f_loan_payment) (k : nat) : Prop := forall j p, (j < k)%nat -> nth_error ps j = Some p -> (0 <= B2R (flp_principal p))%R.

Lemma f_schedule_rows l pay x ps : f_generate_payment_schedule l pay x = Ok ps -> plain_terms l pay x ->
  forall k, (k <= List.length ps)%nat -> covers ps k -> amount (f_balance (fl_principal l) ps k) /\ forall p, nth_error ps k = Some p ->
    exists d, f_accrues_from l ps k d /\ f_row l pay (f_balance (fl_principal l) ps k) (f_extra_at x k) d p /\
      ((0 <= B2R (flp_principal p))%R -> B2R (f_balance (fl_principal l) ps (S k)) = rn (B2R (f_balance (fl_principal l) ps k) - B2R (flp_principal p))).
Proof.
  unfold f_generate_payment_schedule. intros G (Or & Ap & Ar & Ay & Ax).
  destruct (schedule_start (fl_terms l)) as [s|] eqn:E1; cbn [bind] in G; [|discriminate].
  destruct (add_increment s (l_term (fl_terms l))) as [e|] eqn:E2; cbn [bind] in G; [|discriminate].
  destruct (loan_step (l_freq (fl_terms l))) as [m|] eqn:E3; cbn [bind] in G; [|discriminate].
  destruct (payment_dates s e m) as [ds|] eqn:W; cbn [bind] in G; [|discriminate].
  destruct (step_bounds _ _ E3) as (M & _). pose proof (schedule_start_real _ _ Or E1) as Rs.
  pose proof (while_le_spec _ _ _ _ _ M W) as (_ & _ & ST & _).
  assert (Bp : (0 <= B2R pay <= bpow radix2 630)%R) by (pose proof (proj2 Ay); pose proof (pow_le 300 630 ltac:(lia)); lra).
  set (per := combine (f_unpack_extra x (List.length ds)) (pairwise ds)) in *.
  assert (Pn : forall k v d1 d2, nth_error per k = Some (v, (d1, d2)) -> v = f_extra_at x k /\ nth_error ds k = Some d1 /\ nth_error ds (S k) = Some d2).
  { intros k v d1 d2 N. apply combine_nth_error in N. destruct N as [N1 N2]. apply pairwise_nth in N2. apply f_unpack_nth in N1. tauto. }
  destruct (f_amortize_rows l pay m per M) with (pay := pay) (rem := fl_principal l) (ps := ps) as [Ln H]; auto; [|apply Ay|].
  { intros v d1 d2 I. apply In_nth_error in I. destruct I as [j I]. apply Pn in I. destruct I as (-> & I1 & I2). split; [apply Ax|]. split; [eapply (grid_real _ _ _ _ M Rs W); exact I1|apply (ST _ _ _ I1 I2)]. }
  intros k K Cv. destruct (H k K Cv) as [Q1 Q2]. split; [exact Q1|]. intros p N. destruct (Q2 p N) as (v & d & N' & Row & St).
  apply Pn in N'. destruct N' as (-> & N1 & N2). exists d. split; [|split; [exact Row|exact St]].
  destruct k as [|k]; cbn [f_accrues_from]; [rewrite (grid_head _ _ _ _ _ M W N1); exact E1|].
  destruct (nth_error ps k) as [q|] eqn:Eq; [|apply nth_error_None in Eq; assert (nth_error ps (S k) = None) by (apply nth_error_None; lia); congruence].
  exists q. split; [reflexivity|]. destruct (H k ltac:(lia)) as [_ Q3]; [intros j p' J; apply (Cv j p' ltac:(lia))|]. destruct (Q3 q Eq) as (v' & d' & N3 & _). apply Pn in N3. destruct N3 as (_ & _ & N3). congruence.
Qed.

(** C107: while payments cover the interest, every balance is a finite amount, never negative and never growing; the interest
    recorded is the product accrual * rate * balance, rounded twice; and a payment is either the agreed one, whose principal
    part is less than the balance, or it pays the loan off exactly. *)
Theorem C107_balance : forall l pay x ps, f_generate_payment_schedule l pay x = Ok ps -> plain_terms l pay x ->
  forall k p, nth_error ps k = Some p -> covers ps (S k) ->
  let b := f_balance (fl_principal l) ps k in let b' := f_balance (fl_principal l) ps (S k) in
  amount b /\ amount b' /\ (B2R b' <= B2R b)%R /\ (0 <= B2R (flp_principal p) <= B2R b)%R /\
  is_finite (flp_payment p) = true /\ is_finite (flp_principal p) = true /\ is_finite (flp_interest p) = true /\ (0 <= B2R (flp_interest p))%R /\
  (exists d a, f_accrues_from l ps k d /\ f_compute_accrual_length (Day d) (Day (flp_date p)) (l_dcc (fl_terms l)) = Ok a /\ flp_interest p = fmul (fmul a (fl_rate l)) b) /\
  ((B2R (flp_principal p) < B2R b /\ 0 < B2R b' /\ flp_payment p = pay /\ flp_principal p = fadd (fsub pay (flp_interest p)) (f_extra_at x k))%R \/
   (flp_payment p = fadd b (flp_interest p) /\ flp_principal p = b /\ B2R b' = 0)%R).
Proof.
  intros l pay x ps G T k p N Cv. cbv zeta. assert (K : (k < List.length ps)%nat) by (apply nth_error_Some; congruence).
  destruct (f_schedule_rows _ _ _ _ G T k ltac:(lia) (fun j q J => Cv j q ltac:(lia))) as [A H]. destruct (H p N) as (d & Ac & Row & St). clear H.
  assert (Np := Cv k p ltac:(lia) N). specialize (St Np). destruct (f_schedule_rows _ _ _ _ G T (S k) ltac:(lia) Cv) as [A' _].
  destruct Row as [(a & Ea & Ia) (F1 & F2 & F3) I0 _ Sp]. set (b := f_balance _ ps k) in *. set (b' := f_balance _ ps (S k)) in *.
  assert (L : (B2R (flp_principal p) <= B2R b)%R) by (destruct Sp as [(_ & _ & _ & L & _)|(_ & -> & _)]; lra).
  assert (L' : (B2R b' <= B2R b)%R) by (rewrite St; rewrite <- (rn_B2R b) at 2; apply rn_le; lra).
  split; [exact A|]. split; [exact A'|]. split; [exact L'|]. split; [lra|]. split; [exact F1|]. split; [exact F2|]. split; [exact F3|]. split; [exact I0|].
  split; [exists d, a; auto|]. destruct Sp as [(B0 & Py & Pp & Lt & _)|(Py & Pp & _)].
  - left. split; [exact Lt|]. split; [|auto]. rewrite St. pose proof (rn_minus_err b (flp_principal p) _ _ (amount_val _ A) (conj F2 eq_refl)) as Er.
    rewrite (Rabs_pos_eq (B2R b - _)) in Er by lra. apply Rabs_le_inv in Er. pose proof u_small. nra.
  - right. split; [exact Py|]. split; [exact Pp|]. rewrite St, Pp, Rminus_diag_eq, rn_0; reflexivity.
Qed.
Print Assumptions C107_balance.

(** the ledger is off by at most k roundings of the principal *)
Theorem C107_conserved : forall l pay x ps, f_generate_payment_schedule l pay x = Ok ps -> plain_terms l pay x ->
  forall k, (k <= List.length ps)%nat -> covers ps k ->
  (Rabs (repaid ps k + B2R (f_balance (fl_principal l) ps k) - B2R (fl_principal l)) <= INR k * / 2 ^ 53 * B2R (fl_principal l))%R.
Proof.
  intros l pay x ps G T. assert (U : (/ 2 ^ 53 = u)%R) by (rewrite <- (Rmult_1_r u); change 1%R with (2 ^ 0)%R at 1; rewrite u_pow by lia; reflexivity). rewrite U. clear U.
  enough (E : forall k, (k <= List.length ps)%nat -> covers ps k -> (B2R (f_balance (fl_principal l) ps k) <= B2R (fl_principal l))%R /\
    (Rabs (repaid ps k + B2R (f_balance (fl_principal l) ps k) - B2R (fl_principal l)) <= INR k * u * B2R (fl_principal l))%R) by (intros k K C; apply E; auto).
  induction k as [|k IH]; intros K Cv.
  - unfold repaid. rewrite balance_0. cbn [firstn List.map INR]. rewrite rsum_nil. split; [lra|]. replace (0 + B2R (fl_principal l) - B2R (fl_principal l))%R with 0%R by ring. rewrite Rabs_R0. lra.
  - destruct (IH ltac:(lia) (fun j q J => Cv j q ltac:(lia))) as [L Er]. destruct (nth_error ps k) as [p|] eqn:N; [|apply nth_error_None in N; lia].
    destruct (C107_balance _ _ _ _ G T k p N Cv) as (A & A' & Lb & Lp & _ & F2 & _ & _ & _).
    assert (Rp : repaid ps (S k) = (repaid ps k + B2R (flp_principal p))%R).
    { unfold repaid. clear - N. revert ps N. induction k as [|k IH]; intros [|q ps] N; cbn in N; try discriminate.
      - injection N as ->. cbn [firstn List.map]. rewrite rsum_cons, rsum_nil. ring.
      - change (firstn (S (S k)) (q :: ps)) with (q :: firstn (S k) ps). change (firstn (S k) (q :: ps)) with (q :: firstn k ps). cbn [List.map]. rewrite !rsum_cons, (IH ps N). ring. }
    destruct (f_schedule_rows _ _ _ _ G T k ltac:(lia) (fun j q J => Cv j q ltac:(lia))) as [_ H]. destruct (H p N) as (d & _ & _ & St). specialize (St (proj1 Lp)).
    pose proof (rn_minus_err _ _ _ _ (amount_val _ A) (conj F2 eq_refl)) as E1. rewrite <- St in E1.
    split; [lra|]. rewrite Rp, S_INR. pose proof u_small as Us. apply Rabs_le_inv in Er. rewrite (Rabs_pos_eq (B2R (f_balance (fl_principal l) ps k) - B2R (flp_principal p))) in E1 by lra. apply Rabs_le_inv in E1.
    set (b := B2R (f_balance (fl_principal l) ps k)) in *. set (b' := B2R (f_balance (fl_principal l) ps (S k))) in *. set (q := B2R (flp_principal p)) in *. set (P := B2R (fl_principal l)) in *.
    assert (u * (b - q) <= u * P)%R by (apply Rmult_le_compat_l; lra). apply Rabs_le. lra.
Qed.
Print Assumptions C107_conserved.

(** what is paid is principal and interest, to within the roundings of the one or two operations that split it *)
Theorem C107_split : forall l pay x ps, f_generate_payment_schedule l pay x = Ok ps -> plain_terms l pay x ->
  forall k p, nth_error ps k = Some p -> covers ps (S k) ->
  let pr := B2R (flp_principal p) in let i := B2R (flp_interest p) in let b := B2R (f_balance (fl_principal l) ps k) in let v := B2R (flp_payment p) in let e := B2R (f_extra_at x k) in
  (pr < b -> Rabs (pr + i - (v + e)) <= / 2 ^ 52 * (v + i + e))%R /\ (pr = b -> Rabs (pr + i - v) <= / 2 ^ 53 * (pr + i))%R.
Proof.
  intros l pay x ps G T k p N Cv. cbv zeta. assert (U : (/ 2 ^ 53 = u)%R) by (rewrite <- (Rmult_1_r u); change 1%R with (2 ^ 0)%R at 1; rewrite u_pow by lia; reflexivity).
  assert (U2 : (/ 2 ^ 52 = 2 * u)%R). { rewrite <- U. lra. } rewrite U, U2. clear U U2. pose proof u_small as Us.
  assert (K : (k < List.length ps)%nat) by (apply nth_error_Some; congruence).
  destruct (f_schedule_rows _ _ _ _ G T k ltac:(lia) (fun j q J => Cv j q ltac:(lia))) as [A H]. destruct (H p N) as (d & _ & Row & _). clear H.
  destruct T as (_ & _ & _ & Ty & Tx). pose proof (amount_val _ (Tx k)) as Vx. pose proof (proj2 (Tx k)) as Bx. pose proof (amount_val _ Ty) as Vy. pose proof (proj2 Ty) as By.
  destruct Row as [_ (F1 & F2 & F3) I0 _ Sp]. assert (Vi : val (flp_interest p) (B2R (flp_interest p))) by (split; auto). split; intros L.
  - destruct Sp as [(_ & Ey & _ & _ & Pv)|(_ & Eb & _)]; [|rewrite Eb in L; lra]. rewrite Ey. rewrite Pv. set (i := B2R (flp_interest p)) in *. set (y := B2R pay) in *. set (e := B2R (f_extra_at x k)) in *.
    pose proof (rn_minus_err _ _ _ _ Vy Vi) as E1. fold y i in E1.
    assert (Bi : (rn (y - i) <= y)%R). { pose proof (rn_B2R pay) as Y. fold y in Y. apply Rle_trans with (rn y); [apply rn_le; lra|lra]. }
    assert (Bj : (- i <= rn (y - i))%R). { pose proof (rn_B2R (flp_interest p)) as Y. fold i in Y. pose proof (rn_opp i) as Y'. apply Rle_trans with (rn (- i)); [lra|apply rn_le; lra]. }
    assert (Vd : exists w : f64, val w (rn (y - i))).
    { apply Rabs_le_inv in E1.
      exists (binary_normalize 53 1024 prec_gt prec_lt mode_NE (Ztrunc (scaled_mantissa radix2 FloatFacts.fe (rn (y - i)))) (cexp radix2 FloatFacts.fe (rn (y - i))) false).
      pose proof (@binary_normalize_correct 53 1024 prec_gt prec_lt mode_NE (Ztrunc (scaled_mantissa radix2 FloatFacts.fe (rn (y - i)))) (cexp radix2 FloatFacts.fe (rn (y - i))) false) as BC.
      assert (Fm : generic_format radix2 FloatFacts.fe (rn (y - i))) by (apply generic_format_round; typeclasses eauto).
      assert (EqF : F2R (Float radix2 (Ztrunc (scaled_mantissa radix2 FloatFacts.fe (rn (y - i)))) (cexp radix2 FloatFacts.fe (rn (y - i)))) = rn (y - i)) by (symmetry; exact Fm).
      rewrite EqF in BC. cbv zeta in BC. change (SpecFloat.fexp 53 1024) with FloatFacts.fe in BC. change (round radix2 FloatFacts.fe (round_mode mode_NE) (rn (y - i))) with (rn (rn (y - i))) in BC. rewrite (rn_format _ Fm) in BC.
      rewrite Rlt_bool_true in BC; [split; apply BC|].
      assert (Rabs (rn (y - i)) <= Rmax y i)%R by (apply Rabs_le; pose proof (Rmax_l y i); pose proof (Rmax_r y i); lra).
      apply Rle_lt_trans with (1 := H). apply Rmax_lub_lt; [rewrite <- (Rabs_pos_eq y) by lra; apply abs_B2R_lt_emax|rewrite <- (Rabs_pos_eq i) by lra; apply abs_B2R_lt_emax]. }
    destruct Vd as [w Vw]. pose proof (rn_plus_err _ _ _ _ Vw Vx) as E2. fold e in E2.
    assert (A1 : (Rabs (y - i) <= y + i)%R) by (apply Rabs_le; lra). assert (A2 : (Rabs (rn (y - i) + e) <= y + i + e)%R) by (apply Rabs_le; lra).
    assert (u * Rabs (y - i) <= u * (y + i))%R by (apply Rmult_le_compat_l; lra). assert (u * Rabs (rn (y - i) + e) <= u * (y + i + e))%R by (apply Rmult_le_compat_l; lra).
    apply Rabs_le_inv in E1, E2. assert (0 <= u * e)%R by (apply Rmult_le_pos; lra). apply Rabs_le. lra.
  - destruct Sp as [(_ & _ & _ & L' & _)|(_ & Eb & Pv & _)]; [lra|]. rewrite Pv, Eb. pose proof (rn_plus_err _ _ _ _ (amount_val _ A) Vi) as E1.
    pose proof (proj2 A). rewrite (Rabs_pos_eq (_ + _)) in E1 by lra. rewrite Rabs_minus_sym. exact E1.
Qed.
Print Assumptions C107_split.

(** once paid off, nothing more is due *)
Theorem C107_paid_off : forall l pay x ps, f_generate_payment_schedule l pay x = Ok ps -> plain_terms l pay x ->
  forall k, (k <= List.length ps)%nat -> covers ps k -> B2R (f_balance (fl_principal l) ps k) = 0%R ->
  forall j p, (k <= j)%nat -> nth_error ps j = Some p -> B2R (flp_payment p) = 0%R /\ B2R (flp_principal p) = 0%R /\ B2R (flp_interest p) = 0%R.
Proof.
  intros l pay x ps G T k K Cv Z0 j. enough (E : forall j, (k <= j <= List.length ps)%nat -> covers ps j /\ B2R (f_balance (fl_principal l) ps j) = 0%R).
  { intros p J N. assert (j < List.length ps)%nat by (apply nth_error_Some; congruence). destruct (E j ltac:(lia)) as [C Zj].
    destruct (f_schedule_rows _ _ _ _ G T j ltac:(lia) C) as [_ H']. destruct (H' p N) as (d & _ & Row & _). apply (fr_zero _ _ _ _ _ _ Row Zj). }
  clear j. induction j as [|j IH]; intros J; [assert (k = O) by lia; subst; auto|]. destruct (Nat.eq_dec k (S j)) as [<- | Ne]; [auto|].
  destruct (IH ltac:(lia)) as [C Zj]. destruct (f_schedule_rows _ _ _ _ G T j ltac:(lia) C) as [_ H]. destruct (nth_error ps j) as [p|] eqn:N; [|apply nth_error_None in N; lia].
  destruct (H p eq_refl) as (d & _ & Row & St). destruct (fr_zero _ _ _ _ _ _ Row Zj) as (_ & Z1 & _). split.
  - intros j' q J' N'. destruct (Nat.eq_dec j' j) as [-> | Nj]; [replace q with p by congruence; lra|apply (C j' q ltac:(lia) N')].
  - rewrite St by lra. rewrite Zj, Z1, Rminus_diag_eq, rn_0; reflexivity.
Qed.
Print Assumptions C107_paid_off.

(** $1000 at 10% (the double 0.1), $400 a month from 2023-01-15 for three months *)
Definition f_orig : date := 738535.
Definition f_loan_2023 : f_loan := FLoan (Loan 0 0 f_orig (Relativedelta 3 0) THIRTY360 MONTHLY START_OF_MONTH 0) (of_int 1000) (flit 3602879701896397 (-55)).
Definition f_rows : list f_loan_payment := match f_generate_payment_schedule f_loan_2023 (of_int 400) FNoExtra with Ok ps => ps | Err _ => [] end.
Definition f_part (k : nat) : f64 := match nth_error f_rows k with Some p => flp_principal p | None => of_int 0 end.
Lemma f_rows_ok : f_generate_payment_schedule f_loan_2023 (of_int 400) FNoExtra = Ok f_rows.
Proof.
  unfold f_rows. assert (E : is_ok (f_generate_payment_schedule f_loan_2023 (of_int 400) FNoExtra) = true) by (vm_compute; reflexivity).
  destruct (f_generate_payment_schedule f_loan_2023 (of_int 400) FNoExtra); [reflexivity|discriminate].
Qed.
Lemma f_rows_length : List.length f_rows = 3%nat. Proof. vm_compute. reflexivity. Qed.
Lemma f_rows_parts : List.map flp_principal f_rows = [f_part 0; f_part 1; f_part 2].
Proof. unfold f_part. pose proof f_rows_length as L. destruct f_rows as [|a [|b [|c [|]]]]; try discriminate. reflexivity. Qed.
Lemma small_amount n : 0 <= n <= 2 ^ 53 -> amount (of_int n).
Proof.
  intros H. destruct (of_int_val n ltac:(lia)) as [F V]. split; [exact F|]. rewrite V. split; [apply IZR_le; lia|].
  apply Rle_trans with (bpow radix2 53); [|apply pow_le; lia]. change (bpow radix2 53) with (IZR (2 ^ 53)). apply IZR_le. lia.
Qed.
Lemma f_terms_plain : plain_terms f_loan_2023 (of_int 400) FNoExtra.
Proof.
  split; [split; [split; apply Z.leb_le; vm_compute; reflexivity|apply Z.leb_le; vm_compute; reflexivity]|]. split; [apply small_amount; lia|]. split; [|split; [apply small_amount; lia|intros k; apply small_amount; lia]].
  cbn [f_loan_2023 fl_rate]. destruct (flit_val 3602879701896397 (-55) ltac:(lia) ltac:(lia)) as [F V]. split; [exact F|]. rewrite V. change (bpow radix2 (-55)) with (/ 36028797018963968)%R.
  pose proof (pow_le 0 300 ltac:(lia)) as B. change (bpow radix2 0) with 1%R in B. lra.
Qed.
Lemma f_part_values : (B2R (f_part 0) = 6890272867396267 * bpow radix2 (-44) /\ B2R (f_part 1) = 6947691807957902 * bpow radix2 (-44) /\ B2R (f_part 2) = 7508442738123660 * bpow radix2 (-45))%R.
Proof.
  split; [rewrite (finite_value (f_part 0) false 6890272867396267 (-44)) by (vm_compute; reflexivity); reflexivity|].
  split; [rewrite (finite_value (f_part 1) false 6947691807957902 (-44)) by (vm_compute; reflexivity); reflexivity|].
  rewrite (finite_value (f_part 2) false 7508442738123660 (-45)) by (vm_compute; reflexivity); reflexivity.
Qed.
Lemma f_rows_cover k : covers f_rows k.
Proof.
  intros j p _ N. assert (I : In (flp_principal p) (List.map flp_principal f_rows)) by (apply in_map; eapply nth_error_In; exact N).
  rewrite f_rows_parts in I. destruct f_part_values as (V0 & V1 & V2). pose proof (bpow_gt_0 radix2 (-44)). pose proof (bpow_gt_0 radix2 (-45)).
  destruct I as [<- | [<- | [<- | []]]]; lra.
Qed.
(** the hypotheses of C107 hold of this loan, which is paid off by its third payment *)
Example C107_case : f_generate_payment_schedule f_loan_2023 (of_int 400) FNoExtra = Ok f_rows /\ List.length f_rows = 3%nat /\ plain_terms f_loan_2023 (of_int 400) FNoExtra /\ covers f_rows 3 /\
  B2R (f_balance (of_int 1000) f_rows 3) = 0%R /\ (0 < B2R (f_balance (of_int 1000) f_rows 2))%R.
Proof.
  split; [exact f_rows_ok|]. split; [exact f_rows_length|]. split; [exact f_terms_plain|]. split; [apply f_rows_cover|].
  pose proof f_rows_length as L. assert (N : forall k, (k < 3)%nat -> exists p, nth_error f_rows k = Some p).
  { intros k K. destruct (nth_error f_rows k) as [p|] eqn:E; [eauto|]. apply nth_error_None in E. lia. }
  destruct (N 1%nat ltac:(lia)) as [p1 N1]. destruct (N 2%nat ltac:(lia)) as [p2 N2].
  destruct (C107_balance _ _ _ _ f_rows_ok f_terms_plain 1%nat p1 N1 (f_rows_cover _)) as (_ & _ & _ & _ & _ & _ & _ & _ & _ & C1).
  destruct (C107_balance _ _ _ _ f_rows_ok f_terms_plain 2%nat p2 N2 (f_rows_cover _)) as (_ & _ & _ & _ & _ & _ & _ & _ & _ & C2).
  change (fl_principal f_loan_2023) with (of_int 1000) in C1, C2.
  assert (S1 : flt (of_int 0) (f_balance (of_int 1000) f_rows 2) = true) by (vm_compute; reflexivity).
  assert (S2 : feq (f_balance (of_int 1000) f_rows 3) (of_int 0) = true) by (vm_compute; reflexivity).
  split.
  - destruct (C107_balance _ _ _ _ f_rows_ok f_terms_plain 2%nat p2 N2 (f_rows_cover _)) as (_ & A' & _). change (fl_principal f_loan_2023) with (of_int 1000) in A'.
    apply (feq_val _ _ _ _ (amount_val _ A') (of_int_val 0 ltac:(lia))) in S2. exact S2.
  - destruct (C107_balance _ _ _ _ f_rows_ok f_terms_plain 1%nat p1 N1 (f_rows_cover _)) as (_ & A' & _). change (fl_principal f_loan_2023) with (of_int 1000) in A'.
    apply (flt_val _ _ _ _ (of_int_val 0 ltac:(lia)) (amount_val _ A')) in S1. exact S1.
Qed.

(** the principal parts of a paid off loan need not add up to the principal, neither as real numbers nor in floating point *)
Theorem C107_exact_refuted : exists l pay ps, f_generate_payment_schedule l pay FNoExtra = Ok ps /\ plain_terms l pay FNoExtra /\ covers ps (List.length ps) /\
  B2R (f_balance (fl_principal l) ps (List.length ps)) = 0%R /\ repaid ps (List.length ps) <> B2R (fl_principal l) /\
  feq (fold_left fadd (List.map flp_principal ps) (of_int 0)) (fl_principal l) = false.
Proof.
  exists f_loan_2023, (of_int 400), f_rows. destruct C107_case as (E & L & T & C & Z0 & _). rewrite L.
  split; [exact E|]. split; [exact T|]. split; [exact C|]. split; [exact Z0|]. split; [|vm_compute; reflexivity].
  unfold repaid. rewrite <- L at 1. rewrite firstn_all, <- (map_map flp_principal B2R), f_rows_parts. cbn [List.map]. rewrite !rsum_cons, rsum_nil.
  destruct f_part_values as (-> & -> & ->). cbn [f_loan_2023 fl_principal]. rewrite (proj2 (of_int_val 1000 ltac:(lia))).
  change (bpow radix2 (-44)) with (/ 17592186044416)%R. change (bpow radix2 (-45)) with (/ 35184372088832)%R. lra.
Qed.
Print Assumptions C107_exact_refuted.
