(** Implied swap rates in double precision: C110. *)
From Verif Require Import Base PyDate PyDateFacts DayCount DayCountFacts Holidays Scheduler SchedulerFacts ModFollFacts PyList KeyRate KeyRateFacts Curve CurveFacts Cashflow CashflowFacts Bond Loan LoanFacts LoopFacts Swap SwapFacts P_BondYield P_DayCount P_Scheduler P_Swap Float FloatFacts FloatDayCount P_FloatDayCount FloatKeyRate P_FloatKeyRate FloatCashflow P_FloatCashflow P_FloatBond FloatSwap P_FloatSwap FloatImplied.

From Coq Require Import Lra Reals Qreals Permutation.
From Flocq Require Import Core BinarySingleNaN.
Open Scope Z_scope.
Local Opaque add_business_days calculate_settlement_date.

(** ---- specification ---- *)
(** the swap at another fixed rate and direction *)
Definition quoted (x : f64) (d : direction) (a : f_swap_args) : f_swap_args := FSwapArgs (at_terms (B2R x) d (fs_terms a)) x (fs_notional a).
(** what a user does: construct the swap, generate both legs, ask for the present value *)
Definition swap_value (total : list f64 -> f64) (a : f_swap_args) (rate : date -> res f64) (dc : f_discount) : res f64 :=
  do s <- new_swap (fs_terms a);
  do fixed <- f_fixed_leg a s;
  do float <- f_floating_leg a s rate;
  f_sw_present_value total (sw_dir (fs_terms a)) fixed float dc.
(** discount factor x accrual x notional of a period, exactly *)
Definition pays_on (a : f_swap_args) (p : f_accrual) : res date := calculate_settlement_date (fa_end p) (sw_delay (fs_terms a)) (sw_cal (fs_terms a)).
Definition discount_of (dc : f_discount) (a : f_swap_args) (p : f_accrual) : f64 := ok_or (do d <- pays_on a p; fd_call dc d).
Definition weight (dc : f_discount) (a : f_swap_args) (p : f_accrual) : R := (B2R (discount_of dc a p) * (B2R (fa_factor p) * B2R (fs_notional a)))%R.
Definition exact_annuity (dc : f_discount) (a : f_swap_args) (accs : list f_accrual) : R := sumR (List.map (weight dc a) accs).
(** Accruals are not negative (they can be under 30/360 only, from 28 to 29 February), every fixed payment is still to come and
    has a discount factor between 2^-100 and 2^100; the notional is 0 or between 2^-100 and 2^100 in size. *)
Definition fair_market (a : f_swap_args) (s : swap) (dc : f_discount) : Prop :=
  is_finite (fs_notional a) = true /\ sized 100 (B2R (fs_notional a)) /\ date_ok (sw_purchase (fs_terms a)) /\
  forall accs p d df, f_accrual_schedule s (sw_fixed_freq (fs_terms a)) (sw_fixed_dcc (fs_terms a)) = Ok accs -> In p accs ->
    (0 <= B2R (fa_factor p))%R /\ (pays_on a p = Ok d -> fd_ref dc <= d /\ (fd_call dc d = Ok df -> is_finite df = true /\ (bpow radix2 (-100) <= B2R df <= bpow radix2 100)%R)).
(** the floating leg's present value is finite and 0 or between 2^-200 and 2^200 in size *)
Definition float_leg_ok (total : list f64 -> f64) (a : f_swap_args) (s : swap) (dc : f_discount) (rate : date -> res f64) (P : f64) : Prop :=
  (do l <- f_floating_leg a s rate; f_cf_present_value total l dc) = Ok P /\ is_finite P = true /\ sized 200 (B2R P).

(** ---- sums ---- *)
Lemma sum_perturb {A} (f g : A -> R) e l : (0 <= e)%R -> (forall a, In a l -> (Rabs (f a - g a) <= e * Rabs (g a))%R) ->
  (Rabs (sumR (List.map f l) - sumR (List.map g l)) <= e * sum_abs (List.map g l))%R /\ (sum_abs (List.map f l) <= (1 + e) * sum_abs (List.map g l))%R.
Proof.
  intros E. induction l as [|a l IH]; intros H.
  - unfold sum_abs, sumR. cbn. rewrite Rminus_0_r, Rabs_R0. lra.
  - destruct IH as [I1 I2]; [intros b Hb; apply H; right; exact Hb|]. pose proof (H a (or_introl eq_refl)) as Ha. cbn [List.map].
    change (sum_abs (f a :: List.map f l)) with (Rabs (f a) + sum_abs (List.map f l))%R. change (sum_abs (g a :: List.map g l)) with (Rabs (g a) + sum_abs (List.map g l))%R.
    change (sumR (f a :: List.map f l)) with (f a + sumR (List.map f l))%R. change (sumR (g a :: List.map g l)) with (g a + sumR (List.map g l))%R. split.
    + replace (f a + sumR (List.map f l) - (g a + sumR (List.map g l)))%R with ((f a - g a) + (sumR (List.map f l) - sumR (List.map g l)))%R by ring. apply Rle_trans with (1 := Rabs_triang _ _). lra.
    + assert (Rabs (f a) <= (1 + e) * Rabs (g a))%R; [|lra]. replace (f a) with ((f a - g a) + g a)%R by ring. apply Rle_trans with (1 := Rabs_triang _ _). lra.
Qed.
Lemma one_sign {A} (N : R) (c : A -> R) l : (forall a, In a l -> (0 <= c a)%R) -> sum_abs (List.map (fun a => N * c a)%R l) = Rabs (sumR (List.map (fun a => N * c a)%R l)).
Proof.
  intros H. assert (G : sumR (List.map (fun a => N * c a)%R l) = (N * sumR (List.map c l))%R /\ sum_abs (List.map (fun a => N * c a)%R l) = (Rabs N * sumR (List.map c l))%R /\ (0 <= sumR (List.map c l))%R).
  { induction l as [|a l IH]; [unfold sum_abs, sumR; cbn; rewrite !Rmult_0_r; split; [|split]; lra|]. destruct IH as (I1 & I2 & I3); [intros b Hb; apply H; right; exact Hb|]. pose proof (H a (or_introl eq_refl)) as Ha. cbn [List.map].
    change (sumR (c a :: List.map c l)) with (c a + sumR (List.map c l))%R. change (sumR (?x :: ?y)) with (x + sumR y)%R. change (sum_abs (?x :: ?y)) with (Rabs x + sum_abs y)%R. cbv beta. rewrite I1, I2, Rabs_mult, (Rabs_pos_eq (c a)) by exact Ha. split; [ring|split; [ring|lra]]. }
  destruct G as (G1 & G2 & G3). rewrite G1, G2, Rabs_mult, (Rabs_pos_eq (sumR _)) by exact G3. reflexivity.
Qed.

(** ---- the annuity and the fixed leg, unrolled ---- *)
Definition wdt (a : f_swap_args) (p : f_accrual) : f64 := fmul (fa_factor p) (fs_notional a).
Lemma annuity_fold a dc accs : forall t an, f_annuity a dc accs t = Ok an ->
  (forall p, In p accs -> exists d df, pays_on a p = Ok d /\ fd_call dc d = Ok df /\ discount_of dc a p = df) /\
  an = fold_left fadd (List.map (fun p => fmul (discount_of dc a p) (wdt a p)) accs) t.
Proof.
  induction accs as [|p accs IH]; intros t an E; cbn [f_annuity] in E; [injection E as <-; split; [contradiction|reflexivity]|].
  assert (Hd : discount_of dc a p = ok_or (do d <- pays_on a p; fd_call dc d)) by reflexivity. unfold pays_on at 1 in Hd.
  destruct (calculate_settlement_date (fa_end p) _ _) as [d|] eqn:S0; cbn [bind] in E, Hd; [|discriminate]. destruct (fd_call dc d) as [df|] eqn:D; cbn [bind ok_or] in E, Hd; [|discriminate]. destruct (IH _ _ E) as [I1 I2]. split.
  - intros q [<- |I]; [exists d, df; split; [exact S0|split; [exact D|exact Hd]]|exact (I1 q I)].
  - cbn [List.map fold_left]. rewrite Hd. exact I2.
Qed.
Lemma fixed_leg_list a s accs : f_accrual_schedule s (sw_fixed_freq (fs_terms a)) (sw_fixed_dcc (fs_terms a)) = Ok accs -> (forall p, In p accs -> exists d, pays_on a p = Ok d) ->
  f_fixed_leg a s = Ok (sort_by fp_date (List.map (fun p => FPayment (match pays_on a p with Ok d => d | Err _ => 0 end) (Some (fmul (wdt a p) (fs_rate a)))) accs)).
Proof.
  intros E H. unfold f_fixed_leg. rewrite E. cbn [bind]. assert (M : mapM (f_fixed_payment a) accs = Ok (List.map (fun p => FPayment (match pays_on a p with Ok d => d | Err _ => 0 end) (Some (fmul (wdt a p) (fs_rate a)))) accs)).
  { clear E. induction accs as [|p accs IH]; [reflexivity|]. cbn [mapM List.map]. rewrite IH by (intros q I; apply H; right; exact I). destruct (H p (or_introl eq_refl)) as (d & Hd). unfold f_fixed_payment. unfold pays_on in Hd. rewrite Hd. cbn [bind]. unfold pays_on. rewrite Hd. reflexivity. }
  rewrite M. reflexivity.
Qed.

Lemma quoted_swap x d a s : date_ok (sw_purchase (fs_terms a)) -> new_swap (fs_terms a) = Ok s -> exists s0, new_swap (fs_terms (quoted x d a)) = Ok s0 /\
  (forall f c, f_accrual_schedule s0 f c = f_accrual_schedule s f c) /\ (forall rate, f_floating_leg (quoted x d a) s0 rate = f_floating_leg a s rate).
Proof.
  intros O N. destruct (new_swap_inv _ s O N) as (T & HT & Ea & Es & _ & AT & _ & EL). cbn [quoted fs_terms].
  unfold new_swap, calculate_start_end_accrual_dates in N |- *. cbn [at_terms sw_purchase sw_settlement sw_cal sw_tenor]. rewrite Es in N |- *. cbn [bind] in N |- *.
  destruct (match sw_tenor (fs_terms a) with Years n => _ | Months n => _ | BadTenor => _ end) as [e|]; cbn [bind fst snd] in N |- *; [|discriminate]. injection N as <-.
  eexists. split; [reflexivity|]. split; [reflexivity|]. intros rate. reflexivity.
Qed.
Lemma accs_few s f c accs : f_accrual_schedule s f c = Ok accs -> (List.length accs <= 1001)%nat.
Proof.
  unfold f_accrual_schedule, accrual_dates. destruct (swap_step f) as [m|]; cbn [bind]; [|discriminate]. destruct (generate_dates_by_increments _ _ _ _) as [us|] eqn:E2; cbn [bind]; [|discriminate].
  destruct (mapM _ (rev us)) as [ds|] eqn:E3; cbn [bind]; [|discriminate]. intros E4. apply mapM_Forall2 in E3, E4. apply F2_length in E3, E4. rewrite rev_length in E3.
  assert (Lu : (List.length us <= 1001)%nat). { clear E3 E4. unfold generate_dates_by_increments in E2. destruct (positive_increment _ _) as [up|]; cbn [bind] in E2; [|discriminate]. change (Z.to_nat (1000 + 1)) with 1001%nat in E2. revert E2. generalize (sw_end s). generalize 1001%nat.
    intros n. revert us. induction n as [|n IH]; intros us d E; cbn [grid_loop] in E; [injection E as <-; cbn; lia|]. destruct (if up then _ else _); [|injection E as <-; cbn; lia]. destruct (add_increment d _) as [d'|]; cbn [bind] in E; [|discriminate]. destruct (grid_loop n up d' _ _) as [r|] eqn:G; cbn [bind] in E; [|discriminate]. injection E as <-. cbn. apply IH in G. lia. }
  assert (Lp : forall l : list date, (List.length (pairwise l) <= List.length l)%nat) by (induction l as [|x l IH]; [cbn; lia|destruct l; cbn in *; lia]). specialize (Lp ds). lia.
Qed.

Lemma within_sized j x y e : sized j x -> (0 <= e <= 1 / 2)%R -> (Rabs (y - x) <= e * Rabs x)%R -> sized (j + 1) y.
Proof.
  intros Sx Ee H. destruct Sx as [-> | [A B]].
  - left. rewrite Rabs_R0, Rmult_0_r, Rminus_0_r in H. apply Rabs_eq_R0. pose proof (Rabs_pos y). lra.
  - right. assert (P : (0 <= Rabs x)%R) by apply Rabs_pos. assert (Lo : (1 / 2 * Rabs x <= Rabs y)%R). { pose proof (Rabs_triang_inv x (x - y)) as T. replace (x - (x - y))%R with y in T by ring. rewrite Rabs_minus_sym in H. assert (e * Rabs x <= 1 / 2 * Rabs x)%R by (apply Rmult_le_compat_r; lra). lra. }
    assert (Hi : (Rabs y <= 2 * Rabs x)%R). { replace y with ((y - x) + x)%R by ring. apply Rle_trans with (1 := Rabs_triang _ _). assert (e * Rabs x <= 1 / 2 * Rabs x)%R by (apply Rmult_le_compat_r; lra). lra. }
    rewrite Z.opp_add_distr, !bpow_plus. change (bpow radix2 (- (1))) with (/ 2)%R. change (bpow radix2 1) with 2%R. split; lra.
Qed.
Lemma rmul x y a b j : j <= 900 -> val x a -> val y b -> sized j (a * b) -> exists c, val (fmul x y) c /\ (Rabs (c - a * b) <= u * Rabs (a * b))%R /\ sized (j + 1) c.
Proof.
  intros J X Y Sz. assert (Bg : (Rabs (a * b) <= big)%R) by (destruct Sz as [-> | [_ B]]; [rewrite Rabs_R0; apply bpow_ge_0|apply Rle_trans with (1 := B); apply bpow_le; lia]).
  assert (E : (Rabs (rn (a * b) - a * b) <= u * Rabs (a * b))%R) by (apply rn_err; destruct Sz as [Z0 | [A _]]; [left; exact Z0|right; apply Rle_trans with (2 := A); apply bpow_le; lia]).
  exists (rn (a * b)). split; [apply fmul_val; assumption|]. split; [exact E|]. apply within_sized with (1 := Sz) (3 := E). pose proof P_FloatSwap.u_tiny. lra.
Qed.
Lemma pos_sized j x : (bpow radix2 (- j) <= x <= bpow radix2 j)%R -> sized j x.
Proof. intros [A B]. pose proof (bpow_gt_0 radix2 (- j)). right. rewrite Rabs_pos_eq by lra. split; assumption. Qed.

Section Market.
Context (a : f_swap_args) (s : swap) (dc : f_discount) (accs : list f_accrual) (an : f64).
Hypothesis (Mk : fair_market a s dc) (Ns : new_swap (fs_terms a) = Ok s) (Ac : f_accrual_schedule s (sw_fixed_freq (fs_terms a)) (sw_fixed_dcc (fs_terms a)) = Ok accs) (An : f_annuity a dc accs (of_int 0) = Ok an).
Let N := B2R (fs_notional a).
Let D p := B2R (discount_of dc a p).
Let v p := B2R (fa_factor p).

Lemma period p : In p accs -> (exists d, pays_on a p = Ok d /\ fd_ref dc <= d /\ fd_call dc d = Ok (discount_of dc a p)) /\ val (discount_of dc a p) (D p) /\ (bpow radix2 (-100) <= D p <= bpow radix2 100)%R /\
  val (fa_factor p) (v p) /\ sized 51 (v p) /\ (0 <= v p)%R.
Proof.
  intros I. destruct Mk as (_ & _ & O & H). destruct (annuity_fold a dc accs _ _ An) as [F _]. destruct (F p I) as (d & df & Hd & Hf & He). destruct (H accs p d df Ac I) as [Pv Hp]. destruct (Hp Hd) as [Rf Bd]. destruct (Bd Hf) as [Ff Bf].
  split; [exists d; rewrite He; auto|]. unfold D. rewrite He. split; [split; auto|]. split; [exact Bf|].
  pose proof (schedule_match (fs_terms a) s (sw_fixed_freq (fs_terms a)) (sw_fixed_dcc (fs_terms a)) O Ns) as M. rewrite Ac in M. destruct (accrual_schedule s _ _) as [es|]; [|discriminate]. destruct M as (fs & [= <-] & F2).
  assert (Ex : exists q, sched_close q p). { clear - F2 I. induction F2 as [|x y l l' Hxy F2 IH]; [contradiction|]. destruct I as [<- |I]; [eauto|auto]. }
  destruct Ex as (q & _ & _ & w & Vw & Nw & Sw). unfold v. rewrite (proj2 Vw). split; [exact Vw|]. pose proof P_FloatSwap.u_tiny as U. split; [|rewrite <- (proj2 Vw); exact Pv]. apply within_sized with (1 := Sw) (3 := near_abs _ _ _ Nw). lra.
Qed.
Lemma width p : In p accs -> exists w, val (wdt a p) w /\ (Rabs (w - v p * N) <= u * Rabs (v p * N))%R /\ sized 152 w.
Proof.
  intros I. destruct (period p I) as (_ & _ & _ & Vv & Sv & _). destruct Mk as (Fn & Sn & _). apply (rmul _ _ _ _ 151 ltac:(lia) Vv (conj Fn eq_refl) (sized_mul 51 100 _ _ Sv Sn)).
Qed.
Lemma weight_eq p : weight dc a p = (N * (D p * v p))%R. Proof. unfold weight, N, D, v. ring. Qed.
Lemma annuity_sign : sum_abs (List.map (weight dc a) accs) = Rabs (exact_annuity dc a accs).
Proof.
  unfold exact_annuity. rewrite !(map_ext (weight dc a) (fun p => N * (D p * v p))%R weight_eq). apply one_sign. intros p I. destruct (period p I) as (_ & _ & B & _ & _ & P). pose proof (bpow_gt_0 radix2 (-100)). apply Rmult_le_pos; lra.
Qed.
(** discounted widths *)
Let W p := (D p * B2R (wdt a p))%R.
Lemma widths : (Rabs (sumR (List.map W accs) - exact_annuity dc a accs) <= u * Rabs (exact_annuity dc a accs))%R /\ (sum_abs (List.map W accs) <= (1 + u) * Rabs (exact_annuity dc a accs))%R.
Proof.
  rewrite <- annuity_sign. apply sum_perturb; [apply Rlt_le, u_small|]. intros p I. destruct (width p I) as (w & Vw & Ew & _). unfold W. rewrite (proj2 Vw). unfold weight. fold (D p) (v p) N.
  replace (D p * w - D p * (v p * N))%R with (D p * (w - v p * N))%R by ring. rewrite !Rabs_mult. apply Rle_trans with (Rabs (D p) * (u * Rabs (v p * N)))%R; [apply Rmult_le_compat_l; [apply Rabs_pos|exact Ew]|rewrite Rabs_mult; lra].
Qed.
Lemma W_sized p : In p accs -> sized 252 (W p).
Proof. intros I. destruct (width p I) as (w & Vw & _ & Sw). unfold W. rewrite (proj2 Vw). apply (sized_mul 100 152); [apply pos_sized; apply (period p I)|exact Sw]. Qed.
Lemma n_small : (INR (List.length accs) <= 1001)%R.
Proof. rewrite INR_IZR_INZ. apply IZR_le. pose proof (accs_few _ _ _ _ Ac). lia. Qed.
Let n := INR (List.length accs).

Lemma annuity_near : exists z, val an z /\ (Rabs (z - exact_annuity dc a accs) <= (5 * n + 3) * u * Rabs (exact_annuity dc a accs))%R.
Proof.
  destruct (annuity_fold a dc accs _ _ An) as [_ Ean]. rewrite Ean. pose proof P_FloatCashflow.u_tiny as U. destruct widths as [W1 W2]. pose proof n_small as Nb. fold n in Nb. assert (Pn : (0 <= n)%R) by apply pos_INR. set (A := exact_annuity dc a accs) in *.
  destruct (scaled (fun p => fmul (discount_of dc a p) (wdt a p)) W accs) as (vs & T & S1 & S2 & S3).
  { intros p I. destruct (width p I) as (w & Vw & _ & _). destruct (period p I) as (_ & Vd & _). pose proof (W_sized p I) as Sz. unfold W in Sz |- *. rewrite (proj2 Vw) in Sz |- *. destruct (rmul _ _ _ _ 252 ltac:(lia) Vd Vw Sz) as (c & Vc & Ec & _). exists c. split; [exact Vc|]. split; [exact Ec|].
    destruct Sz as [-> | [_ B]]; [rewrite Rabs_R0; apply bpow_ge_0|apply Rle_trans with (1 := B); apply bpow_le; lia]. }
  pose proof (few_big (Z.of_nat (List.length accs)) ltac:(pose proof (accs_few _ _ _ _ Ac); lia) ltac:(lia)) as FB. rewrite <- INR_IZR_INZ in FB. fold n in FB, S3.
  assert (Lm : List.length (List.map (fun p => fmul (discount_of dc a p) (wdt a p)) accs) = List.length accs) by apply map_length.
  destruct (sum_close _ vs 0 0 0 (of_int 0) T ltac:(lia)) as (z & Vz & Ez); [rewrite Lm; pose proof (accs_few _ _ _ _ Ac); lia|rewrite Rabs_R0; lra|lra|exists 0%R; split; [apply (of_int_val 0); lia|rewrite Rminus_0_r, Rabs_R0; lra]|].
  rewrite Lm, Z.add_0_l, <- INR_IZR_INZ, !Rplus_0_l in Ez. fold n in Ez. exists z. split; [exact Vz|].
  assert (PA : (0 <= Rabs A)%R) by apply Rabs_pos. set (S0 := sum_abs (List.map W accs)) in *. assert (PS : (0 <= S0)%R) by apply sum_abs_pos.
  assert (S0A : (S0 <= 1001 / 1000 * Rabs A)%R) by (apply Rle_trans with (1 := W2); apply Rmult_le_compat_r; lra).
  assert (nu : (0 <= n * u)%R) by (apply Rmult_le_pos; lra).
  assert (E1 : (2 * n * u * sum_abs vs <= 2 * (n * u) * (2 * (1001 / 1000 * Rabs A)))%R) by (replace (2 * n * u * sum_abs vs)%R with (2 * (n * u) * sum_abs vs)%R by ring; apply Rmult_le_compat_l; lra).
  assert (E2 : (u * S0 <= u * (1001 / 1000 * Rabs A))%R) by (apply Rmult_le_compat_l; lra).
  assert (P1 : (0 <= n * u * Rabs A)%R) by (apply Rmult_le_pos; lra). assert (P2 : (0 <= u * Rabs A)%R) by (apply Rmult_le_pos; lra).
  replace (z - A)%R with ((z - sumR vs) + ((sumR vs - sumR (List.map W accs)) + (sumR (List.map W accs) - A)))%R by ring.
  apply Rle_trans with (1 := Rabs_triang _ _). apply Rle_trans with (Rabs (z - sumR vs) + (Rabs (sumR vs - sumR (List.map W accs)) + Rabs (sumR (List.map W accs) - A)))%R; [apply Rplus_le_compat_l; apply Rabs_triang|].
  replace ((5 * n + 3) * u * Rabs A)%R with (5 * (n * u * Rabs A) + 3 * (u * Rabs A))%R by ring. lra.
Qed.

Lemma sum_scale {B} (x : R) (f : B -> R) l : sumR (List.map (fun p => x * f p)%R l) = (x * sumR (List.map f l))%R /\ sum_abs (List.map (fun p => x * f p)%R l) = (Rabs x * sum_abs (List.map f l))%R.
Proof.
  unfold sum_abs, sumR. induction l as [|b l [I1 I2]]; cbn; [split; ring|]. rewrite I1, I2, Rabs_mult. split; ring.
Qed.
Let date_of p := match pays_on a p with Ok d => d | Err _ => 0 end.
Lemma received_all (g : f_accrual -> f64) l : (forall p, In p l -> In p accs) ->
  received (fd_ref dc) (List.map (fun p => FPayment (date_of p) (Some (g p))) l) = List.map (fun p => (date_of p, g p)) l.
Proof.
  induction l as [|p l IH]; intros H; [reflexivity|]. cbn [List.map received flat_map fp_amount fp_date]. destruct (period p (H p (or_introl eq_refl))) as ((d & Hd & Rd & _) & _). replace (fd_ref dc <=? date_of p) with true by (symmetry; apply Z.leb_le; unfold date_of; rewrite Hd; exact Rd).
  cbn [app]. f_equal. apply IH. intros q I. apply H. right. exact I.
Qed.
Lemma fixed_value total x : either_sum total -> is_finite x = true -> sized 500 (B2R x) ->
  exists pv z, f_cf_present_value total (sort_by fp_date (List.map (fun p => FPayment (date_of p) (Some (fmul (wdt a p) x))) accs)) dc = Ok pv /\ val pv z /\
    (Rabs (z - B2R x * exact_annuity dc a accs) <= 70 * (n + 1) * u * Rabs (B2R x * exact_annuity dc a accs))%R /\ (Rabs z <= 3 * M)%R.
Proof.
  intros ES Fx Sx. set (leg := List.map _ accs). set (amt := fun p => fmul (wdt a p) x). pose proof n_small as Nb. assert (Pn : (0 <= n)%R) by apply pos_INR. fold n in Nb.
  assert (Pm : Permutation (received (fd_ref dc) (sort_by fp_date leg)) (List.map (fun p => (date_of p, amt p)) accs)).
  { rewrite <- (received_all amt accs) by auto. apply Permutation_flat_map. apply sort_by_perm. }
  set (L := received _ _) in *. assert (Wo : forall p, In p accs -> worth dc (date_of p, amt p) = (D p * B2R (amt p))%R).
  { intros p I. destruct (period p I) as ((d & Hd & _ & Hf) & _). unfold worth, date_of. cbn [fst snd]. rewrite Hd, Hf. reflexivity. }
  assert (Am : forall p, In p accs -> exists z, val (amt p) z /\ (Rabs (D p * z - B2R x * W p) <= u * Rabs (B2R x * W p))%R /\ sized 753 (D p * z)).
  { intros p I. destruct (width p I) as (w & Vw & _ & Sw). destruct (rmul _ x _ (B2R x) 652 ltac:(lia) Vw (conj Fx eq_refl) (sized_mul 152 500 _ _ Sw Sx)) as (z & Vz & Ez & Sz). exists z. split; [exact Vz|]. split; [|apply (sized_mul 100 653); [apply pos_sized; apply (period p I)|exact Sz]].
    unfold W. rewrite (proj2 Vw). replace (D p * z - B2R x * (D p * w))%R with (D p * (z - w * B2R x))%R by ring. replace (B2R x * (D p * w))%R with (D p * (w * B2R x))%R by ring. rewrite !(Rabs_mult (D p)). apply Rle_trans with (Rabs (D p) * (u * Rabs (w * B2R x)))%R; [apply Rmult_le_compat_l; [apply Rabs_pos|exact Ez]|lra]. }
  assert (In_ : forall q, In q L -> exists p, In p accs /\ q = (date_of p, amt p)). { intros q I. apply (Permutation_in q Pm) in I. apply in_map_iff in I. destruct I as (p & <- & I). eauto. }
  assert (Len : List.length L = List.length accs) by (rewrite (Permutation_length Pm); apply map_length).
  unfold f_cf_present_value. rewrite (pv_terms_ok dc (sort_by fp_date leg)). 2:{ intros q I. destruct (In_ q I) as (p & Ip & ->). destruct (period p Ip) as ((d & Hd & _ & Hf) & _). cbn [fst]. unfold date_of. rewrite Hd. eauto. }
  cbn [bind]. fold L. destruct (scaled_total total (fun p => fmul (ok_or (fd_call dc (fst p))) (snd p)) (worth dc) L ES ltac:(rewrite Len; pose proof (accs_few _ _ _ _ Ac); lia)) as (z & Vz & Ez & Bz & _).
  { intros q I. destruct (In_ q I) as (p & Ip & ->). rewrite (Wo p Ip). destruct (period p Ip) as ((d & Hd & _ & Hf) & Vd & _). cbn [fst snd]. replace (ok_or (fd_call dc (date_of p))) with (discount_of dc a p) by (unfold date_of; rewrite Hd, Hf; reflexivity).
    destruct (Am p Ip) as (y & Vy & _ & Sy). rewrite (proj2 Vy). destruct (rmul _ _ _ _ 753 ltac:(lia) Vd Vy Sy) as (c & Vc & Ec & _). exists c. split; [exact Vc|]. split; [exact Ec|]. destruct Sy as [-> | [_ B]]; [rewrite Rabs_R0; apply bpow_ge_0|apply Rle_trans with (1 := B); apply bpow_le; lia]. }
  exists (total (List.map (fun p => fmul (ok_or (fd_call dc (fst p))) (snd p)) L)), z. split; [reflexivity|]. split; [exact Vz|]. split; [|exact Bz]. rewrite Len in Ez. fold n in Ez.
  assert (ML : forall g : R -> R, Permutation (List.map g (List.map (worth dc) L)) (List.map (fun p => g (D p * B2R (amt p))%R) accs)).
  { intros g. rewrite map_map. apply Permutation_trans with (List.map (fun q => g (worth dc q)) (List.map (fun p => (date_of p, amt p)) accs)); [apply Permutation_map; exact Pm|]. rewrite map_map. erewrite map_ext_in; [apply Permutation_refl|]. intros p I. cbv beta. rewrite (Wo p I). reflexivity. }
  assert (Su : sumR (List.map (worth dc) L) = sumR (List.map (fun p => D p * B2R (amt p))%R accs)) by (rewrite <- (map_id (List.map (worth dc) L)); apply sumR_perm, (ML (fun r => r))).
  assert (Sa : sum_abs (List.map (worth dc) L) = sum_abs (List.map (fun p => D p * B2R (amt p))%R accs)) by (unfold sum_abs; rewrite (map_map _ Rabs accs); apply sumR_perm, (ML Rabs)).
  rewrite Su, Sa in Ez. pose proof P_FloatCashflow.u_tiny as U. destruct (sum_perturb (fun p => D p * B2R (amt p))%R (fun p => B2R x * W p)%R u accs) as [Q1 Q2]; [lra|intros p I; destruct (Am p I) as (y & Vy & Ey & _); rewrite (proj2 Vy); exact Ey|].
  destruct (sum_scale (B2R x) W accs) as [Z1 Z2]. rewrite Z1 in Q1. rewrite Z2 in Q1, Q2. destruct widths as [W1 W2]. set (A := exact_annuity dc a accs) in *. set (S0 := sum_abs (List.map W accs)) in *. set (Y1 := sumR (List.map (fun p => D p * B2R (amt p))%R accs)) in *. set (Y2 := sum_abs (List.map (fun p => D p * B2R (amt p))%R accs)) in *. set (S1 := sumR (List.map W accs)) in *.
  rewrite Rabs_mult. set (X := Rabs (B2R x)) in *. assert (PX : (0 <= X)%R) by apply Rabs_pos. assert (PA : (0 <= Rabs A)%R) by apply Rabs_pos. assert (PXA : (0 <= X * Rabs A)%R) by (apply Rmult_le_pos; assumption).
  assert (XS : (X * S0 <= 1001 / 1000 * (X * Rabs A))%R). { apply Rle_trans with (X * (1001 / 1000 * Rabs A))%R; [apply Rmult_le_compat_l; [exact PX|]|lra]. apply Rle_trans with (1 := W2). apply Rmult_le_compat_r; lra. }
  assert (PXS : (0 <= X * S0)%R) by (apply Rmult_le_pos; [exact PX|apply sum_abs_pos]).
  assert (Y2b : (Y2 <= 1003 / 1000 * (X * Rabs A))%R). { apply Rle_trans with (1 := Q2). apply Rle_trans with (1001 / 1000 * (X * S0))%R; [apply Rmult_le_compat_r; lra|lra]. }
  assert (D1 : (Rabs (B2R x * S1 - B2R x * A) <= u * (X * Rabs A))%R). { replace (B2R x * S1 - B2R x * A)%R with (B2R x * (S1 - A))%R by ring. rewrite Rabs_mult. fold X. apply Rle_trans with (X * (u * Rabs A))%R; [apply Rmult_le_compat_l; [exact PX|exact W1]|lra]. }
  assert (D2 : (u * (X * S0) <= u * (1001 / 1000 * (X * Rabs A)))%R) by (apply Rmult_le_compat_l; lra).
  assert (U47 : (/ 2 ^ 47 = 64 * u)%R) by (unfold u; change (bpow radix2 (-53)) with (/ 9007199254740992)%R; lra). unfold Rdiv in Ez. rewrite U47 in Ez.
  assert (D3 : ((n + 1) * (64 * u) * Y2 <= (n + 1) * (64 * u) * (1003 / 1000 * (X * Rabs A)))%R) by (apply Rmult_le_compat_l; [apply Rmult_le_pos; lra|exact Y2b]).
  assert (T1 : (0 <= n * u * (X * Rabs A))%R) by (apply Rmult_le_pos; [apply Rmult_le_pos; lra|exact PXA]). assert (T2 : (0 <= u * (X * Rabs A))%R) by (apply Rmult_le_pos; lra).
  replace (z - B2R x * A)%R with ((z - Y1) + ((Y1 - B2R x * S1) + (B2R x * S1 - B2R x * A)))%R by ring. apply Rle_trans with (1 := Rabs_triang _ _).
  apply Rle_trans with (Rabs (z - Y1) + (Rabs (Y1 - B2R x * S1) + Rabs (B2R x * S1 - B2R x * A)))%R; [apply Rplus_le_compat_l; apply Rabs_triang|].
  replace (70 * (n + 1) * u * (X * Rabs A))%R with (70 * (n * u * (X * Rabs A)) + 70 * (u * (X * Rabs A)))%R by ring.
  replace ((n + 1) * (64 * u) * (1003 / 1000 * (X * Rabs A)))%R with (64192 / 1000 * (n * u * (X * Rabs A)) + 64192 / 1000 * (u * (X * Rabs A)))%R in D3 by field. lra.
Qed.
End Market.

Lemma sum_abs_sized {B} (f : B -> R) j l : (forall p, In p l -> sized j (f p)) -> (List.length l <= 1001)%nat -> sum_abs (List.map f l) = 0%R \/ (bpow radix2 (- j) <= sum_abs (List.map f l) <= bpow radix2 (j + 10))%R.
Proof.
  intros H L. assert (G : (sum_abs (List.map f l) = 0 \/ bpow radix2 (- j) <= sum_abs (List.map f l))%R /\ (sum_abs (List.map f l) <= INR (List.length l) * bpow radix2 j)%R).
  { clear L. induction l as [|p l IH]; [split; [left; reflexivity|unfold sum_abs, sumR; cbn; lra]|]. destruct IH as [I1 I2]; [intros q I; apply H; right; exact I|]. cbn [List.map List.length]. change (sum_abs (f p :: List.map f l)) with (Rabs (f p) + sum_abs (List.map f l))%R. rewrite S_INR.
    pose proof (sum_abs_pos (List.map f l)) as P0. pose proof (bpow_gt_0 radix2 j) as Pj. destruct (H p (or_introl eq_refl)) as [-> | [A0 B0]]; [rewrite Rabs_R0, Rplus_0_l; split; [exact I1|lra]|]. split; [right; lra|lra]. }
  destruct G as [[G|G] G']; [left; exact G|right]. split; [exact G|]. apply Rle_trans with (1 := G'). rewrite Z.add_comm, bpow_plus. apply Rmult_le_compat_r; [apply bpow_ge_0|]. change (bpow radix2 10) with 1024%R. rewrite INR_IZR_INZ. apply IZR_le. lia.
Qed.

(** C110: the implied rate r times the annuity A is the floating leg's value P up to rounding, and the swap quoted at any rate x is worth
    x A - P to the receiver of the fixed rate, its opposite to the payer, up to rounding. *)
Theorem C110_value : forall total a s dc rate r P, either_sum total -> fair_market a s dc -> new_swap (fs_terms a) = Ok s -> float_leg_ok total a s dc rate P -> f_implied_rate total a s dc rate = Ok r ->
  exists accs, f_accrual_schedule s (sw_fixed_freq (fs_terms a)) (sw_fixed_dcc (fs_terms a)) = Ok accs /\
    let A := exact_annuity dc a accs in let m := (INR (List.length accs) + 1)%R in
    A <> 0%R /\ is_finite r = true /\ sized 500 (B2R r) /\ (Rabs (B2R r * A - B2R P) <= m / 2 ^ 50 * Rabs (B2R P))%R /\
    forall x d, is_finite x = true -> sized 500 (B2R x) ->
      exists v, swap_value total (quoted x d a) rate dc = Ok v /\ is_finite v = true /\ (Rabs (B2R v - sign d * (B2R x * A - B2R P)) <= m / 2 ^ 46 * (Rabs (B2R x * A) + Rabs (B2R P)))%R.
Proof.
  intros total a s dc rate r P ES Mk Ns (EP & FP & SP) E. unfold f_implied_rate in E. destruct (f_floating_leg a s rate) as [fl|] eqn:Fl; cbn [bind] in E, EP; [|discriminate]. rewrite EP in E. cbn [bind] in E.
  destruct (f_accrual_schedule s _ _) as [accs|] eqn:Ac; cbn [bind] in E; [|discriminate]. destruct (f_annuity a dc accs (of_int 0)) as [an|] eqn:An; cbn [bind] in E; [|discriminate]. exists accs. split; [reflexivity|]. cbv zeta.
  destruct (annuity_near a s dc accs an Mk Ns Ac An) as (z & Vz & Ez). pose proof (accs_few _ _ _ _ Ac) as Lf. set (n := INR (List.length accs)) in *. assert (Nb : (0 <= n <= 1001)%R) by (split; [apply pos_INR|unfold n; rewrite INR_IZR_INZ; apply IZR_le; lia]).
  pose proof (annuity_sign a s dc accs an Mk Ns Ac An) as As. set (A := exact_annuity dc a accs) in *. pose proof P_FloatCashflow.u_tiny as U.
  assert (eps : (0 <= (5 * n + 3) * u <= 1 / 100000)%R). { split; [apply Rmult_le_pos; lra|]. apply Rle_trans with (5008 * u)%R; [apply Rmult_le_compat_r; lra|lra]. }
  assert (Nz : z <> 0%R). { intros Z0. rewrite Z0 in Vz. rewrite (fdiv_zero P an Vz) in E. discriminate. }
  assert (PA : (0 <= Rabs A)%R) by apply Rabs_pos. assert (NA : A <> 0%R). { intros A0. rewrite A0, Rabs_R0, Rmult_0_r, Rminus_0_r in Ez. apply Nz. apply Rabs_eq_R0. pose proof (Rabs_pos z). lra. }
  assert (SA : sized 261 A). { right. rewrite <- As. destruct (sum_abs_sized (weight dc a) 251 accs) as [Z0|[B1 B2]]; [|exact Lf|rewrite As in Z0; apply Rabs_eq_R0 in Z0; contradiction|split; [apply Rle_trans with (2 := B1); apply bpow_le; lia|exact B2]].
    intros p I. destruct (period a s dc accs an Mk Ns Ac An p I) as (_ & _ & Bd & _ & Sv & _). destruct Mk as (_ & Sn & _). apply (sized_mul 100 151); [apply pos_sized; exact Bd|apply (sized_mul 51 100); assumption]. }
  assert (Sz : sized 262 z) by (apply (within_sized 261 A z ((5 * n + 3) * u)); [exact SA|lra|exact Ez]).
  assert (Sq : sized 462 (B2R P / z)) by (apply (sized_div 200 262); assumption).
  assert (Bq : (Rabs (B2R P / z) <= big)%R) by (destruct Sq as [-> | [_ B]]; [rewrite Rabs_R0; apply bpow_ge_0|apply Rle_trans with (1 := B); apply bpow_le; lia]).
  destruct (fdiv_val P an _ _ (conj FP eq_refl) Vz Nz Bq) as (r' & Er & Vr). assert (r' = r) by congruence. subst r'. set (q := (B2R P / z)%R) in *.
  assert (Eq : (Rabs (rn q - q) <= u * Rabs q)%R) by (apply rn_err; destruct Sq as [Z0 | [B _]]; [left; exact Z0|right; apply Rle_trans with (2 := B); apply bpow_le; lia]).
  split; [exact NA|]. split; [apply Vr|]. rewrite (proj2 Vr). assert (Sr : sized 463 (rn q)) by (apply (within_sized 462 q (rn q) u); [exact Sq|lra|exact Eq]).
  split. { destruct Sr as [-> | [B1 B2]]; [left; reflexivity|right; split; [apply Rle_trans with (2 := B1); apply bpow_le; lia|apply Rle_trans with (1 := B2); apply bpow_le; lia]]. }
  assert (U50 : (/ 2 ^ 50 = 8 * u)%R) by (unfold u; change (bpow radix2 (-53)) with (/ 9007199254740992)%R; lra). assert (U46 : (/ 2 ^ 46 = 128 * u)%R) by (unfold u; change (bpow radix2 (-53)) with (/ 9007199254740992)%R; lra).
  assert (nu : (0 <= n * u)%R) by (apply Rmult_le_pos; lra). split.
  - assert (Qz : B2R P = (q * z)%R) by (unfold q; field; exact Nz). set (Q := Rabs q) in *. assert (PQ : (0 <= Q)%R) by apply Rabs_pos.
    assert (zA : (Rabs z >= 99999 / 100000 * Rabs A)%R). { pose proof (Rabs_triang_inv A (A - z)) as T. replace (A - (A - z))%R with z in T by ring. rewrite Rabs_minus_sym in Ez. assert ((5 * n + 3) * u * Rabs A <= 1 / 100000 * Rabs A)%R by (apply Rmult_le_compat_r; lra). lra. }
    rewrite Qz, (Rabs_mult q z). fold Q. replace (rn q * A - q * z)%R with ((rn q - q) * A + q * (A - z))%R by ring. apply Rle_trans with (1 := Rabs_triang _ _). rewrite !Rabs_mult. fold Q. rewrite (Rabs_minus_sym A z).
    assert (H1 : (Rabs (rn q - q) * Rabs A <= u * Q * Rabs A)%R) by (apply Rmult_le_compat_r; [exact PA|exact Eq]). assert (H2 : (Q * Rabs (z - A) <= Q * ((5 * n + 3) * u * Rabs A))%R) by (apply Rmult_le_compat_l; assumption).
    assert (QA : (0 <= Q * Rabs A)%R) by (apply Rmult_le_pos; assumption). unfold Rdiv. rewrite U50.
    assert (H3 : ((n + 1) * (8 * u) * (Q * Rabs z) >= (n + 1) * (8 * u) * (Q * (99999 / 100000 * Rabs A)))%R) by (apply Rle_ge; apply Rmult_le_compat_l; [apply Rmult_le_pos; lra|apply Rmult_le_compat_l; lra]).
    assert (T1 : (0 <= n * u * (Q * Rabs A))%R) by (apply Rmult_le_pos; assumption). assert (T2 : (0 <= u * (Q * Rabs A))%R) by (apply Rmult_le_pos; lra).
    replace ((n + 1) * (8 * u) * (Q * (99999 / 100000 * Rabs A)))%R with (8 * 99999 / 100000 * (n * u * (Q * Rabs A)) + 8 * 99999 / 100000 * (u * (Q * Rabs A)))%R in H3 by field. lra.
  - intros x d Fx Sx. destruct (fixed_value a s dc accs an Mk Ns Ac An total x ES Fx Sx) as (pv & y & Ep & Vy & Ey & By). fold n in Ey. fold A in Ey.
    destruct Mk as (Fn & Sn & O & Hm). destruct (quoted_swap x d a s O Ns) as (s0 & N0 & F0 & L0). unfold swap_value. rewrite N0. cbn [bind].
    assert (Lg : f_fixed_leg (quoted x d a) s0 = Ok (sort_by fp_date (List.map (fun p => FPayment (match pays_on a p with Ok d => d | Err _ => 0 end) (Some (fmul (wdt a p) x))) accs))).
    { rewrite (fixed_leg_list (quoted x d a) s0 accs); [reflexivity|rewrite F0; exact Ac|]. intros p I. destruct (annuity_fold a dc accs _ _ An) as [F _]. destruct (F p I) as (d0 & _ & Hd & _). exists d0. exact Hd. }
    rewrite Lg. cbn [bind]. rewrite L0, Fl. cbn [bind]. unfold f_sw_present_value. rewrite EP. cbn [bind]. rewrite Ep. cbn [bind quoted fs_terms at_terms sw_dir].
    pose proof M_big as MB. assert (PP : (0 <= Rabs (B2R P))%R) by apply Rabs_pos. assert (PM : (Rabs (B2R P) <= M)%R). { destruct SP as [-> | [_ B]]; [rewrite Rabs_R0; apply bpow_ge_0|apply Rle_trans with (1 := B); apply bpow_le; lia]. }
    assert (M0 : (0 <= M)%R) by apply bpow_ge_0. set (xa := (B2R x * A)%R) in *. set (X := Rabs xa) in *. assert (PX : (0 <= X)%R) by apply Rabs_pos.
    assert (k1 : (0 <= 70 * (n + 1) * u <= 1 / 1000)%R) by (split; [apply Rmult_le_pos; lra|]; apply Rle_trans with (70140 * u)%R; [apply Rmult_le_compat_r; lra|lra]).
    assert (Yb : (Rabs y <= 1001 / 1000 * X)%R). { replace y with ((y - xa) + xa)%R by ring. apply Rle_trans with (1 := Rabs_triang _ _). fold X. assert (70 * (n + 1) * u * X <= 1 / 1000 * X)%R by (apply Rmult_le_compat_r; lra). lra. }
    assert (Gen : forall f g w w', val f w -> val g w' -> (Rabs (w - w') <= big)%R -> exists c, val (fsub f g) c /\ (Rabs (c - (w - w')) <= u * (Rabs w + Rabs w'))%R).
    { intros f g w w' Vf Vg Bd. destruct (sub_ok f g w w' Vf Vg Bd) as (c & Vc & Ec). exists c. split; [exact Vc|]. apply Rle_trans with (1 := Ec). apply Rmult_le_compat_l; [lra|]. apply Rle_trans with (1 := Rabs_triang _ _). rewrite Rabs_Ropp. lra. }
    assert (By2 : (Rabs (y - B2R P) <= big)%R) by (apply Rle_trans with (1 := Rabs_triang _ _); rewrite Rabs_Ropp; lra).
    assert (T1 : (0 <= n * u * X)%R) by (apply Rmult_le_pos; assumption). assert (T2 : (0 <= u * X)%R) by (apply Rmult_le_pos; lra). assert (T3 : (0 <= n * u * Rabs (B2R P))%R) by (apply Rmult_le_pos; assumption). assert (T4 : (0 <= u * Rabs (B2R P))%R) by (apply Rmult_le_pos; lra).
    assert (Fin : forall c, (Rabs (c - (y - B2R P)) <= u * (Rabs y + Rabs (B2R P)))%R -> (Rabs (c - (xa - B2R P)) <= (n + 1) / 2 ^ 46 * (X + Rabs (B2R P)))%R).
    { intros c Ec. replace (c - (xa - B2R P))%R with ((c - (y - B2R P)) + (y - xa))%R by ring. apply Rle_trans with (1 := Rabs_triang _ _). unfold Rdiv. rewrite U46. assert (u * Rabs y <= u * (1001 / 1000 * X))%R by (apply Rmult_le_compat_l; lra).
      replace ((n + 1) * (128 * u) * (X + Rabs (B2R P)))%R with (128 * (n * u * X) + 128 * (u * X) + 128 * (n * u * Rabs (B2R P)) + 128 * (u * Rabs (B2R P)))%R by ring. replace (70 * (n + 1) * u * X)%R with (70 * (n * u * X) + 70 * (u * X))%R in Ey by ring. lra. }
    destruct d; unfold sign.
    + assert (By3 : (Rabs (B2R P - y) <= big)%R) by (rewrite Rabs_minus_sym; exact By2). destruct (Gen P pv (B2R P) y (conj FP eq_refl) Vy By3) as (c & Vc & Ec). eexists. split; [reflexivity|]. split; [apply Vc|]. rewrite (proj2 Vc).
      replace (c - -1 * (xa - B2R P))%R with (- (- c - (xa - B2R P)))%R by ring. rewrite Rabs_Ropp. apply Fin. replace (- c - (y - B2R P))%R with (- (c - (B2R P - y)))%R by ring. rewrite Rabs_Ropp. lra.
    + destruct (Gen pv P y (B2R P) Vy (conj FP eq_refl) By2) as (c & Vc & Ec). eexists. split; [reflexivity|]. split; [apply Vc|]. rewrite (proj2 Vc), Rmult_1_l. apply Fin. exact Ec.
Qed.
Print Assumptions C110_value.

Lemma abs_sign d : Rabs (sign d) = 1%R. Proof. destruct d; unfold sign, Rabs; destruct (Rcase_abs _); lra. Qed.
(** C110: at its implied rate the swap is worth 0 up to rounding *)
Theorem C110_fair : forall total a s dc rate r P d, either_sum total -> fair_market a s dc -> new_swap (fs_terms a) = Ok s -> float_leg_ok total a s dc rate P -> f_implied_rate total a s dc rate = Ok r ->
  exists accs v, f_accrual_schedule s (sw_fixed_freq (fs_terms a)) (sw_fixed_dcc (fs_terms a)) = Ok accs /\ swap_value total (quoted r d a) rate dc = Ok v /\ is_finite v = true /\
    (Rabs (B2R v) <= (INR (List.length accs) + 1) / 2 ^ 44 * Rabs (B2R P))%R.
Proof.
  intros total a s dc rate r P d ES Mk Ns Fl E. destruct (C110_value total a s dc rate r P ES Mk Ns Fl E) as (accs & Ac & NA & Fr & Sr & Er & H). destruct (H r d Fr Sr) as (v & Ev & Fv & B). exists accs, v. split; [exact Ac|]. split; [exact Ev|]. split; [exact Fv|].
  pose proof (accs_few _ _ _ _ Ac) as Lf. set (n := INR (List.length accs)) in *. assert (Nb : (0 <= n <= 1001)%R) by (split; [apply pos_INR|unfold n; rewrite INR_IZR_INZ; apply IZR_le; lia]).
  set (A := exact_annuity dc a accs) in *. set (p := B2R P) in *. set (w := (B2R r * A)%R) in *. pose proof P_FloatCashflow.u_tiny as U. assert (PP : (0 <= Rabs p)%R) by apply Rabs_pos.
  assert (k1 : (0 <= (n + 1) / 2 ^ 50 <= 1 / 1000)%R) by lra. assert (Wb : (Rabs w <= 1001 / 1000 * Rabs p)%R). { replace w with ((w - p) + p)%R by ring. apply Rle_trans with (1 := Rabs_triang _ _). assert ((n + 1) / 2 ^ 50 * Rabs p <= 1 / 1000 * Rabs p)%R by (apply Rmult_le_compat_r; lra). lra. }
  assert (Sg : Rabs (sign d * (w - p)) = Rabs (w - p)) by (rewrite Rabs_mult, abs_sign; ring).
  replace (B2R v) with ((B2R v - sign d * (w - p)) + sign d * (w - p))%R by ring. apply Rle_trans with (1 := Rabs_triang _ _). rewrite Sg.
  assert (H2 : ((n + 1) / 2 ^ 46 * (Rabs w + Rabs p) <= (n + 1) / 2 ^ 46 * (2001 / 1000 * Rabs p))%R) by (apply Rmult_le_compat_l; lra).
  assert (T : (0 <= n * Rabs p)%R) by (apply Rmult_le_pos; lra). assert (G : (Rabs (w - p) <= (n + 1) / 2 ^ 50 * Rabs p)%R) by exact Er. lra.
Qed.
Print Assumptions C110_fair.

(** C110: the sign of the value at a quoted rate x: a positive notional and a rate clearly above the implied one favour the receiver
    of the fixed rate, clearly below it the payer ("clearly": by more than 2^-44 of |x| + |r| per payment). *)
Theorem C110_sign : forall total a s dc rate r P x d, either_sum total -> fair_market a s dc -> new_swap (fs_terms a) = Ok s -> float_leg_ok total a s dc rate P -> f_implied_rate total a s dc rate = Ok r ->
  is_finite x = true -> sized 500 (B2R x) -> (0 < B2R (fs_notional a))%R ->
  exists accs v, f_accrual_schedule s (sw_fixed_freq (fs_terms a)) (sw_fixed_dcc (fs_terms a)) = Ok accs /\ swap_value total (quoted x d a) rate dc = Ok v /\
    let far := ((INR (List.length accs) + 1) / 2 ^ 44 * (Rabs (B2R x) + Rabs (B2R r)))%R in
    (B2R x > B2R r + far -> 0 < sign d * B2R v)%R /\ (B2R x < B2R r - far -> sign d * B2R v < 0)%R.
Proof.
  intros total a s dc rate r P x d ES Mk Ns Fl E Fx Sx Np. destruct (C110_value total a s dc rate r P ES Mk Ns Fl E) as (accs & Ac & NA & Fr & Sr & Er & H). destruct (H x d Fx Sx) as (v & Ev & Fv & B). exists accs, v. split; [exact Ac|]. split; [exact Ev|]. cbv zeta.
  pose proof (accs_few _ _ _ _ Ac) as Lf. set (n := INR (List.length accs)) in *. assert (Nb : (0 <= n <= 1001)%R) by (split; [apply pos_INR|unfold n; rewrite INR_IZR_INZ; apply IZR_le; lia]).
  assert (PA : (0 < exact_annuity dc a accs)%R).
  { assert (G : (0 <= exact_annuity dc a accs)%R); [|lra]. unfold f_implied_rate in E. destruct (f_floating_leg a s rate) as [fl|]; cbn [bind] in E; [|discriminate]. destruct (f_cf_present_value total fl dc) as [pv|]; cbn [bind] in E; [|discriminate]. rewrite Ac in E. cbn [bind] in E.
    destruct (f_annuity a dc accs (of_int 0)) as [an|] eqn:An; cbn [bind] in E; [|discriminate]. pose proof (period a s dc accs an Mk Ns Ac An) as Hp. clear - Hp Np. unfold exact_annuity. induction accs as [|p l IH]; [cbn; lra|]. cbn [List.map]. change (sumR (?x :: ?y)) with (x + sumR y)%R.
    assert (0 <= weight dc a p)%R; [|assert (0 <= sumR (List.map (weight dc a) l))%R by (apply IH; intros q I; apply Hp; right; exact I); lra]. destruct (Hp p (or_introl eq_refl)) as (_ & _ & Bd & _ & _ & Pv). pose proof (bpow_gt_0 radix2 (-100)). unfold weight. apply Rmult_le_pos; [lra|apply Rmult_le_pos; lra]. }
  set (A := exact_annuity dc a accs) in *. set (p := B2R P) in *. set (xr := B2R x) in *. set (rr := B2R r) in *. assert (k1 : (0 <= (n + 1) / 2 ^ 50 <= 1 / 1000)%R) by lra.
  rewrite (Rabs_mult xr A), (Rabs_pos_eq A) in B by lra. assert (PP : (0 <= Rabs p)%R) by apply Rabs_pos. assert (PX : (0 <= Rabs xr)%R) by apply Rabs_pos. assert (PR : (0 <= Rabs rr)%R) by apply Rabs_pos.
  assert (Pb : (Rabs p <= 1002 / 1000 * (Rabs rr * A))%R). { assert (Rabs p <= Rabs (rr * A) + 1 / 1000 * Rabs p)%R. { replace p with (rr * A - (rr * A - p))%R at 1 by ring. apply Rle_trans with (1 := Rabs_triang _ _). rewrite Rabs_Ropp. assert ((n + 1) / 2 ^ 50 * Rabs p <= 1 / 1000 * Rabs p)%R by (apply Rmult_le_compat_r; lra). lra. } rewrite Rabs_mult, (Rabs_pos_eq A) in H0 by lra. lra. }
  assert (E1 : (Rabs (rr * A - p) <= (n + 1) / 2 ^ 50 * (1002 / 1000 * (Rabs rr * A)))%R) by (apply Rle_trans with (1 := Er); apply Rmult_le_compat_l; lra).
  assert (E2 : (Rabs (B2R v - sign d * (xr * A - p)) <= (n + 1) / 2 ^ 46 * (Rabs xr * A + 1002 / 1000 * (Rabs rr * A)))%R) by (apply Rle_trans with (1 := B); apply Rmult_le_compat_l; lra).
  assert (E3 : (Rabs (sign d * B2R v - (xr * A - p)) <= (n + 1) / 2 ^ 46 * (Rabs xr * A + 1002 / 1000 * (Rabs rr * A)))%R).
  { replace (sign d * B2R v - (xr * A - p))%R with (sign d * (B2R v - sign d * (xr * A - p)))%R by (destruct d; cbn [sign]; ring). rewrite Rabs_mult. rewrite abs_sign. lra. }
  apply Rabs_le_inv in E1. apply Rabs_le_inv in E3. assert (T1 : (0 <= Rabs xr * A)%R) by (apply Rmult_le_pos; lra). assert (T2 : (0 <= Rabs rr * A)%R) by (apply Rmult_le_pos; lra). assert (T3 : (0 <= n * (Rabs xr * A))%R) by (apply Rmult_le_pos; lra). assert (T4 : (0 <= n * (Rabs rr * A))%R) by (apply Rmult_le_pos; lra).
  split; intros Far.
  - assert (F : (xr * A >= (rr + (n + 1) / 2 ^ 44 * (Rabs xr + Rabs rr)) * A)%R) by (apply Rle_ge, Rmult_le_compat_r; lra). assert (Z : (0 < (xr - rr) * A)%R). { apply Rmult_lt_0_compat; [|exact PA]. assert (0 <= (n + 1) / 2 ^ 44 * (Rabs xr + Rabs rr))%R by (apply Rmult_le_pos; lra). lra. }
    assert (G : (xr * A > (rr + (n + 1) / 2 ^ 44 * (Rabs xr + Rabs rr)) * A)%R) by (apply Rmult_gt_compat_r; lra).
    lra.
  - assert (G : (xr * A < (rr - (n + 1) / 2 ^ 44 * (Rabs xr + Rabs rr)) * A)%R) by (apply Rmult_lt_compat_r; lra).
    lra.
Qed.
Print Assumptions C110_sign.

(** On the US calendar accruals are not negative: the first condition of [fair_market] always holds. *)
Lemma acc_nonneg c s e q : date_ok s -> date_ok e -> s + 2 < e -> acc c s e = Ok q -> (0 <= q)%Q.
Proof.
  intros Os Oe L E. assert (Act : forall K, In (c, K) actual_over -> (0 < K)%Q -> (0 <= q)%Q).
  { intros K I Pk. destruct (C01_actual_exact c K s e I ltac:(lia)) as (q' & E' & V). assert (q' = q) by (unfold acc in E; congruence). subst q'. rewrite V. apply Qle_shift_div_l; [exact Pk|]. rewrite Qmult_0_l. change 0%Q with (inject_Z 0). rewrite <- Zle_Qle. lia. }
  destruct c.
  all: try (refine (Act _ ltac:(cbn; auto) _); reflexivity).
  - destruct (Z.le_gt_cases 2 (year s)) as [Y|Y]; [|exfalso; destruct (C02_actual_actual_defined s e Os Oe ltac:(lia)) as [_ D]; unfold acc in E; rewrite D in E; [discriminate|]; apply date_ok_year in Os; lia].
    destruct (accrual_pos ACTACT s e) as (q' & E' & P); [split; assumption|split; [assumption|pose proof (year_mono s e ltac:(lia)); lia]|lia|left; discriminate|]. assert (q' = q) by congruence. subst q'. apply Qlt_le_weak. exact P.
  - destruct (C03_sign s e q ltac:(lia) E) as [S1 _]. destruct (Qlt_le_dec q 0) as [N|N]; [|exact N]. exfalso. apply S1 in N. destruct N as (Y & M1 & M2 & D1 & D2). destruct (date_parts s) as (_ & _ & X & _), (date_parts e) as (_ & _ & X' & _). rewrite M1, D1 in X. rewrite <- Y, M2, D2 in X'. unfold ymd2ord in X, X'. lia.
Qed.
Theorem C110_us_accruals : forall a s f c accs p, date_ok (sw_purchase a) -> sw_cal a = US_FEDERAL_HOLIDAYS -> new_swap a = Ok s -> f_accrual_schedule s f c = Ok accs -> In p accs -> (0 <= B2R (fa_factor p))%R.
Proof.
  intros a s f c accs p O C N E I. pose proof (schedule_match a s f c O N) as M. destruct (accrual_schedule s f c) as [es|] eqn:Es; [|congruence]. destruct M as (fs & E' & F2). assert (fs = accs) by congruence. subst fs.
  assert (Ex : exists q, In q es /\ sched_close q p). { clear - F2 I. induction F2 as [|x y l l' Hxy F2 IH]; [contradiction|]. destruct I as [<- |I]; [exists x; split; [left; reflexivity|exact Hxy]|]. destruct (IH I) as (q & Iq & Hq). exists q. split; [right; exact Iq|exact Hq]. }
  destruct Ex as (q & Iq & _ & _ & v & Vv & (d & Dd & Ed) & _). rewrite (proj2 Vv), Ed. pose proof P_FloatSwap.u_tiny as U. apply Rabs_le_inv in Dd. apply Rmult_le_pos; [|lra].
  pose proof (C44_us_strict a s f c es q O C N Es Iq) as Lq. destruct (C109_us_legs a s f c es q O C N Es Iq) as (O1 & O2 & _). destruct (accruals_inv _ _ _ _ Es) as [h]. apply In_nth_error in Iq. destruct Iq as [i Iq]. destruct (accs_nth _ _ _ _ h i q Iq) as (_ & _ & _ & _ & _ & _ & Aq & _).
  apply acc_nonneg in Aq; [|assumption|assumption|lia]. apply Qle_Rle in Aq. replace (Q2R 0) with 0%R in Aq by (unfold Q2R; cbn; lra). exact Aq.
Qed.
Print Assumptions C110_us_accruals.

(** Raising: what implied_rate needs is exactly what it asks for, and an annuity of 0.0 raises ZeroDivisionError. *)
Theorem C110_defined : forall total a s dc rate, 
  (exists r, f_implied_rate total a s dc rate = Ok r) <->
  exists P accs an, (do l <- f_floating_leg a s rate; f_cf_present_value total l dc) = Ok P /\ f_accrual_schedule s (sw_fixed_freq (fs_terms a)) (sw_fixed_dcc (fs_terms a)) = Ok accs /\
    f_annuity a dc accs (of_int 0) = Ok an /\ fzero an = false.
Proof.
  intros total a s dc rate. unfold f_implied_rate. destruct (f_floating_leg a s rate) as [fl|]; cbn [bind]; [|split; [intros (r & E)|intros (P & accs & an & E & _)]; discriminate].
  destruct (f_cf_present_value total fl dc) as [P|]; cbn [bind]; [|split; [intros (r & E)|intros (P & accs & an & E & _)]; discriminate].
  destruct (f_accrual_schedule s _ _) as [accs|]; cbn [bind]; [|split; [intros (r & E)|intros (P0 & accs & an & _ & E & _)]; discriminate].
  destruct (f_annuity a dc accs (of_int 0)) as [an|] eqn:An; cbn [bind]; [|split; [intros (r & E); discriminate|intros (P0 & accs' & an & _ & [= <-] & E & _); congruence]].
  unfold fdiv. destruct (fzero an) eqn:Z.
  - split; [intros (r & E); discriminate|]. intros (P0 & accs' & an' & _ & [= <-] & E & Z'). congruence.
  - split; [|eauto]. intros _. exists P, accs, an. auto.
Qed.
Print Assumptions C110_defined.

(** Non-vacuity, and no exactness: a one year quarterly term swap on 13, all rates 5%, all discount factors 1.  At its implied rate
    the swap is not worth 0. *)
Definition q_terms : swap_args := SwapArgs Term PAYER_FIXED 1%R 13%R (ymd2ord 2023 3 1) T_PLUS_TWO_BUSINESS (Years 1) QUARTERLY QUARTERLY ACT360 ACT360 US_FEDERAL_HOLIDAYS T_MINUS_TWO_BUSINESS T_PLUS_TWO_BUSINESS MODIFIED_FOLLOWING.
Definition q_swap : f_swap_args := FSwapArgs q_terms (of_int 1) (of_int 13).
Definition q_built : swap := Swap q_terms (ymd2ord 2023 3 3) (ymd2ord 2024 3 3) legs0.
Definition q_curve : f_discount := FDiscount (ymd2ord 2023 3 1) (fun _ => Ok (of_int 1)).
Definition q_rate (_ : date) : res f64 := Ok five_percent.
Lemma q_built_ok : new_swap q_terms = Ok q_built. Proof. apply build. vm_compute. reflexivity. Qed.
Definition q_implied (total : list f64 -> f64) : f64 := ok_or (f_implied_rate total q_swap q_built q_curve q_rate).
Lemma q_ends : match f_accrual_schedule q_built QUARTERLY ACT360 with Ok l => List.map (fun p => match pays_on q_swap p with Ok d => fd_ref q_curve <=? d | Err _ => false end) l | Err _ => [] end = [true; true; true; true].
Proof. vm_compute. reflexivity. Qed.
Lemma q_market : fair_market q_swap q_built q_curve.
Proof.
  pose proof (of_int_val 13 ltac:(lia)) as [F2 V2]. pose proof (of_int_val 1 ltac:(lia)) as [F1 V1]. unfold fair_market. cbn [q_swap fs_notional fs_terms]. split; [exact F2|]. split; [rewrite V2; apply (sized_int 13); [lia|vm_compute; discriminate]|].
  assert (O : date_ok (sw_purchase q_terms)) by (split; apply Z.leb_le; vm_compute; reflexivity). split; [exact O|]. intros accs p d df E I. split; [exact (C110_us_accruals q_terms q_built _ _ accs p O eq_refl q_built_ok E I)|].
  intros Pd. split; [|intros Ef; change (Ok (of_int 1) = Ok df) in Ef; assert (Edf : of_int 1 = df) by congruence; subst df; split; [exact F1|rewrite V1; split; change 1%R with (bpow radix2 0); apply bpow_le; lia]].
  pose proof q_ends as Q. change (f_accrual_schedule q_built QUARTERLY ACT360) with (f_accrual_schedule q_built (sw_fixed_freq q_terms) (sw_fixed_dcc q_terms)) in Q. rewrite E in Q.
  assert (G : forall b, In b (List.map (fun p => match pays_on q_swap p with Ok d => fd_ref q_curve <=? d | Err _ => false end) accs) -> b = true) by (rewrite Q; intros b [<- |[<- |[<- |[<- |[]]]]]; reflexivity).
  specialize (G _ (in_map _ _ _ I)). cbv beta in G. rewrite Pd in G. apply Z.leb_le. exact G.
Qed.
Definition q_pv (total : list f64 -> f64) : f64 := ok_or (do l <- f_floating_leg q_swap q_built q_rate; f_cf_present_value total l q_curve).
Definition q_worth (total : list f64 -> f64) : res f64 := swap_value total (quoted (q_implied total) PAYER_FIXED q_swap) q_rate q_curve.
Lemma q_worth_sum : match q_worth f_sum with Ok v => feq v (of_int 0) | Err _ => true end = false. Proof. vm_compute. reflexivity. Qed.
Lemma q_worth_comp : match q_worth f_sum_compensated with Ok v => feq v (of_int 0) | Err _ => true end = false. Proof. vm_compute. reflexivity. Qed.
Theorem C110_exact_refuted : forall total, either_sum total -> fair_market q_swap q_built q_curve /\ new_swap (fs_terms q_swap) = Ok q_built /\ float_leg_ok total q_swap q_built q_curve q_rate (q_pv total) /\
  exists r v, f_implied_rate total q_swap q_built q_curve q_rate = Ok r /\ swap_value total (quoted r PAYER_FIXED q_swap) q_rate q_curve = Ok v /\ feq v (of_int 0) = false.
Proof.
  intros total T. split; [exact q_market|]. split; [exact q_built_ok|]. assert (Q : (do l <- f_floating_leg q_swap q_built q_rate; f_cf_present_value total l q_curve) = Ok (q_pv total)) by (unfold q_pv; destruct T as [-> | ->]; apply ok_eq; vm_compute; reflexivity).
  assert (Fp : q_pv total = q_pv total /\ is_finite (q_pv total) = true /\ fle (of_int 0) (q_pv total) = true /\ fle (flit 1 (-1)) (q_pv total) = true /\ fle (q_pv total) (of_int 2) = true) by (split; [reflexivity|]; destruct T as [-> | ->]; vm_compute; repeat split; reflexivity).
  destruct Fp as (_ & Ff & _ & L1 & L2). split.
  - split; [exact Q|]. split; [exact Ff|]. assert (Vp : val (q_pv total) (B2R (q_pv total))) by (split; [exact Ff|reflexivity]). apply (fle_val _ _ _ _ (flit_val 1 (-1) ltac:(lia) ltac:(lia)) Vp) in L1. apply (fle_val _ _ _ _ Vp (of_int_val 2 ltac:(lia))) in L2.
    apply pos_sized. split; [apply Rle_trans with (2 := L1)|apply Rle_trans with (1 := L2)]; [rewrite Rmult_1_l|change 2%R with (bpow radix2 1)]; apply bpow_le; lia.
  - exists (q_implied total). assert (R : f_implied_rate total q_swap q_built q_curve q_rate = Ok (q_implied total)) by (unfold q_implied; destruct T as [-> | ->]; apply ok_eq; vm_compute; reflexivity).
    destruct (C110_fair total q_swap q_built q_curve q_rate (q_implied total) (q_pv total) PAYER_FIXED T q_market q_built_ok) as (accs & v & _ & V & _); [|exact R|].
    + split; [exact Q|]. split; [exact Ff|]. assert (Vp : val (q_pv total) (B2R (q_pv total))) by (split; [exact Ff|reflexivity]). apply (fle_val _ _ _ _ (flit_val 1 (-1) ltac:(lia) ltac:(lia)) Vp) in L1. apply (fle_val _ _ _ _ Vp (of_int_val 2 ltac:(lia))) in L2.
      apply pos_sized. split; [apply Rle_trans with (2 := L1)|apply Rle_trans with (1 := L2)]; [rewrite Rmult_1_l|change 2%R with (bpow radix2 1)]; apply bpow_le; lia.
    + exists v. split; [exact R|]. split; [exact V|]. destruct T as [-> | ->].
      * change (swap_value f_sum (quoted (q_implied f_sum) PAYER_FIXED q_swap) q_rate q_curve) with (q_worth f_sum) in V. pose proof q_worth_sum as W. rewrite V in W. exact W.
      * change (swap_value f_sum_compensated (quoted (q_implied f_sum_compensated) PAYER_FIXED q_swap) q_rate q_curve) with (q_worth f_sum_compensated) in V. pose proof q_worth_comp as W. rewrite V in W. exact W.
Qed.
Print Assumptions C110_exact_refuted.
Example C110_case : fair_market q_swap q_built q_curve /\ new_swap (fs_terms q_swap) = Ok q_built /\ float_leg_ok f_sum q_swap q_built q_curve q_rate (q_pv f_sum) /\ (0 < B2R (fs_notional q_swap))%R /\
  exists r, f_implied_rate f_sum q_swap q_built q_curve q_rate = Ok r.
Proof.
  destruct (C110_exact_refuted f_sum (or_introl eq_refl)) as (A & B & C & r & v & D & _). split; [exact A|]. split; [exact B|]. split; [exact C|]. split; [|eauto]. unfold q_swap. cbn [fs_notional]. rewrite (proj2 (of_int_val 13 ltac:(lia))). lra.
Qed.
