(** Closed forms of the Vasicek model in double precision: C113. *)
From Verif Require Import Base PyDate PyDateFacts DayCount DayCountFacts PyList KeyRate Curve Loan RVec Stochastic P_Stochastic ShortRate P_ShortRate Vasicek P_Vasicek Float FloatFacts FloatDayCount P_FloatDayCount P_FloatStamp P_FloatBond P_FloatLoan P_FloatSwap P_FloatYield FloatVasicek.
From Coq Require Import Lra Reals Rpower Qreals.
From Flocq Require Import Core BinarySingleNaN Relative.
Open Scope Z_scope.


(** ---- specification ---- *)
(** the C library's exp: within one unit in the last place, and never on the other side of a double *)
Definition libm_exp (ex : f64 -> res f64) : Prop := forall x : f64, is_finite x = true -> (B2R x <= 500)%R ->
  exists z : f64, ex x = Ok z /\ is_finite z = true /\ (Rabs (B2R z - exp (B2R x)) <= / 2 ^ 52 * exp (B2R x) + / 2 ^ 1074)%R /\
    (forall d : f64, is_finite d = true -> (exp (B2R x) <= B2R d -> B2R z <= B2R d)%R /\ (B2R d <= exp (B2R x) -> B2R d <= B2R z)%R).
(** pow(x, 2.0): within one unit in the last place *)
Definition libm_square (sq : f64 -> res f64) : Prop := forall x : f64, is_finite x = true -> (Rabs (B2R x) <= 2 ^ 200)%R ->
  exists z : f64, sq x = Ok z /\ is_finite z = true /\ (0 <= B2R z)%R /\ (B2R x = 0 -> B2R z = 0)%R /\ (Rabs (B2R z - B2R x * B2R x) <= / 2 ^ 52 * (B2R x * B2R x) + / 2 ^ 1074)%R.
(** the doubles of the float model read as the reals of the exact one *)
Definition same_vasicek (fv : f_vasicek) (v : vasicek) : Prop :=
  (is_finite (fva_mean fv) = true /\ B2R (fva_mean fv) = va_mean v) /\ (is_finite (fva_speed fv) = true /\ B2R (fva_speed fv) = va_speed v) /\
  (is_finite (fva_vol fv) = true /\ B2R (fva_vol fv) = va_vol v) /\ fva_start fv = va_start v /\ fva_dcc fv = va_dcc v.
(** and the rate at the purchase date (the start if none is given) *)
Definition same_rate (fv : f_vasicek) (v : vasicek) (p : option datetime) : Prop :=
  match va_rate v p with Ok r => exists x : f64, fva_rate fv (va_purchase v p) = Ok x /\ is_finite x = true /\ B2R x = r | Err e => fva_rate fv (va_purchase v p) = Err e end.
(** parameters of ordinary size *)
Definition ordinary_vasicek (v : vasicek) : Prop :=
  (/ 2 ^ 100 <= va_speed v <= 1000)%R /\ (Rabs (va_mean v) <= 1000)%R /\ (va_vol v = 0 \/ / 2 ^ 100 <= Rabs (va_vol v) <= 1000)%R.

(** ---- elementary bounds ---- *)
Lemma u_52 : (/ 2 ^ 52 = 2 * u)%R.
Proof. change (/ 2 ^ 52)%R with (/ 2 ^ Pos.to_nat 52)%R. rewrite two_pow, u_num. change (bpow radix2 (-52)) with (/ 4503599627370496)%R. lra. Qed.
Definition tn : R := (2 * small)%R.
Lemma tn_range : (0 < tn /\ tn <= / 2 ^ 1000 /\ / 2 ^ 1074 <= tn /\ tn <= / 1000000 * u)%R.
Proof.
  pose proof (bpow_gt_0 radix2 (-1022)). unfold tn. split; [unfold small; lra|]. split; [apply tiny_1000|]. split.
  - change (/ 2 ^ 1074)%R with (/ 2 ^ Pos.to_nat 1074)%R. rewrite two_pow. change 2%R with (bpow radix2 1). unfold small. rewrite <- bpow_plus. apply bpow_le. lia.
  - pose proof small_u. pose proof u_tiny. assert (u * u * u <= / 1000000 * u)%R. { apply Rmult_le_compat_r; [lra|]. apply Rle_trans with (1 * u)%R; [apply Rmult_le_compat_r; lra|lra]. } lra.
Qed.
Lemma exp_le a b : (a <= b -> exp a <= exp b)%R.
Proof. intros [L|L]; [apply Rlt_le, exp_increasing; exact L|right; f_equal; exact L]. Qed.
Lemma exp_above d : (1 + d <= exp d)%R.
Proof. destruct (Req_dec d 0) as [-> | N]; [rewrite exp_0; lra|apply Rlt_le, exp_ineq1; exact N]. Qed.
Lemma exp_inv d : (exp d * exp (- d) = 1)%R.
Proof. rewrite <- exp_plus, Rplus_opp_r. apply exp_0. Qed.
Lemma exp_upper d : (d < 1 -> exp d <= / (1 - d))%R.
Proof.
  intros L. pose proof (exp_above (- d)). pose proof (exp_inv d). pose proof (exp_pos d). apply Rmult_le_reg_r with (1 - d)%R; [lra|]. rewrite Rinv_l by lra. rewrite <- H0. apply Rmult_le_compat_l; lra.
Qed.
Lemma exp_one d : (Rabs d <= 1 / 4 -> Rabs (exp d - 1) <= 4 / 3 * Rabs d)%R.
Proof.
  intros H. apply Rabs_le_inv in H as H'. pose proof (exp_above d). pose proof (exp_upper d ltac:(lra)) as U. pose proof (Rabs_pos d).
  assert (/ (1 - d) - 1 <= 4 / 3 * Rabs d)%R.
  { replace (/ (1 - d) - 1)%R with (d * / (1 - d))%R by (field; lra). assert (0 < / (1 - d))%R by (apply Rinv_0_lt_compat; lra). assert (/ (1 - d) <= 4 / 3)%R by (replace (4 / 3)%R with (/ (3 / 4))%R by field; apply Rinv_le_contravar; lra).
    apply Rle_trans with (Rabs d * / (1 - d))%R; [apply Rmult_le_compat_r; [lra|apply Rle_abs]|]. rewrite (Rmult_comm (4 / 3)). apply Rmult_le_compat_l; lra. }
  apply Rabs_le. split; [|lra]. pose proof (Rle_abs (- d)) as A. rewrite Rabs_Ropp in A. lra.
Qed.
Lemma exp_one_small d : (Rabs d <= 1 / 1000 -> Rabs (exp d - 1) <= 101 / 100 * Rabs d)%R.
Proof.
  intros H. apply Rabs_le_inv in H as H'. pose proof (exp_above d). pose proof (exp_upper d ltac:(lra)) as U. pose proof (Rabs_pos d).
  assert (/ (1 - d) - 1 <= 101 / 100 * Rabs d)%R.
  { replace (/ (1 - d) - 1)%R with (d * / (1 - d))%R by (field; lra). assert (0 < / (1 - d))%R by (apply Rinv_0_lt_compat; lra). assert (/ (1 - d) <= 101 / 100)%R by (replace (101 / 100)%R with (/ (100 / 101))%R by field; apply Rinv_le_contravar; lra).
    apply Rle_trans with (Rabs d * / (1 - d))%R; [apply Rmult_le_compat_r; [lra|apply Rle_abs]|]. rewrite (Rmult_comm (101 / 100)). apply Rmult_le_compat_l; lra. }
  apply Rabs_le. split; [|lra]. pose proof (Rle_abs (- d)) as A. rewrite Rabs_Ropp in A. lra.
Qed.
Lemma exp_peak y : (y * exp (- y) <= 1)%R.
Proof. pose proof (exp_above y). pose proof (exp_inv y). pose proof (exp_pos (- y)). rewrite <- H0. apply Rmult_le_compat_r; lra. Qed.
Lemma exp_nonpos y : (0 <= y -> 0 < exp (- y) <= 1)%R.
Proof. intros H. split; [apply exp_pos|]. rewrite <- exp_0. apply exp_le. lra. Qed.

(** ---- one exponential weight ---- *)
Lemma weight_near ex x xv K a af de : libm_exp ex -> val x xv -> (0 <= K <= 2000)%R -> (0 <= a <= 10000)%R -> (0 <= de <= / 1000000000)%R -> (Rabs (af - a) <= de)%R -> (Rabs (xv + K * af) <= 3 * u * (K * Rabs af) + tn)%R ->
  exists z w, ex x = Ok z /\ val z w /\ (Rabs (w - exp (- (K * a))) <= 11 / 10 * (K * de) + 6 * u)%R /\ (0 <= w <= 1001 / 1000)%R /\ (xv <= 0 -> w <= 1)%R.
Proof.
  intros L [Fx Vx] HK Ha Hd Hf Hx. pose proof u_tiny as Us. destruct tn_range as (t0 & _ & t1 & t2). set (E := exp (- (K * a))).
  assert (Ka : (0 <= K * a <= 20000000)%R) by (split; [apply Rmult_le_pos; lra|apply Rle_trans with (2000 * 10000)%R; [apply Rmult_le_compat; lra|lra]]).
  assert (Kd : (0 <= K * de <= / 400000)%R) by (split; [apply Rmult_le_pos; lra|apply Rle_trans with (2000 * / 1000000000)%R; [apply Rmult_le_compat; lra|lra]]).
  destruct (exp_nonpos (K * a) ltac:(lra)) as [E0 E1]. fold E in E0, E1. pose proof (exp_peak (K * a)) as E2. fold E in E2.
  assert (Af : (Rabs af <= a + de)%R). { replace af with (a + (af - a))%R by ring. apply Rle_trans with (1 := Rabs_triang _ _). rewrite (Rabs_pos_eq a) by lra. lra. }
  assert (KA : (K * Rabs af <= K * a + K * de)%R) by (rewrite <- Rmult_plus_distr_l; apply Rmult_le_compat_l; lra).
  set (d := (xv + K * a)%R).
  assert (Hd1 : (Rabs d <= K * de + 3 * u * (K * a + K * de) + tn)%R).
  { unfold d. replace (xv + K * a)%R with ((xv + K * af) + K * (a - af))%R by ring. apply Rle_trans with (1 := Rabs_triang _ _). rewrite (Rabs_mult K), (Rabs_pos_eq K), (Rabs_minus_sym a af) by lra.
    assert (K * Rabs (af - a) <= K * de)%R by (apply Rmult_le_compat_l; lra). assert (3 * u * (K * Rabs af) <= 3 * u * (K * a + K * de))%R by (apply Rmult_le_compat_l; lra). lra. }
  assert (uKa : (u * (K * a) <= 1 / 1000000000000 * 20000000)%R) by (apply Rmult_le_compat; lra). assert (uKd : (0 <= u * (K * de) <= u * / 400000)%R) by (split; [apply Rmult_le_pos; lra|apply Rmult_le_compat_l; lra]).
  assert (Hd2 : (Rabs d <= 1 / 1000)%R) by lra. pose proof (exp_one_small d Hd2) as X1.
  assert (EdE : (exp xv = E * exp d)%R) by (unfold E; rewrite <- exp_plus; f_equal; unfold d; ring).
  assert (X2 : (Rabs (exp xv - E) <= 101 / 100 * (K * de) + 31 / 10 * u)%R).
  { rewrite EdE. replace (E * exp d - E)%R with (E * (exp d - 1))%R by ring. rewrite Rabs_mult, (Rabs_pos_eq E) by lra.
    apply Rle_trans with (E * (101 / 100 * (K * de + 3 * u * (K * a + K * de) + tn)))%R; [apply Rmult_le_compat_l; lra|].
    replace (E * (101 / 100 * (K * de + 3 * u * (K * a + K * de) + tn)))%R with (101 / 100 * (E * (K * de) + 3 * (u * (K * a * E)) + 3 * (E * (u * (K * de))) + E * tn))%R by ring.
    assert (E * (K * de) <= 1 * (K * de))%R by (apply Rmult_le_compat_r; lra). assert (u * (K * a * E) <= u * 1)%R by (apply Rmult_le_compat_l; lra).
    assert (E * (u * (K * de)) <= 1 * (u * (K * de)))%R by (apply Rmult_le_compat_r; lra). assert (E * tn <= 1 * tn)%R by (apply Rmult_le_compat_r; lra). lra. }
  assert (Xp : (0 < exp xv)%R) by apply exp_pos. apply Rabs_le_inv in X2 as X2'.
  assert (Xl : (xv <= 500)%R) by (apply Rabs_le_inv in Hd2; unfold d in Hd2; lra).
  rewrite <- Vx in Xl, X2, X2', Xp. destruct (L x Fx Xl) as (z & Ez & Fz & Nz & Oz). rewrite u_52 in Nz. exists z, (B2R z). split; [exact Ez|]. split; [split; [exact Fz|reflexivity]|].
  assert (Nz2 : (2 * u * exp (B2R x) <= 2 * u * (1001 / 1000))%R) by (apply Rmult_le_compat_l; lra).
  assert (Nz3 : (Rabs (B2R z - E) <= 11 / 10 * (K * de) + 6 * u)%R). { replace (B2R z - E)%R with ((B2R z - exp (B2R x)) + (exp (B2R x) - E))%R by ring. apply Rle_trans with (1 := Rabs_triang _ _). lra. }
  split; [exact Nz3|]. apply Rabs_le_inv in Nz3 as Nz4. split; [split; [|lra]|].
  - destruct (Oz (of_int 0) (proj1 (of_int_val 0 ltac:(lia)))) as [_ O2]. rewrite (proj2 (of_int_val 0 ltac:(lia))) in O2. apply O2. change (IZR 0) with 0%R. lra.
  - intros Np. destruct (Oz (of_int 1) (proj1 (of_int_val 1 ltac:(lia)))) as [O1 _]. rewrite (proj2 (of_int_val 1 ltac:(lia))) in O1. apply O1. change (IZR 1) with 1%R. rewrite Vx, <- exp_0. apply exp_le. exact Np.
Qed.

(** years of calendar crossed, and the error of the computed accrual *)
Definition slack (v : vasicek) (m : moment) (p : option datetime) : R :=
  (/ 2 ^ 46 * (IZR (Z.abs (year (day_of m) - year (day_of (Stamp (va_purchase v p))))) + 3))%R.
(** both times exist, the accrual is between 0 and 10000 years and the rate at most 1000 in absolute value *)
Definition ordinary_times (v : vasicek) (m : moment) (p : option datetime) : Prop :=
  moment_ok (Stamp (va_purchase v p)) /\ moment_ok m /\ (forall a, va_accrual v m p = Ok a -> (0 <= a <= 10000)%R) /\ (forall r, va_rate v p = Ok r -> (Rabs r <= 1000)%R).

Lemma slack_range v m p : moment_ok (Stamp (va_purchase v p)) -> moment_ok m -> (0 < slack v m p <= / 1000000000)%R.
Proof.
  intros O1 O2. unfold slack. pose proof (ok_span _ _ (day_of_ok _ O1) (day_of_ok m O2)) as S. fold (span (day_of (Stamp (va_purchase v p))) (day_of m)).
  change (/ 2 ^ 46)%R with (/ 2 ^ Pos.to_nat 46)%R. rewrite two_pow. change (bpow radix2 (Zneg 46)) with (/ 70368744177664)%R.
  destruct S as [S0 S1]. apply IZR_le in S0, S1. split; [apply Rmult_lt_0_compat; lra|]. lra.
Qed.
Lemma purchase_same fv v p : same_vasicek fv v -> fva_purchase fv p = va_purchase v p.
Proof. intros (_ & _ & _ & S & _). unfold fva_purchase, va_purchase. rewrite S. reflexivity. Qed.
Lemma accrual_match fv v m p : same_vasicek fv v -> moment_ok (Stamp (va_purchase v p)) -> moment_ok m ->
  match va_accrual v m p with
  | Ok a => exists x af, fva_accrual fv m p = Ok x /\ val x af /\ (Rabs (af - a) <= slack v m p)%R
  | Err e => fva_accrual fv m p = Err e end.
Proof.
  intros S O1 O2. unfold fva_accrual, va_accrual. rewrite (purchase_same fv v p S). destruct S as (_ & _ & _ & _ & D). rewrite D.
  destruct (compute_accrual_length _ m (va_dcc v)) as [q|e] eqn:E; cbn [bind].
  - destruct (C85_accuracy _ _ _ _ O1 O2 E) as (x & X & F & B). exists x, (B2R x). split; [exact X|]. split; [split; [exact F|reflexivity]|exact B].
  - apply C85_errors; assumption.
Qed.
Lemma rate_match fv v p : same_vasicek fv v -> same_rate fv v p -> match va_rate v p with Ok r => exists x, fva_rate fv (fva_purchase fv p) = Ok x /\ val x r | Err e => fva_rate fv (fva_purchase fv p) = Err e end.
Proof. intros S H. rewrite (purchase_same fv v p S). exact H. Qed.
Lemma val_opp x a : val x a -> val (Bopp x) (- a).
Proof. intros [F <-]. split; [rewrite is_finite_Bopp; exact F|apply B2R_Bopp]. Qed.
Lemma big_ok x : (Rabs x <= 100000000000000000000000000000000000000000000000000000000000000000000000000000000000000000000000000000000000000000000000000000000000000000000000000000000000000000000000000000000000000000000000000000000)%R -> (Rabs x <= big)%R.
Proof. intros H. apply Rle_trans with (1 := H). apply Rle_trans with (bpow radix2 700); [cbn; lra|]. unfold big. apply bpow_le. lia. Qed.
Lemma mul_in x y a b A B : val x a -> val y b -> (Rabs a <= A)%R -> (Rabs b <= B)%R -> (A * B <= 100000000000000000000000000000000000000000000000000000000000000000000000000000000000000000000000000000000000000000000000000000000000000000000000000000000000000000000000000000000000000000000000000000000)%R -> val (fmul x y) (rn (a * b)) /\ (Rabs (rn (a * b) - a * b) <= u * (Rabs a * Rabs b) + tn)%R.
Proof.
  intros Vx Vy HA HB H. pose proof (Rabs_pos a). pose proof (Rabs_pos b). assert (Rabs (a * b) <= A * B)%R by (rewrite Rabs_mult; apply Rmult_le_compat; lra).
  split; [apply fmul_val; [exact Vx|exact Vy|apply big_ok; lra]|]. pose proof (rn_abs (a * b)) as E. rewrite Rabs_mult in E. unfold tn. exact E.
Qed.
Lemma sub_one x w : val x w -> (0 <= w <= 1001 / 1000)%R -> exists s, val (fsub (of_int 1) x) s /\ s = rn (1 - w) /\ (Rabs (s - (1 - w)) <= u)%R /\ (Rabs s <= 1001 / 1000)%R /\ (w <= 1 -> 0 <= s)%R.
Proof.
  intros V W. pose proof u_tiny. pose proof (of_int_val 1 ltac:(lia)) as V1. change (IZR 1) with 1%R in V1.
  assert (Rabs (1 - w) <= 1)%R by (apply Rabs_le; lra). exists (rn (1 - w)). split; [apply fsub_val; [exact V1|exact V|apply big_ok; lra]|]. split; [reflexivity|].
  pose proof (rn_minus_err (of_int 1) x 1 w V1 V) as E. assert (E' : (Rabs (rn (1 - w) - (1 - w)) <= u)%R) by (apply Rle_trans with (1 := E); rewrite <- (Rmult_1_r u) at 2; apply Rmult_le_compat_l; lra).
  split; [exact E'|]. apply Rabs_le_inv in E'. split; [apply Rabs_le; apply Rabs_le_inv in H0; lra|]. intros L. rewrite <- rn_0. apply rn_le. lra.
Qed.
(** the exponent -(speed * accrual) *)
Lemma exponent_near fv v x af : same_vasicek fv v -> ordinary_vasicek v -> val x af -> (Rabs af <= 10001)%R ->
  (exists xv, val (fmul (Bopp (fva_speed fv)) x) xv /\ (Rabs (xv + va_speed v * af) <= 3 * u * (va_speed v * Rabs af) + tn)%R /\ (0 <= af -> xv <= 0)%R) /\
  (exists xv, val (fmul (Bopp x) (fva_speed fv)) xv /\ (Rabs (xv + va_speed v * af) <= 3 * u * (va_speed v * Rabs af) + tn)%R) /\
  (exists xv, val (fmul (fmul (of_int (-2)) (fva_speed fv)) x) xv /\ (Rabs (xv + 2 * va_speed v * af) <= 3 * u * (2 * va_speed v * Rabs af) + tn)%R /\ (0 <= af -> xv <= 0)%R).
Proof.
  intros (_ & Sk & _) (Ok & _) V A. pose proof (Rabs_pos af) as A0. pose proof u_tiny as U. set (k := va_speed v) in *. fold (val (fva_speed fv) k) in Sk. assert (k0 : (0 < k)%R) by (pose proof (pow_lt 2 100 ltac:(lra)) as P; apply Rinv_0_lt_compat in P; lra).
  destruct tn_range as (t0 & _). assert (N : (Rabs (- k) = k)%R) by (rewrite Rabs_Ropp; apply Rabs_pos_eq; lra).
  assert (Kn : (0 <= u * (k * Rabs af))%R) by (apply Rmult_le_pos; [lra|apply Rmult_le_pos; lra]).
  split; [|split].
  - destruct (mul_in _ _ _ _ 1000 10001 (val_opp _ _ Sk) V ltac:(lra) A ltac:(lra)) as [V1 E1]. exists (rn (- k * af)). split; [exact V1|]. rewrite N in E1. split.
    + replace (rn (- k * af) + k * af)%R with (rn (- k * af) - - k * af)%R by ring. lra.
    + intros P. rewrite <- rn_0. apply rn_le. assert (0 <= k * af)%R by (apply Rmult_le_pos; lra). lra.
  - destruct (mul_in _ _ _ _ 10001 1000 (val_opp _ _ V) Sk ltac:(rewrite Rabs_Ropp; lra) ltac:(rewrite Rabs_pos_eq; lra) ltac:(lra)) as [V1 E1]. exists (rn (- af * k)). split; [exact V1|]. rewrite Rabs_Ropp, (Rabs_pos_eq k) in E1 by lra.
    replace (rn (- af * k) + k * af)%R with (rn (- af * k) - - af * k)%R by ring. rewrite (Rmult_comm (Rabs af)) in E1. lra.
  - pose proof (of_int_val (-2) ltac:(lia)) as V2. destruct (mul_in _ _ _ _ 2 1000 V2 Sk ltac:(apply Rabs_le; lra) ltac:(rewrite Rabs_pos_eq; lra) ltac:(lra)) as [V3 _].
    set (k2 := rn (IZR (-2) * k)) in *. assert (E2 : (Rabs (k2 + 2 * k) <= u * (2 * k))%R).
    { replace (k2 + 2 * k)%R with (k2 - IZR (-2) * k)%R by (change (IZR (-2)) with (-2)%R; ring). replace (u * (2 * k))%R with (u * Rabs (IZR (-2) * k))%R. 2:{ f_equal. replace (IZR (-2) * k)%R with (- (2 * k))%R by (change (IZR (-2)) with (-2)%R; ring). rewrite Rabs_Ropp. apply Rabs_pos_eq. lra. }
      unfold k2. apply rn_err. right. replace (IZR (-2) * k)%R with (- (2 * k))%R by (change (IZR (-2)) with (-2)%R; ring). rewrite Rabs_Ropp, (Rabs_pos_eq (2 * k)) by lra. apply Rle_trans with (2 * / 2 ^ 100)%R; [|lra].
      change (/ 2 ^ 100)%R with (/ 2 ^ Pos.to_nat 100)%R. rewrite two_pow. change 2%R with (bpow radix2 1). rewrite <- bpow_plus. unfold small. apply bpow_le. lia. }
    assert (Ak2 : (Rabs k2 <= 2 * k + u * (2 * k))%R). { replace k2 with ((k2 + 2 * k) + - (2 * k))%R by ring. apply Rle_trans with (1 := Rabs_triang _ _). rewrite Rabs_Ropp, (Rabs_pos_eq (2 * k)) by lra. lra. }
    assert (uk : (u * (2 * k) <= 1 / 1000000000000 * (2 * k))%R) by (apply Rmult_le_compat_r; lra).
    destruct (mul_in _ _ _ _ 2001 10001 V3 V ltac:(lra) A ltac:(lra)) as [V4 E4]. exists (rn (k2 * af)). split; [exact V4|]. split.
    + replace (rn (k2 * af) + 2 * k * af)%R with ((rn (k2 * af) - k2 * af) + (k2 + 2 * k) * af)%R by ring. apply Rle_trans with (1 := Rabs_triang _ _). rewrite (Rabs_mult (k2 + 2 * k)).
      assert (Rabs (k2 + 2 * k) * Rabs af <= u * (2 * k) * Rabs af)%R by (apply Rmult_le_compat_r; lra).
      assert (u * (Rabs k2 * Rabs af) <= u * ((2 * k * (101 / 100)) * Rabs af))%R by (apply Rmult_le_compat_l; [lra|apply Rmult_le_compat_r; lra]). lra.
    + intros P. rewrite <- rn_0. apply rn_le. apply Rabs_le_inv in E2. assert (k2 <= 0)%R by lra. assert (0 <= - k2 * af)%R by (apply Rmult_le_pos; lra). lra.
Qed.
Lemma tn_many : (1000 * tn <= / 2 ^ 1000)%R.
Proof.
  unfold tn, small. change (/ 2 ^ 1000)%R with (/ 2 ^ Pos.to_nat 1000)%R. rewrite two_pow. apply Rle_trans with (bpow radix2 10 * (bpow radix2 1 * bpow radix2 (-1022)))%R.
  - pose proof (bpow_gt_0 radix2 (-1022)). change (bpow radix2 10) with 1024%R. change (bpow radix2 1) with 2%R. lra.
  - rewrite <- !bpow_plus. apply bpow_le. lia.
Qed.
Lemma af_size a af de : (0 <= a <= 10000)%R -> (0 <= de <= / 1000000000)%R -> (Rabs (af - a) <= de)%R -> (Rabs af <= 10001)%R.
Proof. intros. apply Rabs_le_inv in H1. apply Rabs_le. lra. Qed.

Lemma tri6 a b c d e f : (Rabs (a + b + c + d + e + f) <= Rabs a + Rabs b + Rabs c + Rabs d + Rabs e + Rabs f)%R.
Proof.
  pose proof (Rabs_triang (a + b + c + d + e) f). pose proof (Rabs_triang (a + b + c + d) e). pose proof (Rabs_triang (a + b + c) d). pose proof (Rabs_triang (a + b) c). pose proof (Rabs_triang a b). lra.
Qed.

Theorem C113_expected_rate : forall (ex : f64 -> res f64) fv v m p, libm_exp ex -> same_vasicek fv v -> same_rate fv v p -> ordinary_vasicek v -> ordinary_times v m p ->
  match expected_short_rate v m p, va_rate v p with
  | Ok y, Ok r => exists x : f64, f_expected_short_rate ex fv m p = Ok x /\ is_finite x = true /\
      (Rabs (B2R x - y) <= (Rabs r + Rabs (va_mean v)) * (2 * va_speed v * slack v m p + 10 * / 2 ^ 53) + / 2 ^ 1000)%R
  | Err e, _ => f_expected_short_rate ex fv m p = Err e
  | _, _ => False end.
Proof.
  intros ex fv v m p L S SR O (O1 & O2 & HA & HR). pose proof (accrual_match fv v m p S O1 O2) as A. pose proof (rate_match fv v p S SR) as R. pose proof (slack_range v m p O1 O2) as D.
  unfold expected_short_rate, f_expected_short_rate. destruct (va_accrual v m p) as [a|e]; [|rewrite A; reflexivity]. destruct A as (x & af & X & V & B). rewrite X. cbn [bind].
  specialize (HA a eq_refl). assert (Af := af_size a af (slack v m p) HA ltac:(lra) B). destruct (exponent_near fv v x af S O V Af) as ((xv & V1 & E1 & _) & _).
  pose proof S as (Sm & _). pose proof O as (Ok1 & Om & _). set (k := va_speed v) in *. set (mu := va_mean v) in *. fold (val (fva_mean fv) mu) in Sm. assert (k0 : (0 < k)%R) by (pose proof (pow_lt 2 100 ltac:(lra)) as P; apply Rinv_0_lt_compat in P; lra).
  destruct (weight_near ex _ xv k a af (slack v m p) L V1 ltac:(lra) HA ltac:(lra) B E1) as (z & w & Z & Vw & Ew & Rw & _). rewrite Z. cbn [bind].
  replace (- k * a)%R with (- (k * a))%R by ring. set (E := exp (- (k * a))) in *.
  destruct (va_rate v p) as [r|e]; [|rewrite R; reflexivity]. cbn [bind]. destruct R as (rf & Rf & Vr). rewrite Rf. cbn [bind]. specialize (HR r eq_refl).
  destruct (sub_one z w Vw Rw) as (s & Vs & _ & Es & As & _).
  pose proof u_tiny as U. destruct tn_range as (t0 & _ & _ & t2). pose proof (Rabs_pos r) as r0. pose proof (Rabs_pos mu) as m0.
  assert (Aw : (Rabs w <= 1001 / 1000)%R) by (apply Rabs_le; lra).
  destruct (mul_in _ _ _ _ (1001 / 1000) 1000 Vw Vr Aw HR ltac:(lra)) as [V2 E2]. destruct (mul_in _ _ _ _ (1001 / 1000) 1000 Vs Sm As Om ltac:(lra)) as [V3 E3].
  set (t1 := rn (w * r)) in *. set (t3 := rn (s * mu)) in *.
  assert (B1 : (Rabs w * Rabs r <= 1001 / 1000 * Rabs r)%R) by (apply Rmult_le_compat_r; lra). assert (B2 : (Rabs s * Rabs mu <= 1001 / 1000 * Rabs mu)%R) by (apply Rmult_le_compat_r; lra).
  assert (U1 : (u * (Rabs w * Rabs r) <= u * (1001 / 1000 * Rabs r))%R) by (apply Rmult_le_compat_l; lra). assert (U2 : (u * (Rabs s * Rabs mu) <= u * (1001 / 1000 * Rabs mu))%R) by (apply Rmult_le_compat_l; lra).
  assert (ur : (0 <= u * Rabs r <= 1 / 1000000000000 * Rabs r)%R) by (split; [apply Rmult_le_pos; lra|apply Rmult_le_compat_r; lra]). assert (um : (0 <= u * Rabs mu <= 1 / 1000000000000 * Rabs mu)%R) by (split; [apply Rmult_le_pos; lra|apply Rmult_le_compat_r; lra]).
  assert (T1 : (Rabs t1 <= 1002 / 1000 * Rabs r + tn)%R). { replace t1 with ((t1 - w * r) + w * r)%R by ring. apply Rle_trans with (1 := Rabs_triang _ _). rewrite (Rabs_mult w). lra. }
  assert (T3 : (Rabs t3 <= 1002 / 1000 * Rabs mu + tn)%R). { replace t3 with ((t3 - s * mu) + s * mu)%R by ring. apply Rle_trans with (1 := Rabs_triang _ _). rewrite (Rabs_mult s). lra. }
  assert (T4 : (Rabs (t1 + t3) <= 1002 / 1000 * (Rabs r + Rabs mu) + 2 * tn)%R) by (apply Rle_trans with (1 := Rabs_triang _ _); lra).
  pose proof (rn_plus_err _ _ _ _ V2 V3) as E4. pose proof (fadd_val _ _ _ _ V2 V3 ltac:(apply big_ok; lra)) as [F4 Vx].
  eexists. split; [reflexivity|]. split; [exact F4|]. rewrite Vx. clear Vx F4. pose proof tn_many as TM.
  assert (U4 : (u * Rabs (t1 + t3) <= u * (1002 / 1000 * (Rabs r + Rabs mu) + 2 * tn))%R) by (apply Rmult_le_compat_l; lra).
  assert (ut : (u * tn <= 1 * tn)%R) by (apply Rmult_le_compat_r; lra).
  replace (/ 2 ^ 53)%R with u by (rewrite u_num; change (/ 2 ^ 53)%R with (/ 2 ^ Pos.to_nat 53)%R; rewrite two_pow; reflexivity).
  replace (rn (t1 + t3) - (E * r + (1 - E) * mu))%R with ((rn (t1 + t3) - (t1 + t3)) + (t1 - w * r) + (t3 - s * mu) + (s - (1 - w)) * mu + (w - E) * r + (E - w) * mu)%R by ring.
  assert (P1 : (Rabs ((s - (1 - w)) * mu) <= u * Rabs mu)%R) by (rewrite Rabs_mult; apply Rmult_le_compat_r; lra).
  assert (P2 : (Rabs ((w - E) * r) <= (11 / 10 * (k * slack v m p) + 6 * u) * Rabs r)%R) by (rewrite Rabs_mult; apply Rmult_le_compat_r; lra).
  assert (P3 : (Rabs ((E - w) * mu) <= (11 / 10 * (k * slack v m p) + 6 * u) * Rabs mu)%R) by (rewrite Rabs_mult, Rabs_minus_sym; apply Rmult_le_compat_r; lra).
  apply Rle_trans with (1 := tri6 _ _ _ _ _ _). set (q := (k * slack v m p)%R) in *. replace (2 * k * slack v m p)%R with (2 * q)%R by (unfold q; ring). assert (q0 : (0 <= q)%R) by (apply Rmult_le_pos; lra).
  assert (0 <= q * Rabs r)%R by (apply Rmult_le_pos; lra). assert (0 <= q * Rabs mu)%R by (apply Rmult_le_pos; lra). lra.
Qed.
Print Assumptions C113_expected_rate.

Lemma u_53 : (/ 2 ^ 53 = u)%R.
Proof. rewrite u_num. change (/ 2 ^ 53)%R with (/ 2 ^ Pos.to_nat 53)%R. rewrite two_pow. reflexivity. Qed.
Lemma speed_pos v : ordinary_vasicek v -> (0 < va_speed v)%R.
Proof. intros (O & _). pose proof (pow_lt 2 100 ltac:(lra)) as P. apply Rinv_0_lt_compat in P. lra. Qed.
Lemma vol_size v : ordinary_vasicek v -> (Rabs (va_vol v) <= 1000)%R.
Proof. intros (_ & _ & [-> | O]); [rewrite Rabs_R0; lra|lra]. Qed.

Theorem C113_forward_volatility : forall (ex : f64 -> res f64) fv v m p, libm_exp ex -> same_vasicek fv v -> ordinary_vasicek v -> ordinary_times v m p ->
  match forward_rate_volatility v m p with
  | Ok y => exists x : f64, f_forward_rate_volatility ex fv m p = Ok x /\ is_finite x = true /\
      (Rabs (B2R x - y) <= Rabs (va_vol v) * (2 * va_speed v * slack v m p + 8 * / 2 ^ 53) + / 2 ^ 1000)%R
  | Err e => f_forward_rate_volatility ex fv m p = Err e end.
Proof.
  intros ex fv v m p L S O (O1 & O2 & HA & HR). pose proof (accrual_match fv v m p S O1 O2) as A. pose proof (slack_range v m p O1 O2) as D.
  unfold forward_rate_volatility, f_forward_rate_volatility. destruct (va_accrual v m p) as [a|e]; [|rewrite A; reflexivity]. destruct A as (x & af & X & V & B). rewrite X. cbn [bind].
  specialize (HA a eq_refl). assert (Af := af_size a af (slack v m p) HA ltac:(lra) B). destruct (exponent_near fv v x af S O V Af) as (_ & (xv & V1 & E1) & _).
  pose proof S as (_ & _ & Sv & _). pose proof O as (Ok1 & _). pose proof (speed_pos v O) as k0. pose proof (vol_size v O) as Os. set (k := va_speed v) in *. set (s := va_vol v) in *. fold (val (fva_vol fv) s) in Sv.
  destruct (weight_near ex _ xv k a af (slack v m p) L V1 ltac:(lra) HA ltac:(lra) B E1) as (z & w & Z & Vw & Ew & Rw & _). rewrite Z. cbn [bind].
  replace (- a * k)%R with (- (k * a))%R by ring. set (E := exp (- (k * a))) in *.
  assert (Aw : (Rabs w <= 1001 / 1000)%R) by (apply Rabs_le; lra). pose proof (Rabs_pos s) as s0. pose proof u_tiny as U. destruct tn_range as (t0 & _). pose proof tn_many.
  destruct (mul_in _ _ _ _ 1000 (1001 / 1000) Sv Vw Os Aw ltac:(lra)) as [[F2 V2] E2]. eexists. split; [reflexivity|]. split; [exact F2|]. rewrite V2. rewrite u_53.
  replace (rn (s * w) - s * E)%R with ((rn (s * w) - s * w) + s * (w - E))%R by ring. apply Rle_trans with (1 := Rabs_triang _ _). rewrite (Rabs_mult s (w - E)).
  assert (Rabs s * Rabs (w - E) <= Rabs s * (11 / 10 * (k * slack v m p) + 6 * u))%R by (apply Rmult_le_compat_l; lra).
  assert (u * (Rabs s * Rabs w) <= u * (Rabs s * (1001 / 1000)))%R by (apply Rmult_le_compat_l; [lra|apply Rmult_le_compat_l; lra]).
  set (q := (k * slack v m p)%R) in *. replace (2 * k * slack v m p)%R with (2 * q)%R by (unfold q; ring). assert (q0 : (0 <= q)%R) by (apply Rmult_le_pos; lra).
  assert (0 <= q * Rabs s)%R by (apply Rmult_le_pos; lra). assert (0 <= u * Rabs s)%R by (apply Rmult_le_pos; lra). lra.
Qed.
Print Assumptions C113_forward_volatility.

(** ---- squares and quotients, with relative errors ---- *)
Definition within (e y x : R) : Prop := (Rabs (x - y) <= e * u * y)%R.
Lemma within_range e y x : within e y x -> (0 <= e <= 100)%R -> (0 <= y)%R -> (999 / 1000 * y <= x <= 1001 / 1000 * y)%R.
Proof.
  intros H He Hy. unfold within in H. pose proof u_tiny. apply Rabs_le_inv in H. assert (e * u * y <= 1 / 1000 * y)%R by (apply Rmult_le_compat_r; [exact Hy|]; apply Rle_trans with (100 * u)%R; [apply Rmult_le_compat_r; lra|lra]). lra.
Qed.
Lemma tiny_pow : (/ 2 ^ 1074 <= u * / 2 ^ 400)%R.
Proof. change (/ 2 ^ 1074)%R with (/ 2 ^ Pos.to_nat 1074)%R. change (/ 2 ^ 400)%R with (/ 2 ^ Pos.to_nat 400)%R. rewrite !two_pow. unfold u. rewrite <- bpow_plus. apply bpow_le. lia. Qed.
Lemma small_400 : (small <= / 2 ^ 400)%R.
Proof. change (/ 2 ^ 400)%R with (/ 2 ^ Pos.to_nat 400)%R. rewrite two_pow. unfold small. apply bpow_le. lia. Qed.
Lemma inv_pow_sq : (/ 2 ^ 100 * / 2 ^ 100 = / 2 ^ 200)%R.
Proof. change (/ 2 ^ 100)%R with (/ 2 ^ Pos.to_nat 100)%R. change (/ 2 ^ 200)%R with (/ 2 ^ Pos.to_nat 200)%R. rewrite !two_pow. rewrite <- bpow_plus. reflexivity. Qed.
Lemma inv_pow_mono : (/ 2 ^ 400 <= / 2 ^ 300 /\ 1000000000 * / 2 ^ 300 <= / 2 ^ 200 /\ 0 < / 2 ^ 400 /\ / 2 ^ 200 <= / 2 ^ 100 /\ 0 < / 2 ^ 100)%R.
Proof.
  change (/ 2 ^ 400)%R with (/ 2 ^ Pos.to_nat 400)%R. change (/ 2 ^ 300)%R with (/ 2 ^ Pos.to_nat 300)%R. change (/ 2 ^ 200)%R with (/ 2 ^ Pos.to_nat 200)%R. change (/ 2 ^ 100)%R with (/ 2 ^ Pos.to_nat 100)%R. rewrite !two_pow.
  split; [apply bpow_le; lia|]. split.
  - apply Rle_trans with (bpow radix2 30 * bpow radix2 (-300))%R; [apply Rmult_le_compat_r; [apply bpow_ge_0|cbn; lra]|rewrite <- bpow_plus; apply bpow_le; lia].
  - split; [apply bpow_gt_0|]. split; [apply bpow_le; lia|apply bpow_gt_0].
Qed.
Lemma square_near sq x a : libm_square sq -> val x a -> (a = 0 \/ / 2 ^ 100 <= Rabs a <= 1000)%R -> exists z s, sq x = Ok z /\ val z s /\ within 3 (a * a) s /\ (s = 0 \/ / 2 ^ 300 <= s)%R.
Proof.
  intros L [F <-] H. set (a := B2R x) in *. pose proof u_tiny as U.
  assert (Ha : (Rabs a <= 1000)%R) by (destruct H as [-> | H]; [rewrite Rabs_R0; lra|lra]).
  destruct (L x F) as (z & Z & Fz & Pz & Nz & Ez). { fold a. apply Rle_trans with (1 := Ha). change 2%R with (IZR 2). rewrite (pow_IZR 2 200). apply IZR_le. apply Z.leb_le. vm_compute. reflexivity. }
  fold a in Ez, Nz. exists z, (B2R z). split; [exact Z|]. split; [split; [exact Fz|reflexivity]|]. unfold within. destruct H as [H|H].
  - specialize (Nz H). split; [|left; exact Nz]. rewrite Nz, H. replace (0 - 0 * 0)%R with 0%R by ring. rewrite Rabs_R0. lra.
  - assert (Q : (/ 2 ^ 200 <= a * a)%R). { rewrite <- inv_pow_sq. replace (a * a)%R with (Rabs a * Rabs a)%R by (rewrite <- Rabs_mult; apply Rabs_pos_eq; nra). destruct inv_pow_mono as (_ & _ & _ & _ & P). apply Rmult_le_compat; lra. }
    destruct inv_pow_mono as (P1 & P2 & P3 & _). rewrite u_52 in Ez. pose proof tiny_pow as T. assert (E : (Rabs (B2R z - a * a) <= 3 * u * (a * a))%R).
    { apply Rle_trans with (1 := Ez). assert (u * / 2 ^ 400 <= u * (a * a))%R by (apply Rmult_le_compat_l; lra). lra. }
    split; [exact E|]. right. assert (Q0 : (0 <= a * a)%R) by lra. destruct (within_range 3 (a * a) (B2R z) E ltac:(lra) Q0). lra.
Qed.
Lemma rn_within x : (x = 0 \/ / 2 ^ 400 <= x)%R -> (Rabs (rn x - x) <= u * x)%R.
Proof.
  intros [-> | H]; [rewrite rn_0, Rminus_0_r, Rabs_R0; lra|]. destruct inv_pow_mono as (_ & _ & P & _). pose proof small_400. rewrite <- (Rabs_pos_eq x) at 3 by lra. apply rn_err. right. rewrite Rabs_pos_eq; lra.
Qed.
(** multiplying by a small whole number *)
Lemma scale_near n x y e s : (1 <= n <= 4)%Z -> val x s -> within e y s -> (0 <= e <= 10)%R -> (0 <= y)%R -> (/ 2 ^ 300 <= s <= 1001000)%R -> exists s2, val (fmul (of_int n) x) s2 /\ within (e + 11 / 10) (IZR n * y) s2 /\ (/ 2 ^ 300 <= s2)%R.
Proof.
  intros Hn V W He Hy Hs. destruct Hn as [n1 n4]. apply IZR_le in n1 as N1, n4 as N4. pose proof (of_int_val n ltac:(lia)) as Vn. destruct inv_pow_mono as (P1 & _ & P2 & _).
  assert (Ns : (s <= IZR n * s <= 4 * 1001000)%R) by (split; [rewrite <- (Rmult_1_l s) at 1; apply Rmult_le_compat_r; lra|apply Rmult_le_compat; lra]).
  assert (V2 := fmul_val _ _ _ _ Vn V ltac:(apply big_ok; rewrite Rabs_pos_eq; lra)). pose proof (rn_within (IZR n * s) ltac:(right; lra)) as E. pose proof u_tiny as U.
  exists (rn (IZR n * s)). split; [exact V2|]. unfold within in *. split.
  - replace (rn (IZR n * s) - IZR n * y)%R with ((rn (IZR n * s) - IZR n * s) + IZR n * (s - y))%R by ring. apply Rle_trans with (1 := Rabs_triang _ _). rewrite (Rabs_mult (IZR n)), (Rabs_pos_eq (IZR n)) by lra.
    destruct (within_range e y s W ltac:(lra) Hy) as [_ W1].
    assert (IZR n * Rabs (s - y) <= IZR n * (e * u * y))%R by (apply Rmult_le_compat_l; lra).
    assert (u * (IZR n * s) <= u * (IZR n * (1001 / 1000 * y)))%R by (apply Rmult_le_compat_l; [lra|]; apply Rmult_le_compat_l; lra).
    assert (0 <= u * (IZR n * y))%R by (apply Rmult_le_pos; [lra|]; apply Rmult_le_pos; lra). lra.
  - assert (F : rn (/ 2 ^ 300) = (/ 2 ^ 300)%R). { apply (val_format (flit 1 (-300)) (/ 2 ^ 300)). change (/ 2 ^ 300)%R with (/ 2 ^ Pos.to_nat 300)%R. rewrite two_pow. replace (bpow radix2 (Zneg 300)) with (1 * bpow radix2 (-300))%R by (rewrite Rmult_1_l; reflexivity). apply flit_val; lia. }
    rewrite <- F. apply rn_le. lra.
Qed.
(** a quotient of near values *)
Lemma quot_near x y a b e f s t : val x s -> val y t -> within e a s -> within f b t -> (0 <= e <= 10)%R -> (0 <= f <= 10)%R -> (0 <= a)%R -> (0 < b)%R -> (s = 0 \/ / 2 ^ 300 <= s)%R -> (/ 2 ^ 300 <= t <= 5000000)%R -> (s / t <= 100000000000000000000000000000000000000000000000000000000000000000000000000000000000000000000000000000000000000000000000000000000000000000000000000000000000000000000000000000000000000000000000000000000)%R ->
  exists q c, fdiv x y = Ok q /\ val q c /\ within (e + f + 12 / 10) (a / b) c /\ (0 <= c)%R.
Proof.
  intros Vx Vy Wx Wy He Hf Ha Hb Hs Ht Hq. destruct inv_pow_mono as (P1 & P2 & P3 & _). assert (t0 : (0 < t)%R) by lra. assert (s0 : (0 <= s)%R) by (destruct Hs as [-> | Hs]; lra).
  assert (q0 : (0 <= s / t)%R) by (apply Rmult_le_pos; [lra|apply Rlt_le, Rinv_0_lt_compat; lra]).
  destruct (fdiv_val x y s t Vx Vy ltac:(lra) ltac:(apply big_ok; rewrite Rabs_pos_eq; lra)) as (q & Q & Vq). exists q, (rn (s / t)). split; [exact Q|]. split; [exact Vq|].
  assert (Hz : (s / t = 0 \/ / 2 ^ 400 <= s / t)%R).
  { destruct Hs as [-> | Hs]; [left; unfold Rdiv; ring|]. right. apply Rmult_le_reg_r with t; [exact t0|]. replace (s / t * t)%R with s by (field; lra). apply Rle_trans with (/ 2 ^ 400 * 5000000)%R; [apply Rmult_le_compat_l; lra|].
    apply Rle_trans with (2 := Hs). change (/ 2 ^ 400)%R with (/ 2 ^ Pos.to_nat 400)%R. change (/ 2 ^ 300)%R with (/ 2 ^ Pos.to_nat 300)%R. rewrite !two_pow. apply Rle_trans with (bpow radix2 (-400) * bpow radix2 30)%R; [apply Rmult_le_compat_l; [apply bpow_ge_0|cbn; lra]|rewrite <- bpow_plus; apply bpow_le; lia]. }
  pose proof (rn_within (s / t) Hz) as E. pose proof u_tiny as U. split; [|rewrite <- rn_0; apply rn_le; lra].
  unfold within in *. set (X := (a / b)%R). assert (X0 : (0 <= X)%R) by (apply Rmult_le_pos; [lra|apply Rlt_le, Rinv_0_lt_compat; lra]). destruct (within_range f b t Wy ltac:(lra) ltac:(lra)) as [b1 b2]. destruct (within_range e a s Wx ltac:(lra) Ha) as [a1 a2].
  assert (D : (Rabs (s / t - X) <= (e + f) * u * (1002 / 1000) * X)%R).
  { unfold X. replace (s / t - a / b)%R with (((s - a) + (a / b) * (b - t)) * / t)%R by (field; lra). rewrite Rabs_mult, (Rabs_pos_eq (/ t)) by (apply Rlt_le, Rinv_0_lt_compat; lra). fold X.
    apply Rmult_le_reg_r with t; [exact t0|]. rewrite Rmult_assoc, Rinv_l, Rmult_1_r by lra. apply Rle_trans with (1 := Rabs_triang _ _). rewrite (Rabs_mult X), (Rabs_pos_eq X), (Rabs_minus_sym b) by lra.
    assert (aX : (a = X * b)%R) by (unfold X; field; lra). assert (X * Rabs (t - b) <= X * (f * u * b))%R by (apply Rmult_le_compat_l; lra).
    apply Rle_trans with ((e + f) * u * (X * b))%R; [rewrite aX in Wx at 2; lra|]. replace ((e + f) * u * (1002 / 1000) * X * t)%R with ((e + f) * u * (X * (1002 / 1000 * t)))%R by ring. apply Rmult_le_compat_l; [apply Rmult_le_pos; lra|]. apply Rmult_le_compat_l; lra. }
  assert (Xb : (Rabs (s / t) <= 1001 / 1000 * X)%R).
  { replace (s / t)%R with ((s / t - X) + X)%R by ring. apply Rle_trans with (1 := Rabs_triang _ _). rewrite (Rabs_pos_eq X) by exact X0. assert ((e + f) * u * (1002 / 1000) * X <= 1 / 1000 * X)%R; [|lra]. apply Rmult_le_compat_r; [exact X0|]. apply Rle_trans with (20 * u * (1002 / 1000))%R; [apply Rmult_le_compat_r; [lra|apply Rmult_le_compat_r; lra]|lra]. }
  rewrite Rabs_pos_eq in Xb by exact q0.
  replace (rn (s / t) - X)%R with ((rn (s / t) - s / t) + (s / t - X))%R by ring. apply Rle_trans with (1 := Rabs_triang _ _). assert (u * (s / t) <= u * (1001 / 1000 * X))%R by (apply Rmult_le_compat_l; lra).
  assert (0 <= u * X)%R by (apply Rmult_le_pos; lra). replace ((e + f + 12 / 10) * u * X)%R with ((e + f) * (u * X) + 12 / 10 * (u * X))%R by ring. replace ((e + f) * u * (1002 / 1000) * X)%R with ((e + f) * (u * X) + (e + f) * (2 / 1000) * (u * X))%R in D by field.
  assert ((e + f) * (2 / 1000) * (u * X) <= 20 * (2 / 1000) * (u * X))%R by (apply Rmult_le_compat_r; lra). lra.
Qed.

Lemma speed_low v : ordinary_vasicek v -> (/ 2 ^ 300 <= va_speed v <= 1000)%R.
Proof. intros (O & _). destruct inv_pow_mono as (P1 & P2 & P3 & P4 & P5). lra. Qed.
Lemma within_refl y : within 0 y y.
Proof. unfold within. rewrite Rminus_diag_eq by reflexivity. rewrite Rabs_R0. lra. Qed.
Lemma exact_fdiv a b : b <> 0%R -> Vasicek.fdiv a b = Ok (a / b)%R.
Proof. intros H. unfold Vasicek.fdiv. destruct (Req_EM_T b 0); [contradiction|reflexivity]. Qed.
Lemma vol_square v : ordinary_vasicek v -> (va_vol v * va_vol v <= 1000000)%R.
Proof. intros O. pose proof (vol_size v O) as H. apply Rabs_le_inv in H. nra. Qed.
Lemma pow_100 : (/ / 2 ^ 100 <= 10000000000000000000000000000000)%R.
Proof. rewrite Rinv_inv. change 2%R with (IZR 2). rewrite (pow_IZR 2 100). apply IZR_le. apply Z.leb_le. vm_compute. reflexivity. Qed.
Lemma inv_speed v : ordinary_vasicek v -> (/ 1000 <= / va_speed v <= 10000000000000000000000000000000)%R.
Proof.
  intros O. pose proof (speed_pos v O). pose proof O as (Ok1 & _). destruct inv_pow_mono as (_ & _ & _ & _ & P). split; [apply Rinv_le_contravar; lra|].
  apply Rle_trans with (/ / 2 ^ 100)%R; [apply Rinv_le_contravar; lra|apply pow_100].
Qed.
(** v ** 2 / (n * speed) *)
Lemma vol_over_speed sq fv v n : (1 <= n <= 4) -> libm_square sq -> same_vasicek fv v -> ordinary_vasicek v -> exists z q c, sq (fva_vol fv) = Ok z /\ fdiv z (fmul (of_int n) (fva_speed fv)) = Ok q /\ val q c /\ within (54 / 10) (va_vol v * va_vol v / (IZR n * va_speed v)) c /\ (0 <= c)%R.
Proof.
  intros Hn L S O. pose proof S as (_ & Sk & Sv & _). fold (val (fva_speed fv) (va_speed v)) in Sk. fold (val (fva_vol fv) (va_vol v)) in Sv. pose proof (speed_pos v O) as k0. pose proof (speed_low v O) as kl. pose proof (vol_square v O) as v2. pose proof (inv_speed v O) as ik. pose proof O as (_ & _ & Ov).
  destruct (square_near sq _ _ L Sv Ov) as (z & s & Z & Vz & Wz & Hz). set (k := va_speed v) in *. set (vv := (va_vol v * va_vol v)%R) in *. assert (vv0 : (0 <= vv)%R) by (unfold vv; apply Rle_0_sqr).
  destruct (scale_near n _ k 0 k Hn Sk (within_refl k) ltac:(lra) ltac:(lra) ltac:(lra)) as (t & Vt & Wt & Ht). apply proj1 in Hn as n1. apply proj2 in Hn as n4. apply IZR_le in n1, n4.
  assert (nk : (k <= IZR n * k <= 4 * k)%R) by (split; [rewrite <- (Rmult_1_l k) at 1; apply Rmult_le_compat_r; lra|apply Rmult_le_compat_r; lra]).
  destruct (within_range _ _ _ Wt ltac:(lra) ltac:(lra)) as [t1 t2]. destruct (within_range _ _ _ Wz ltac:(lra) vv0) as [s1 s2].
  assert (Sq : (s / t <= 10000000000000000000000000000000000000000)%R).
  { apply Rle_trans with (2000000 * (2 * / k))%R; [|lra]. unfold Rdiv. apply Rmult_le_compat; [lra|apply Rlt_le, Rinv_0_lt_compat; lra|lra|]. rewrite <- (Rinv_inv 2), <- Rinv_mult. apply Rinv_le_contravar; lra. }
  destruct (quot_near _ _ _ _ _ _ _ _ Vz Vt Wz Wt ltac:(lra) ltac:(lra) vv0 ltac:(lra) Hz ltac:(lra) ltac:(lra)) as (q & c & Q & Vc & Wc & c0).
  exists z, q, c. split; [exact Z|]. split; [exact Q|]. split; [exact Vc|]. split; [|exact c0]. unfold within in *. apply Rle_trans with (1 := Wc). apply Rmult_le_compat_r; [apply Rmult_le_pos; [lra|apply Rlt_le, Rinv_0_lt_compat; lra]|]. pose proof u_tiny. apply Rmult_le_compat_r; lra.
Qed.

Theorem C113_variance : forall (ex sq : f64 -> res f64) fv v m p, libm_exp ex -> libm_square sq -> same_vasicek fv v -> ordinary_vasicek v -> ordinary_times v m p ->
  match short_rate_variance v m p with
  | Ok y => exists x : f64, f_short_rate_variance ex sq fv m p = Ok x /\ is_finite x = true /\
      (Rabs (B2R x - y) <= va_vol v * va_vol v / (2 * va_speed v) * (4 * va_speed v * slack v m p + 16 * / 2 ^ 53) + / 2 ^ 1000)%R /\
      (forall a : f64, fva_accrual fv m p = Ok a -> 0 <= B2R a -> 0 <= B2R x)%R
  | Err e => f_short_rate_variance ex sq fv m p = Err e end.
Proof.
  intros ex sq fv v m p L Lq S O (O1 & O2 & HA & HR). pose proof (accrual_match fv v m p S O1 O2) as A. pose proof (slack_range v m p O1 O2) as D.
  unfold short_rate_variance, f_short_rate_variance. destruct (va_accrual v m p) as [a|e]; [|rewrite A; reflexivity]. destruct A as (x & af & X & V & B). rewrite X. cbn [bind].
  specialize (HA a eq_refl). assert (Af := af_size a af (slack v m p) HA ltac:(lra) B). destruct (exponent_near fv v x af S O V Af) as (_ & _ & (xv & V1 & E1 & N1)).
  pose proof O as (Ok1 & _). pose proof (speed_pos v O) as k0. pose proof (inv_speed v O) as ik. pose proof (vol_square v O) as v2.
  destruct (vol_over_speed sq fv v 2 ltac:(lia) Lq S O) as (z2 & q2 & c & Z2 & Q2 & Vc & Wc & c0). change (IZR 2) with 2%R in Wc.
  set (k := va_speed v) in *. set (C := (va_vol v * va_vol v / (2 * k))%R) in *.
  destruct (weight_near ex _ xv (2 * k) a af (slack v m p) L V1 ltac:(lra) HA ltac:(lra) B E1) as (z & w & Z & Vw & Ew & Rw & Nw). rewrite Z. cbn [bind]. rewrite Z2. cbn [bind]. rewrite Q2. cbn [bind].
  rewrite exact_fdiv by lra. cbn [bind]. fold C. replace (-2 * k * a)%R with (- (2 * k * a))%R by ring. set (E := exp (- (2 * k * a))) in *.
  destruct (sub_one z w Vw Rw) as (s & Vs & _ & Es & As & Ps).
  assert (C0 : (0 <= C)%R) by (apply Rmult_le_pos; [apply Rle_0_sqr|apply Rlt_le, Rinv_0_lt_compat; lra]).
  assert (C1 : (C <= 10000000000000000000000000000000000000)%R). { unfold C, Rdiv. rewrite Rinv_mult. apply Rle_trans with (1000000 * (/ 2 * 10000000000000000000000000000000))%R; [|lra]. apply Rmult_le_compat; [apply Rle_0_sqr|apply Rmult_le_pos; [lra|lra]|lra|apply Rmult_le_compat_l; lra]. }
  destruct (within_range _ _ _ Wc ltac:(lra) C0) as [c1 c2]. unfold within in Wc. pose proof u_tiny as U. destruct tn_range as (t0 & _). pose proof tn_many.
  destruct (mul_in q2 (fsub (of_int 1) z) c s (11000000000000000000000000000000000000) (1001 / 1000) Vc Vs ltac:(rewrite Rabs_pos_eq; lra) As ltac:(lra)) as [[F2 V2] E2]. eexists. split; [reflexivity|]. split; [exact F2|]. rewrite V2, u_53. split.
  - replace (rn (c * s) - C * (1 - E))%R with ((rn (c * s) - c * s) + (c - C) * s + C * (s - (1 - w)) + C * (E - w) + 0 + 0)%R by ring. apply Rle_trans with (1 := tri6 _ _ _ _ _ _). rewrite !Rabs_R0, !Rabs_mult. rewrite (Rabs_pos_eq C), (Rabs_minus_sym E) by exact C0. rewrite (Rabs_pos_eq c) in E2 by exact c0.
    assert (u * (c * Rabs s) <= u * (1001 / 1000 * C * (1001 / 1000)))%R by (apply Rmult_le_compat_l; [lra|]; apply Rmult_le_compat; [lra|apply Rabs_pos|lra|lra]).
    assert (Rabs (c - C) * Rabs s <= 54 / 10 * u * C * (1001 / 1000))%R by (apply Rmult_le_compat; [apply Rabs_pos|apply Rabs_pos|lra|lra]).
    assert (C * Rabs (s - (1 - w)) <= C * u)%R by (apply Rmult_le_compat_l; lra). assert (C * Rabs (w - E) <= C * (11 / 10 * (2 * k * slack v m p) + 6 * u))%R by (apply Rmult_le_compat_l; lra).
    set (q := (k * slack v m p)%R) in *. replace (4 * k * slack v m p)%R with (4 * q)%R by (unfold q; ring). replace (2 * k * slack v m p)%R with (2 * q)%R in * by (unfold q; ring). assert (q0 : (0 <= q)%R) by (apply Rmult_le_pos; lra).
    assert (0 <= C * q)%R by (apply Rmult_le_pos; lra). assert (0 <= C * u)%R by (apply Rmult_le_pos; lra). lra.
  - intros y Y P. replace y with x in P by congruence. destruct V as [_ V]. rewrite V in P. rewrite <- rn_0. apply rn_le. apply Rmult_le_pos; [exact c0|]. apply Ps, Nw, N1. exact P.
Qed.
Print Assumptions C113_variance.

(** the coefficient of the rate in the bond price, -(1 - exp(-speed * accrual)) / speed *)
Definition coefficient (k a : R) : R := (- (1 - exp (- k * a)) / k)%R.
Lemma coefficient_range k a : (0 < k)%R -> (0 <= a)%R -> (- a <= coefficient k a <= 0)%R /\ (- / k <= coefficient k a)%R.
Proof.
  intros K A. unfold coefficient. replace (- k * a)%R with (- (k * a))%R by ring. assert (0 <= k * a)%R by (apply Rmult_le_pos; lra). destruct (exp_nonpos (k * a) H) as [E0 E1]. pose proof (exp_above (- (k * a))) as E2. set (E := exp (- (k * a))) in *.
  assert (I : (0 < / k)%R) by (apply Rinv_0_lt_compat; lra). unfold Rdiv. split; [split|].
  - apply Rmult_le_reg_r with k; [exact K|]. rewrite Rmult_assoc, Rinv_l, Rmult_1_r by lra. lra.
  - assert (0 <= (1 - E) * / k)%R by (apply Rmult_le_pos; lra). lra.
  - rewrite <- (Rmult_1_l (/ k)) at 1. rewrite <- Ropp_mult_distr_l_reverse. apply Rmult_le_compat_r; lra.
Qed.
Lemma coefficient_near ex fv v m p a x af : libm_exp ex -> same_vasicek fv v -> ordinary_vasicek v -> moment_ok (Stamp (va_purchase v p)) -> moment_ok m -> (0 <= a <= 10000)%R -> val x af -> (Rabs (af - a) <= slack v m p)%R ->
  exists e q c, ex (fmul (Bopp (fva_speed fv)) x) = Ok e /\ fdiv (Bopp (fsub (of_int 1) e)) (fva_speed fv) = Ok q /\ val q c /\ (Rabs (c - coefficient (va_speed v) a) <= 11 / 10 * slack v m p + 83 / 10 * (u * / va_speed v))%R.
Proof.
  intros L S O O1 O2 HA V B. pose proof (slack_range v m p O1 O2) as D. assert (Af := af_size a af (slack v m p) HA ltac:(lra) B). destruct (exponent_near fv v x af S O V Af) as ((xv & V1 & E1 & _) & _).
  pose proof S as (_ & Sk & _). pose proof O as (Ok1 & _). pose proof (speed_pos v O) as k0. pose proof (inv_speed v O) as ik. set (k := va_speed v) in *. fold (val (fva_speed fv) k) in Sk.
  destruct (weight_near ex _ xv k a af (slack v m p) L V1 ltac:(lra) HA ltac:(lra) B E1) as (z & w & Z & Vw & Ew & Rw & _). destruct (sub_one z w Vw Rw) as (s & Vs & _ & Es & As & _).
  unfold coefficient. replace (- k * a)%R with (- (k * a))%R by ring. set (E := exp (- (k * a))) in *.
  assert (Q0 : (Rabs (- s / k) <= 1001 / 1000 * / k)%R). { unfold Rdiv. rewrite Rabs_mult, Rabs_Ropp, (Rabs_pos_eq (/ k)) by lra. apply Rmult_le_compat_r; lra. }
  destruct (fdiv_val _ _ _ _ (val_opp _ _ Vs) Sk ltac:(lra) ltac:(apply big_ok; lra)) as (q & Q & Vq). exists z, q, (rn (- s / k)). split; [exact Z|]. split; [exact Q|]. split; [exact Vq|].
  pose proof (rn_abs (- s / k)) as R1. fold tn in R1. pose proof u_tiny as U. destruct tn_range as (t0 & _ & _ & t2).
  replace (rn (- s / k) - - (1 - E) / k)%R with ((rn (- s / k) - - s / k) + ((1 - w - s) + (w - E)) * / k)%R by (field; lra). apply Rle_trans with (1 := Rabs_triang _ _). rewrite (Rabs_mult (1 - w - s + (w - E))), (Rabs_pos_eq (/ k)) by lra.
  assert (T : (Rabs (1 - w - s + (w - E)) <= 11 / 10 * (k * slack v m p) + 7 * u)%R). { apply Rle_trans with (1 := Rabs_triang _ _). rewrite (Rabs_minus_sym (1 - w)). lra. }
  assert (T2 : (Rabs (1 - w - s + (w - E)) * / k <= (11 / 10 * (k * slack v m p) + 7 * u) * / k)%R) by (apply Rmult_le_compat_r; lra).
  replace ((11 / 10 * (k * slack v m p) + 7 * u) * / k)%R with (11 / 10 * slack v m p + 7 * (u * / k))%R in T2 by (field; lra).
  assert (u * Rabs (- s / k) <= u * (1001 / 1000 * / k))%R by (apply Rmult_le_compat_l; lra). assert (u * / 1000 <= u * / k)%R by (apply Rmult_le_compat_l; lra). assert (0 <= u * / k)%R by (apply Rmult_le_pos; lra). lra.
Qed.

Lemma prod_err x y X Y e1 e2 Bx By : (Rabs (x - X) <= e1)%R -> (Rabs (y - Y) <= e2)%R -> (Rabs y <= By)%R -> (Rabs X <= Bx)%R -> (Rabs (x * y - X * Y) <= e1 * By + Bx * e2)%R.
Proof.
  intros H1 H2 H3 H4. replace (x * y - X * Y)%R with ((x - X) * y + X * (y - Y))%R by ring. apply Rle_trans with (1 := Rabs_triang _ _). rewrite !Rabs_mult.
  assert (Rabs (x - X) * Rabs y <= e1 * By)%R by (apply Rmult_le_compat; auto using Rabs_pos). assert (Rabs X * Rabs (y - Y) <= Bx * e2)%R by (apply Rmult_le_compat; auto using Rabs_pos). lra.
Qed.
Lemma err_size x X e B : (Rabs (x - X) <= e)%R -> (Rabs X <= B)%R -> (Rabs x <= B + e)%R.
Proof. intros H1 H2. replace x with ((x - X) + X)%R by ring. apply Rle_trans with (1 := Rabs_triang _ _). lra. Qed.

Definition convexity (v : vasicek) : R := (va_vol v * va_vol v / (2 * (va_speed v * va_speed v)))%R.
Lemma limit_value sq fv v : libm_square sq -> same_vasicek fv v -> ordinary_vasicek v ->
  exists q l, f_convexity_limit sq (fva_vol fv) (fva_speed fv) = Ok q /\ val q l /\ (Rabs (l - - convexity v) <= 83 / 10 * u * convexity v)%R /\ (0 <= convexity v <= 100000000000000000000000000000000000000000000000000000000000000000000)%R.
Proof.
  intros L S O. pose proof S as (_ & Sk & Sv & _). fold (val (fva_speed fv) (va_speed v)) in Sk. fold (val (fva_vol fv) (va_vol v)) in Sv. pose proof (speed_pos v O) as k0. pose proof (vol_square v O) as v2. pose proof (inv_speed v O) as ik. pose proof O as (Ok1 & _ & Ov).
  destruct (square_near sq _ _ L Sv Ov) as (z & s & Z & Vz & Wz & Hz). unfold convexity. set (k := va_speed v) in *. set (vv := (va_vol v * va_vol v)%R) in *. assert (vv0 : (0 <= vv)%R) by (unfold vv; apply Rle_0_sqr).
  destruct (square_near sq _ k L Sk ltac:(right; rewrite Rabs_pos_eq; lra)) as (zk & t0 & Zk & Vk & Wk & Hk).
  assert (kk : (0 < k * k <= 1000000)%R) by (split; [apply Rmult_lt_0_compat; lra|nra]). destruct (within_range _ _ _ Wk ltac:(lra) ltac:(lra)) as [a1 a2].
  assert (Ht0 : (/ 2 ^ 300 <= t0 <= 1001000)%R) by (destruct Hk as [Hk|Hk]; lra).
  destruct (scale_near 2 zk (k * k) 3 t0 ltac:(lia) Vk Wk ltac:(lra) ltac:(lra) Ht0) as (t & Vt & Wt & Ht). change (IZR 2) with 2%R in Wt.
  destruct (within_range _ _ _ Wt ltac:(lra) ltac:(lra)) as [t1 t2]. destruct (within_range _ _ _ Wz ltac:(lra) vv0) as [s1 s2].
  assert (ikk : (0 < / (k * k) <= 100000000000000000000000000000000000000000000000000000000000000)%R). { split; [apply Rinv_0_lt_compat; lra|]. rewrite Rinv_mult. apply Rle_trans with (10000000000000000000000000000000 * 10000000000000000000000000000000)%R; [apply Rmult_le_compat; lra|lra]. }
  assert (Sq : (s / t <= 10000000000000000000000000000000000000000000000000000000000000000000000)%R).
  { apply Rle_trans with (2000000 * (/ (k * k)))%R; [|lra]. unfold Rdiv. apply Rmult_le_compat; [lra|apply Rlt_le, Rinv_0_lt_compat; lra|lra|]. apply Rinv_le_contravar; lra. }
  destruct (quot_near _ _ _ _ _ _ _ _ Vz Vt Wz Wt ltac:(lra) ltac:(lra) vv0 ltac:(lra) Hz ltac:(lra) ltac:(lra)) as (q & c & Q & Vc & Wc & c0).
  assert (Bq : (Rabs (s / t) <= big)%R) by (apply big_ok; rewrite Rabs_pos_eq; [lra|]; apply Rmult_le_pos; [lra|apply Rlt_le, Rinv_0_lt_compat; lra]).
  destruct (fdiv_val _ _ _ _ Vz Vt ltac:(lra) Bq) as (q' & Q' & Vq'). assert (c = rn (s / t)) by (destruct Vc as [_ <-], Vq' as [_ <-]; congruence).
  destruct (fdiv_val _ _ _ _ (val_opp _ _ Vz) Vt ltac:(lra) ltac:(replace (- s / t)%R with (- (s / t))%R by (unfold Rdiv; ring); rewrite Rabs_Ropp; exact Bq)) as (q2 & Q2 & Vq2).
  unfold f_convexity_limit. rewrite Z. cbn [bind]. rewrite Zk. cbn [bind]. rewrite Q2. exists q2.
  assert (E2 : rn (- s / t) = (- c)%R) by (rewrite H, <- rn_opp; f_equal; unfold Rdiv; ring). rewrite E2 in Vq2. exists (- c)%R. split; [reflexivity|]. split; [exact Vq2|].
  split.
  - replace (- c - - (vv / (2 * (k * k))))%R with (- (c - vv / (2 * (k * k))))%R by ring. rewrite Rabs_Ropp. unfold within in Wc. replace (83 / 10)%R with (3 + (3 + 11 / 10) + 12 / 10)%R by field. exact Wc.
  - unfold Rdiv. rewrite (Rinv_mult 2). split; [apply Rmult_le_pos; lra|]. apply Rle_trans with (1000000 * (/ 2 * 100000000000000000000000000000000000000000000000000000000000000))%R; [|lra]. apply Rmult_le_compat; lra.
Qed.
Lemma limit_near sq fv v : libm_square sq -> same_vasicek fv v -> ordinary_vasicek v -> f_convexity_limit sq (fva_vol fv) (fva_speed fv) = Ok (fva_limit fv) ->
  exists l, val (fva_limit fv) l /\ (Rabs (l - - convexity v) <= 83 / 10 * u * convexity v)%R /\ (0 <= convexity v <= 100000000000000000000000000000000000000000000000000000000000000000000)%R.
Proof. intros L S O E. destruct (limit_value sq fv v L S O) as (q & l & Q & R). assert (q = fva_limit fv) by congruence. subst q. eauto. Qed.
(** the scale of the error: the accrual's, and a rounding relative to 1 / speed and to the accrual *)
Definition price_slack (v : vasicek) (m : moment) (p : option datetime) (a : R) : R := (slack v m p + / 2 ^ 53 * / va_speed v + / 2 ^ 53 * a)%R.

Theorem C113_coefficients : forall (ex sq : f64 -> res f64) fv v m p, libm_exp ex -> libm_square sq -> same_vasicek fv v -> ordinary_vasicek v -> ordinary_times v m p ->
  constructed v -> f_convexity_limit sq (fva_vol fv) (fva_speed fv) = Ok (fva_limit fv) ->
  match price_coeffs v m p, va_accrual v m p with
  | Ok (i, c), Ok a => exists fi fc : f64, f_price_coeffs ex sq fv m p = Ok (fi, fc) /\ is_finite fi = true /\ is_finite fc = true /\
      (Rabs (B2R fc - c) <= 9 * price_slack v m p a)%R /\ (Rabs (B2R fi - i) <= 36 * price_slack v m p a * (Rabs (va_mean v) + convexity v) + / 2 ^ 1000)%R
  | Err e, _ => f_price_coeffs ex sq fv m p = Err e
  | _, _ => False end.
Proof.
  intros ex sq fv v m p L Lq S O (O1 & O2 & HA & HR) Cv FL. pose proof (accrual_match fv v m p S O1 O2) as A. pose proof (slack_range v m p O1 O2) as D. 
  destruct (va_accrual v m p) as [a|e] eqn:EA; [|unfold price_coeffs, f_price_coeffs; rewrite A, EA; reflexivity]. destruct A as (x & af & X & V & B).
  rewrite (price_coeffs_value v m p a Cv EA). specialize (HA a eq_refl). pose proof u_tiny as U. destruct tn_range as (t0 & _ & t1 & t2). pose proof tn_many as TM.
  destruct (limit_near sq fv v Lq S O FL) as (l & Vl & El & RL). destruct (coefficient_near ex fv v m p a x af L S O O1 O2 HA V B) as (z & qc & c & Z & Qc & Vc & Ec).
  destruct (vol_over_speed sq fv v 4 ltac:(lia) Lq S O) as (z4 & q4 & c4 & Z4 & Q4 & V4 & W4 & c40). change (IZR 4) with 4%R in W4.
  pose proof S as (Sm & Sk & Sv & _). pose proof O as (Ok1 & Om & _). pose proof (speed_pos v O) as k0. pose proof (inv_speed v O) as ik. destruct (coefficient_range (va_speed v) a k0 ltac:(lra)) as [Rc Rc2].
  unfold f_price_coeffs. rewrite X. cbn [bind]. rewrite Z. cbn [bind]. rewrite Qc. cbn [bind]. rewrite Z4. cbn [bind]. rewrite Q4. cbn [bind].
  unfold price_slack. rewrite u_53. set (Lc := convexity v) in *. change (coefB (va_speed v) a) with (coefficient (va_speed v) a).
  assert (EAv : coefA (va_mean v) (va_speed v) (va_vol v) a = (- ((va_mean v - Lc) * (coefficient (va_speed v) a + a)) - va_vol v * va_vol v / (4 * va_speed v) * (coefficient (va_speed v) a * coefficient (va_speed v) a))%R).
  { unfold coefA. change (coefB (va_speed v) a) with (coefficient (va_speed v) a). unfold Lc, convexity. field. lra. }
  rewrite EAv. clear EAv. assert (K4v : (va_vol v * va_vol v / (4 * va_speed v) = Lc * va_speed v / 2)%R) by (unfold Lc, convexity; field; lra). rewrite K4v in *. clear K4v.
  set (k := va_speed v) in *. set (mu := va_mean v) in *. fold (val (fva_mean fv) mu) in Sm. set (cc := coefficient k a) in *. set (de := slack v m p) in *. set (ik' := (/ k)%R) in *. 
  assert (kik : (k * ik' = 1)%R) by (unfold ik'; apply Rinv_r; lra). pose proof (Rabs_pos mu) as m0.
  set (M := (Rabs mu + Lc)%R) in *. set (D' := (de + u * ik' + u * a)%R) in *.
  assert (ui : (0 <= u * ik')%R) by (apply Rmult_le_pos; lra). assert (ua : (0 <= u * a)%R) by (apply Rmult_le_pos; lra).
  assert (D0 : (0 < D')%R) by (unfold D'; lra). assert (M0 : (0 <= M)%R) by (unfold M; lra).
  assert (uik : (u * ik' <= 1 / 1000000000000 * 10000000000000000000000000000000)%R) by (apply Rmult_le_compat; lra). assert (uaa : (u * a <= 1 / 1000000000000 * 10000)%R) by (apply Rmult_le_compat; lra).
  assert (Dl : (D' <= 100000000000000000000)%R) by (unfold D'; lra).
  assert (Dk : (D' <= 2 / 100000 * ik')%R).
  { unfold D'. assert (de <= / 1000000 * ik')%R by lra. assert (u * ik' <= 1 / 1000000000000 * ik')%R by (apply Rmult_le_compat_r; lra). assert (u * a <= 1 / 100000 * ik')%R by lra. lra. }
  assert (DD : (0 <= M * D')%R) by (apply Rmult_le_pos; lra). assert (LM : (0 <= Lc * D' <= M * D')%R) by (split; [apply Rmult_le_pos; lra|apply Rmult_le_compat_r; unfold M; lra]).
  assert (MD1 : (M * (u * a) <= M * D')%R) by (apply Rmult_le_compat_l; unfold D'; lra). assert (MD2 : (Lc * (u * ik') <= Lc * D')%R) by (apply Rmult_le_compat_l; unfold D'; lra).
  assert (Ml : (M <= 1000000000000000000000000000000000000000000000000000000000000000000000)%R) by (unfold M; lra).
  assert (uM : (0 <= u * M <= 1 / 1000000000000 * M)%R) by (split; [apply Rmult_le_pos; lra|apply Rmult_le_compat_r; lra]). assert (uMD : (u * (M * D') <= 1 / 1000000000000 * (M * D'))%R) by (apply Rmult_le_compat_r; lra).
  assert (uLD : (u * (Lc * D') <= 1 / 1000000000000 * (Lc * D'))%R) by (apply Rmult_le_compat_r; lra).
  (* the coefficient *)
  assert (Ec' : (Rabs (c - cc) <= 83 / 10 * D')%R) by (unfold D'; lra). assert (Ac : (Rabs cc <= ik')%R) by (apply Rabs_le; lra). pose proof (err_size _ _ _ _ Ec' Ac) as Acf. 
  (* mean + limit *)
  assert (Ul : (Rabs l <= 101 / 100 * Lc)%R). { pose proof (err_size l (- Lc) _ Lc El ltac:(rewrite Rabs_Ropp, Rabs_pos_eq; lra)). assert (83 / 10 * u * Lc <= / 100 * Lc)%R by (apply Rmult_le_compat_r; lra). lra. }
  assert (B1 : (Rabs (mu + l) <= 101 / 100 * M)%R) by (apply Rle_trans with (1 := Rabs_triang _ _); unfold M; lra).
  pose proof (fadd_val _ _ _ _ Sm Vl ltac:(apply big_ok; lra)) as Vs1. pose proof (rn_plus_err _ _ _ _ Sm Vl) as Es1. set (s1 := rn (mu + l)) in *.
  assert (UM1 : (u * Rabs (mu + l) <= u * (101 / 100 * M))%R) by (apply Rmult_le_compat_l; lra). assert (UL1 : (u * Lc <= u * M)%R) by (apply Rmult_le_compat_l; [lra|unfold M; lra]).
  assert (Es1' : (Rabs (s1 - (mu - Lc)) <= 94 / 10 * (u * M))%R). { replace (s1 - (mu - Lc))%R with ((s1 - (mu + l)) + (l - - Lc))%R by ring. apply Rle_trans with (1 := Rabs_triang _ _). lra. }
  assert (AM : (Rabs (mu - Lc) <= M)%R). { unfold Rminus. apply Rle_trans with (1 := Rabs_triang _ _). rewrite Rabs_Ropp, (Rabs_pos_eq Lc) by lra. unfold M. lra. }
  pose proof (err_size _ _ _ _ Es1' AM) as As1.
  (* coefficient + accrual *)
  assert (B2 : (Rabs (c + af - (cc + a)) <= 21 / 10 * de + 83 / 10 * (u * ik'))%R). { replace (c + af - (cc + a))%R with ((c - cc) + (af - a))%R by ring. apply Rle_trans with (1 := Rabs_triang _ _). lra. }
  assert (AS2 : (Rabs (cc + a) <= a)%R) by (apply Rabs_le; lra). pose proof (err_size _ _ _ _ B2 AS2) as B3.
  pose proof (fadd_val _ _ _ _ Vc V ltac:(apply big_ok; lra)) as Vs2. pose proof (rn_plus_err _ _ _ _ Vc V) as Es2. set (s2 := rn (c + af)) in *.
  assert (UB3 : (u * Rabs (c + af) <= u * (a + (21 / 10 * de + 83 / 10 * (u * ik'))))%R) by (apply Rmult_le_compat_l; lra).
  assert (ude : (u * de <= 1 / 1000000000000 * de)%R) by (apply Rmult_le_compat_r; lra). assert (uui : (u * (u * ik') <= 1 / 1000000000000 * (u * ik'))%R) by (apply Rmult_le_compat_r; lra).
  assert (Es2' : (Rabs (s2 - (cc + a)) <= 84 / 10 * D')%R). { replace (s2 - (cc + a))%R with ((s2 - (c + af)) + (c + af - (cc + a)))%R by ring. apply Rle_trans with (1 := Rabs_triang _ _). unfold D'. lra. }
  pose proof (err_size _ _ _ _ Es2' AS2) as As2.
  (* term1 *)
  destruct (mul_in _ _ _ _ (10000000000000000000000000000000000000000000000000000000000000000000000) 10000000000000000000000000 Vs1 Vs2 ltac:(lra) ltac:(lra) ltac:(lra)) as [Vt1 Et1].
  pose proof (prod_err _ _ _ _ _ _ _ _ Es1' Es2' As2 AM) as Pt1. set (T1 := rn (s1 * s2)) in *.
  assert (Ss : (Rabs s1 * Rabs s2 <= (101 / 100 * M) * (a + 84 / 10 * D'))%R) by (apply Rmult_le_compat; auto using Rabs_pos; lra).
  assert (USs : (u * (Rabs s1 * Rabs s2) <= u * ((101 / 100 * M) * (a + 84 / 10 * D')))%R) by (apply Rmult_le_compat_l; lra).
  assert (FT1 : (Rabs (T1 - (mu - Lc) * (cc + a)) <= 19 * (M * D') + tn)%R). { replace (T1 - (mu - Lc) * (cc + a))%R with ((T1 - s1 * s2) + (s1 * s2 - (mu - Lc) * (cc + a)))%R by ring. apply Rle_trans with (1 := Rabs_triang _ _). lra. }
  assert (AT1 : (Rabs ((mu - Lc) * (cc + a)) <= M * a)%R) by (rewrite Rabs_mult; apply Rmult_le_compat; auto using Rabs_pos).
  (* coefficient squared *)
  destruct Vc as [Fc Bc]. destruct (Lq qc Fc) as (z2 & Z2 & Fz2 & Pz2 & _ & Ez2). { rewrite Bc. apply Rle_trans with (20000000000000000000000000000000)%R; [lra|]. change 2%R with (IZR 2). rewrite (pow_IZR 2 200). apply IZR_le. apply Z.leb_le. vm_compute. reflexivity. }
  rewrite Z2. cbn [bind]. rewrite Bc, u_52 in Ez2. set (c2 := B2R z2) in *. assert (V2 : val z2 c2) by (split; [exact Fz2|reflexivity]).
  assert (Ac2 : (Rabs c <= 1001 / 1000 * ik')%R) by lra.
  pose proof (prod_err _ _ _ _ _ _ _ _ Ec' Ec' Ac2 Ac) as Pc. assert (cq : (0 <= c * c <= (1001 / 1000 * ik') * (1001 / 1000 * ik'))%R). { split; [apply Rle_0_sqr|]. rewrite <- (Rabs_pos_eq (c * c)) by apply Rle_0_sqr. rewrite Rabs_mult. apply Rmult_le_compat; auto using Rabs_pos. }
  assert (Uc : (u * (c * c) <= u * ((1001 / 1000 * ik') * (1001 / 1000 * ik')))%R) by (apply Rmult_le_compat_l; lra).
  assert (Di : (u * ik' * ik' <= D' * ik')%R) by (apply Rmult_le_compat_r; unfold D'; lra).
  assert (ii : (/ 1000000 <= ik' * ik')%R) by (apply Rle_trans with (/ 1000 * / 1000)%R; [lra|apply Rmult_le_compat; lra]).
  assert (Ti : (u * / 1000000 <= u * (ik' * ik'))%R) by (apply Rmult_le_compat_l; lra).
  assert (Ec2 : (Rabs (c2 - cc * cc) <= 20 * (D' * ik'))%R). { replace (c2 - cc * cc)%R with ((c2 - c * c) + (c * c - cc * cc))%R by ring. apply Rle_trans with (1 := Rabs_triang _ _). lra. }
  assert (Dii : (D' * ik' <= 2 / 100000 * ik' * ik')%R) by (apply Rmult_le_compat_r; lra).
  assert (Acq : (Rabs (cc * cc) <= ik' * ik')%R) by (rewrite Rabs_mult; apply Rmult_le_compat; auto using Rabs_pos). pose proof (err_size _ _ _ _ Ec2 Acq) as Ac2'.
  (* term2 *)
  set (K4 := (Lc * k / 2)%R) in *. assert (K40 : (0 <= K4)%R) by (unfold K4; apply Rmult_le_pos; [apply Rmult_le_pos; lra|lra]). destruct (within_range _ _ _ W4 ltac:(lra) K40) as [d1 d2]. unfold within in W4.
  assert (K4i : (K4 * ik' = Lc / 2)%R) by (unfold K4; replace (Lc * k / 2 * ik')%R with (Lc * (k * ik') / 2)%R by field; rewrite kik; field).
  assert (K4l : (K4 <= 1000000000000000000000000000000000000000000000000000000000000000000000000)%R). { unfold K4. assert (Lc * k <= 100000000000000000000000000000000000000000000000000000000000000000000 * 1000)%R by (apply Rmult_le_compat; lra). lra. }
  assert (il : (ik' * ik' <= 100000000000000000000000000000000000000000000000000000000000000)%R) by (apply Rle_trans with (10000000000000000000000000000000 * 10000000000000000000000000000000)%R; [apply Rmult_le_compat; lra|lra]).
  destruct (mul_in _ _ _ _ (10000000000000000000000000000000000000000000000000000000000000000000000000) (1000000000000000000000000000000000000000000000000000000000000000) V4 V2 ltac:(rewrite Rabs_pos_eq; lra) ltac:(lra) ltac:(lra)) as [Vt2 Et2].
  pose proof (prod_err c4 c2 K4 (cc * cc) _ _ K4 (1002 / 1000 * (ik' * ik')) W4 Ec2 ltac:(lra) ltac:(rewrite Rabs_pos_eq; lra)) as Pt2. set (T2 := rn (c4 * c2)) in *.
  assert (Sc : (Rabs c4 * Rabs c2 <= (1001 / 1000 * K4) * (1002 / 1000 * (ik' * ik')))%R) by (apply Rmult_le_compat; auto using Rabs_pos; [rewrite Rabs_pos_eq; lra|lra]).
  assert (USc : (u * (Rabs c4 * Rabs c2) <= u * ((1001 / 1000 * K4) * (1002 / 1000 * (ik' * ik'))))%R) by (apply Rmult_le_compat_l; lra).
  replace (u * ((1001 / 1000 * K4) * (1002 / 1000 * (ik' * ik'))))%R with (1001 / 1000 * (1002 / 1000) * (K4 * ik') * (u * ik'))%R in USc by field. rewrite K4i in USc.
  replace (54 / 10 * u * K4 * (1002 / 1000 * (ik' * ik')) + K4 * (20 * (D' * ik')))%R with (54 / 10 * (1002 / 1000) * (K4 * ik') * (u * ik') + 20 * (K4 * ik') * D')%R in Pt2 by field. rewrite K4i in Pt2.
  assert (FT2 : (Rabs (T2 - K4 * (cc * cc)) <= 133 / 10 * (Lc * D') + tn)%R). { replace (T2 - K4 * (cc * cc))%R with ((T2 - c4 * c2) + (c4 * c2 - K4 * (cc * cc)))%R by ring. apply Rle_trans with (1 := Rabs_triang _ _). lra. }
  assert (AT2 : (Rabs (K4 * (cc * cc)) <= Lc / 2 * ik')%R). { rewrite Rabs_mult, (Rabs_pos_eq K4) by exact K40. apply Rle_trans with (K4 * (ik' * ik'))%R; [apply Rmult_le_compat_l; lra|]. rewrite <- Rmult_assoc, K4i. lra. }
  pose proof (err_size _ _ _ _ FT1 AT1) as B4. pose proof (err_size _ _ _ _ FT2 AT2) as B5.
  (* their sum *)
  assert (Lik : (Lc / 2 * ik' <= 100000000000000000000000000000000000000000000000000000000000000000000 * 10000000000000000000000000000000)%R) by (apply Rmult_le_compat; lra).
  assert (Mal : (M * a <= 1000000000000000000000000000000000000000000000000000000000000000000000 * 10000)%R) by (apply Rmult_le_compat; lra). assert (MDl : (M * D' <= 1000000000000000000000000000000000000000000000000000000000000000000000 * 100000000000000000000)%R) by (apply Rmult_le_compat; lra).
  assert (B6 : (Rabs (- T1 - T2) <= M * a + Lc / 2 * ik' + 33 * (M * D') + 2 * tn)%R). { unfold Rminus. apply Rle_trans with (1 := Rabs_triang _ _). rewrite !Rabs_Ropp. lra. }
  pose proof (fsub_val _ _ _ _ (val_opp _ _ Vt1) Vt2 ltac:(apply big_ok; lra)) as [Fi Vi]. pose proof (rn_minus_err _ _ _ _ (val_opp _ _ Vt1) Vt2) as Ei.
  eexists _, _. split; [reflexivity|]. split; [exact Fi|]. split; [exact Fc|]. rewrite Bc, Vi. split; [lra|].
  assert (UB6 : (u * Rabs (- T1 - T2) <= u * (M * a + Lc / 2 * ik' + 33 * (M * D') + 2 * tn))%R) by (apply Rmult_le_compat_l; lra).
  assert (utn : (u * tn <= 1 * tn)%R) by (apply Rmult_le_compat_r; lra).
  replace (rn (- T1 - T2) - (- ((mu - Lc) * (cc + a)) - K4 * (cc * cc)))%R with ((rn (- T1 - T2) - (- T1 - T2)) + - (T1 - (mu - Lc) * (cc + a)) + - (T2 - K4 * (cc * cc)) + 0 + 0 + 0)%R by ring.
  apply Rle_trans with (1 := tri6 _ _ _ _ _ _). rewrite !Rabs_R0, !Rabs_Ropp. replace (36 * D' * M)%R with (36 * (M * D'))%R by ring. lra.
Qed.
Print Assumptions C113_coefficients.

Lemma coefA_size v a : constructed v -> ordinary_vasicek v -> (0 <= a)%R -> (Rabs (coefA (va_mean v) (va_speed v) (va_vol v) a) <= (Rabs (va_mean v) + convexity v) * a + convexity v / 2 * / va_speed v)%R.
Proof.
  intros Cv O A. pose proof (speed_pos v O) as k0. destruct (coefficient_range (va_speed v) a k0 A) as [R1 R2]. unfold coefA. change (coefB (va_speed v) a) with (coefficient (va_speed v) a). set (c := coefficient (va_speed v) a) in *. set (k := va_speed v) in *.
  replace (va_mean v + - va_vol v * va_vol v / (2 * (k * k)))%R with (va_mean v - convexity v)%R by (unfold convexity; fold k; field; lra). replace (va_vol v * va_vol v / (4 * k))%R with (convexity v * k / 2)%R by (unfold convexity; fold k; field; lra).
  assert (C0 : (0 <= convexity v)%R) by (unfold convexity; fold k; apply Rmult_le_pos; [apply Rle_0_sqr|apply Rlt_le, Rinv_0_lt_compat; apply Rmult_lt_0_compat; [lra|apply Rmult_lt_0_compat; lra]]).
  assert (I : (0 < / k)%R) by (apply Rinv_0_lt_compat; lra). unfold Rminus at 1. apply Rle_trans with (1 := Rabs_triang _ _). rewrite !Rabs_Ropp, !Rabs_mult. apply Rplus_le_compat.
  - apply Rmult_le_compat; [apply Rabs_pos|apply Rabs_pos| |apply Rabs_le; lra]. unfold Rminus. apply Rle_trans with (1 := Rabs_triang _ _). rewrite Rabs_Ropp, (Rabs_pos_eq (convexity v)) by exact C0. lra.
  - rewrite (Rabs_pos_eq (convexity v * k / 2)) by (apply Rmult_le_pos; [apply Rmult_le_pos; lra|lra]). assert (Ac : (Rabs c <= / k)%R) by (apply Rabs_le; lra).
    assert (Rabs c * Rabs c <= / k * / k)%R by (apply Rmult_le_compat; auto using Rabs_pos). apply Rle_trans with (convexity v * k / 2 * (/ k * / k))%R; [apply Rmult_le_compat_l; [apply Rmult_le_pos; [apply Rmult_le_pos; lra|lra]|exact H]|right; field; lra].
Qed.
Lemma tiny_u : (/ 2 ^ 1000 <= / 1000 * u)%R.
Proof.
  change (/ 2 ^ 1000)%R with (/ 2 ^ Pos.to_nat 1000)%R. rewrite two_pow. unfold u. apply Rle_trans with (bpow radix2 (-10) * bpow radix2 (-53))%R; [rewrite <- bpow_plus; apply bpow_le; lia|]. apply Rmult_le_compat_r; [apply bpow_ge_0|]. change (bpow radix2 (-10)) with (/ 1024)%R. lra.
Qed.
Lemma two_le_exp n : (2 ^ n <= exp (INR n))%R.
Proof.
  induction n as [|n IH]; [cbn; rewrite exp_0; lra|]. rewrite S_INR, exp_plus. cbn [pow]. rewrite (Rmult_comm 2). pose proof (exp_above 1). apply Rmult_le_compat; [apply pow_le; lra|lra|exact IH|lra].
Qed.
Lemma exp_range y : (/ 2 ^ 400 <= exp y <= 2 ^ 400)%R -> (Rabs y <= 400)%R.
Proof.
  intros [H1 H2]. pose proof (two_le_exp 400) as E. replace (INR 400) with 400%R in E by (rewrite INR_IZR_INZ; reflexivity). pose proof (pow_lt 2 400 ltac:(lra)) as P. apply Rabs_le. split.
  - destruct (Rle_or_lt (- (400)) y) as [L|L]; [exact L|]. exfalso. assert (exp y < / 2 ^ 400)%R; [|lra]. apply Rlt_le_trans with (exp (- (400))); [apply exp_increasing; exact L|]. rewrite exp_Ropp. apply Rinv_le_contravar; assumption.
  - destruct (Rle_or_lt y 400) as [L|L]; [exact L|]. exfalso. apply exp_increasing in L. lra.
Qed.

Theorem C113_price : forall (ex sq : f64 -> res f64) fv v m p, libm_exp ex -> libm_square sq -> same_vasicek fv v -> same_rate fv v p -> ordinary_vasicek v -> ordinary_times v m None ->
  constructed v -> f_convexity_limit sq (fva_vol fv) (fva_speed fv) = Ok (fva_limit fv) ->
  match zero_coupon_bond_price v m p, va_accrual v m None, va_rate v p with
  | Ok P, Ok a, Ok r => forall N, N = (price_slack v m None a * (Rabs (va_mean v) + convexity v + Rabs r))%R -> (Rabs r <= 1000)%R -> (40 * N <= 1 / 5)%R -> (/ 2 ^ 400 <= P <= 2 ^ 400)%R ->
      exists x : f64, f_zero_coupon_bond_price ex sq fv m p = Ok x /\ is_finite x = true /\ (Rabs (B2R x - P) <= (54 * N + 5 * / 2 ^ 53) * P)%R
  | Err e, _, _ => f_zero_coupon_bond_price ex sq fv m p = Err e
  | _, _, _ => False end.
Proof.
  intros ex sq fv v m p L Lq S SR O T Cv FL. pose proof (C113_coefficients ex sq fv v m None L Lq S O T Cv FL) as C. pose proof (rate_match fv v p S SR) as R. pose proof T as (O1 & O2 & HA & _). pose proof (slack_range v m None O1 O2) as D.
  unfold zero_coupon_bond_price, f_zero_coupon_bond_price. destruct (va_accrual v m None) as [a|e] eqn:EA.
  2:{ destruct (price_coeffs v m None) as [[i c]|e'] eqn:EP; [contradiction|]. cbn [bind]. rewrite C. reflexivity. }
  rewrite (price_coeffs_value v m None a Cv EA) in *. destruct C as (fi & fc & EC & Fi & Fc & Nc & Ni). cbn [bind fst snd]. rewrite EC. cbn [bind fst snd].
  destruct (va_rate v p) as [r|e]; [|cbn [bind]; rewrite R; reflexivity]. cbn [bind]. destruct R as (rf & Rf & Vr). rewrite Rf. cbn [bind]. intros N EN Hr HN HP. specialize (HA a eq_refl).
  pose proof u_tiny as U. destruct tn_range as (t0 & _ & t1 & t2). pose proof tn_many as TM. pose proof tiny_u as TU. pose proof (coefA_size v a Cv O ltac:(lra)) as SA. pose proof (inv_speed v O) as ik. pose proof (speed_pos v O) as k0. destruct (coefficient_range (va_speed v) a k0 ltac:(lra)) as [Rc Rc2].
  assert (C0 : (0 <= convexity v)%R) by (unfold convexity; apply Rmult_le_pos; [apply Rle_0_sqr|apply Rlt_le, Rinv_0_lt_compat; apply Rmult_lt_0_compat; [lra|apply Rmult_lt_0_compat; lra]]).
  pose proof (Rabs_pos (va_mean v)) as m0. pose proof (Rabs_pos r) as r0. change (coefB (va_speed v) a) with (coefficient (va_speed v) a) in *. set (A := coefA (va_mean v) (va_speed v) (va_vol v) a) in *. set (c := coefficient (va_speed v) a) in *.
  set (M := (Rabs (va_mean v) + convexity v)%R) in *. unfold price_slack in *. rewrite u_53 in *. set (D' := (slack v m None + u * / va_speed v + u * a)%R) in *. set (ik' := (/ va_speed v)%R) in *.
  assert (ui : (0 <= u * ik')%R) by (apply Rmult_le_pos; lra). assert (ua : (0 <= u * a)%R) by (apply Rmult_le_pos; lra). assert (D0 : (0 < D')%R) by (unfold D'; lra). assert (M0 : (0 <= M)%R) by (unfold M; lra).
  assert (MD : (0 <= D' * M)%R) by (apply Rmult_le_pos; lra). assert (RD : (0 <= D' * Rabs r)%R) by (apply Rmult_le_pos; lra). assert (EN' : N = (D' * M + D' * Rabs r)%R) by (rewrite EN; ring).
  assert (uA : (u * Rabs A <= 3 / 2 * (D' * M))%R).
  { apply Rle_trans with (u * (M * a + convexity v / 2 * ik'))%R; [apply Rmult_le_compat_l; lra|]. assert (M * (u * a) <= M * D')%R by (apply Rmult_le_compat_l; unfold D'; lra). assert (convexity v * (u * ik') <= M * D')%R by (apply Rmult_le_compat; unfold M, D'; lra). lra. }
  assert (Vi : val fi (B2R fi)) by (split; [exact Fi|reflexivity]). assert (Vc : val fc (B2R fc)) by (split; [exact Fc|reflexivity]). set (i := B2R fi) in *. set (c1 := B2R fc) in *.
  assert (Ac : (Rabs c <= ik')%R) by (apply Rabs_le; lra). pose proof (err_size _ _ _ _ Nc Ac) as Ac1.
  assert (uik : (u * ik' <= 1 / 1000000000000 * 10000000000000000000000000000000)%R) by (apply Rmult_le_compat; lra). assert (uaa : (u * a <= 1 / 1000000000000 * 10000)%R) by (apply Rmult_le_compat; lra). assert (Dl : (D' <= 100000000000000000000)%R) by (unfold D'; lra).
  destruct (mul_in fc rf c1 r 1000000000000000000000000000000000000000 1000 Vc Vr ltac:(lra) Hr ltac:(lra)) as [Vt Et]. set (t := rn (c1 * r)) in *.
  assert (E1 : (Rabs (c1 * r - c * r) <= 9 * (D' * Rabs r))%R) by (replace (c1 * r - c * r)%R with ((c1 - c) * r)%R by ring; rewrite Rabs_mult; apply Rle_trans with (9 * D' * Rabs r)%R; [apply Rmult_le_compat_r; lra|lra]).
  assert (uc : (u * Rabs c1 <= 101 / 100 * D')%R). { apply Rle_trans with (u * (ik' + 9 * D'))%R; [apply Rmult_le_compat_l; lra|]. assert (u * D' <= 1 / 1000000000000 * D')%R by (apply Rmult_le_compat_r; lra). unfold D' in *. lra. }
  assert (uc2 : (u * (Rabs c1 * Rabs r) <= 101 / 100 * (D' * Rabs r))%R) by (rewrite <- Rmult_assoc, <- (Rmult_assoc (101 / 100)); apply Rmult_le_compat_r; lra).
  assert (Et' : (Rabs (t - c * r) <= 1001 / 100 * (D' * Rabs r) + tn)%R). { replace (t - c * r)%R with ((t - c1 * r) + (c1 * r - c * r))%R by ring. apply Rle_trans with (1 := Rabs_triang _ _). lra. }
  assert (ucr : (u * Rabs (c * r) <= D' * Rabs r)%R). { rewrite Rabs_mult, <- Rmult_assoc. apply Rmult_le_compat_r; [exact r0|]. apply Rle_trans with (u * ik')%R; [apply Rmult_le_compat_l; lra|unfold D'; lra]. }
  set (y := (A + c * r)%R) in *. assert (Ey : (Rabs (i + t - y) <= 36 * (D' * M) + / 2 ^ 1000 + 1001 / 100 * (D' * Rabs r) + tn)%R). { unfold y. replace (i + t - (A + c * r))%R with ((i - A) + (t - c * r))%R by ring. apply Rle_trans with (1 := Rabs_triang _ _). lra. }
  assert (Ay : (Rabs y <= 400)%R) by (apply exp_range; exact HP). pose proof (err_size _ _ _ _ Ey Ay) as Az.
  pose proof (fadd_val _ _ _ _ Vi Vt ltac:(apply big_ok; lra)) as Vz. pose proof (rn_plus_err _ _ _ _ Vi Vt) as Ez. set (z := rn (i + t)) in *.
  assert (Uy : (u * Rabs y <= 3 / 2 * (D' * M) + D' * Rabs r)%R). { apply Rle_trans with (u * (Rabs A + Rabs (c * r)))%R; [apply Rmult_le_compat_l; [lra|unfold y; apply Rabs_triang]|lra]. }
  assert (Uz : (u * Rabs (i + t) <= u * (Rabs y + (36 * (D' * M) + / 2 ^ 1000 + 1001 / 100 * (D' * Rabs r) + tn)))%R) by (apply Rmult_le_compat_l; [lra|]; apply (err_size _ y); [exact Ey|lra]).
  assert (u1 : (u * (D' * M) <= 1 / 1000000000000 * (D' * M))%R) by (apply Rmult_le_compat_r; lra). assert (u2 : (u * (D' * Rabs r) <= 1 / 1000000000000 * (D' * Rabs r))%R) by (apply Rmult_le_compat_r; lra).
  assert (u3 : (u * tn <= 1 * tn)%R) by (apply Rmult_le_compat_r; lra). assert (u4 : (u * / 2 ^ 1000 <= 1 * / 2 ^ 1000)%R) by (apply Rmult_le_compat_r; lra).
  set (d := (z - y)%R). assert (Hd : (Rabs d <= 40 * N + / 100 * u)%R). { unfold d. replace (z - y)%R with ((z - (i + t)) + (i + t - y))%R by ring. apply Rle_trans with (1 := Rabs_triang _ _). rewrite EN'. lra. }
  assert (Ep : (exp z = exp y * exp d)%R) by (rewrite <- exp_plus; f_equal; unfold d; ring). pose proof (exp_one d ltac:(lra)) as E2. pose proof (exp_pos y) as Py.
  destruct Vz as [Fz Bz]. destruct (L _ Fz) as (x & X & Fx & Nx & _). { rewrite Bz. replace z with (d + y)%R by (unfold d; ring). pose proof (Rle_abs d). pose proof (Rle_abs y). lra. }
  exists x. split; [exact X|]. split; [exact Fx|]. rewrite Bz, u_52, Ep in Nx. set (P := exp y) in *.
  assert (E3 : (Rabs (P * exp d - P) <= P * (4 / 3 * (40 * N + / 100 * u)))%R). { replace (P * exp d - P)%R with (P * (exp d - 1))%R by ring. rewrite Rabs_mult, (Rabs_pos_eq P) by lra. apply Rmult_le_compat_l; lra. }
  assert (E4 : (P * exp d <= P * (13 / 10))%R) by (apply Rmult_le_compat_l; [lra|]; apply Rabs_le_inv in E2; lra). assert (E5 : (2 * u * (P * exp d) <= 2 * u * (P * (13 / 10)))%R) by (apply Rmult_le_compat_l; lra).
  pose proof tiny_pow as TP. assert (u * / 2 ^ 400 <= u * P)%R by (apply Rmult_le_compat_l; lra).
  replace (B2R x - P)%R with ((B2R x - P * exp d) + (P * exp d - P))%R by ring. apply Rle_trans with (1 := Rabs_triang _ _). rewrite EN' in *. assert (0 <= u * P)%R by (apply Rmult_le_pos; lra). assert (0 <= P * (D' * M))%R by (apply Rmult_le_pos; lra). assert (0 <= P * (D' * Rabs r))%R by (apply Rmult_le_pos; lra). lra.
Qed.
Print Assumptions C113_price.

(** ---- the contracts are met by the correctly rounded functions ---- *)
Definition rounded_exp (x : f64) : res f64 := Ok (nearest_f64 (exp (B2R x))).
Definition rounded_square (x : f64) : res f64 := Ok (nearest_f64 (B2R x * B2R x)).
Lemma rn_sub x : (Rabs (rn x - x) <= u * Rabs x + / 2 ^ 1074)%R.
Proof.
  destruct (@error_N_FLT radix2 (-1074) 53 prec_gt (fun n => negb (Z.even n)) x) as (eps & eta & H1 & H2 & _ & H4). unfold rn. rewrite fe_FLT, H4.
  replace (x * (1 + eps) + eta - x)%R with (x * eps + eta)%R by ring. apply Rle_trans with (1 := Rabs_triang _ _). rewrite Rabs_mult. apply Rplus_le_compat.
  - rewrite Rmult_comm. apply Rmult_le_compat_r; [apply Rabs_pos|]. apply Rle_trans with (1 := H1). replace u with (/ 2 * bpow radix2 (- 53 + 1))%R; [apply Rle_refl|]. unfold u. replace (/ 2)%R with (bpow radix2 (-1)) by (cbn; lra). rewrite <- bpow_plus. reflexivity.
  - apply Rle_trans with (1 := H2). change (/ 2 ^ 1074)%R with (/ 2 ^ Pos.to_nat 1074)%R. rewrite two_pow. change (bpow radix2 (Zneg 1074)) with (bpow radix2 (-1074)). pose proof (bpow_gt_0 radix2 (-1074)). lra.
Qed.
Lemma pow_two p : (2 ^ Pos.to_nat p = bpow radix2 (Zpos p))%R.
Proof. rewrite <- (Rinv_inv (2 ^ Pos.to_nat p)), two_pow. change (Zpos p) with (- Zneg p). rewrite bpow_opp. reflexivity. Qed.
Lemma exp_big x : (x <= 500)%R -> (Rabs (exp x) <= big)%R.
Proof.
  intros H. rewrite Rabs_pos_eq by apply Rlt_le, exp_pos. apply Rle_trans with (exp 500); [apply exp_le; exact H|].
  assert (G : forall n, (exp (INR n) <= 4 ^ n)%R). { induction n as [|n IH]; [cbn; rewrite exp_0; lra|]. rewrite S_INR, exp_plus. cbn [pow]. rewrite (Rmult_comm 4). pose proof exp_le_3. apply Rmult_le_compat; [apply Rlt_le, exp_pos|apply Rlt_le, exp_pos|exact IH|lra]. }
  specialize (G 500%nat). replace (INR 500) with 500%R in G by (rewrite INR_IZR_INZ; reflexivity). apply Rle_trans with (1 := G). right. replace 4%R with (2 ^ 2)%R by ring. rewrite <- pow_mult. change (2 * 500)%nat with (Pos.to_nat 1000). rewrite pow_two. reflexivity.
Qed.
Lemma rounded_exp_ok : libm_exp rounded_exp.
Proof.
  intros x Fx Hx. exists (nearest_f64 (exp (B2R x))). split; [reflexivity|]. destruct (nearest_f64_val _ (exp_big _ Hx)) as [F V]. split; [exact F|]. rewrite V. split.
  - apply Rle_trans with (1 := rn_sub _). rewrite u_52. pose proof (exp_pos (B2R x)) as P. rewrite Rabs_pos_eq by lra. pose proof u_tiny. assert (0 <= u * exp (B2R x))%R by (apply Rmult_le_pos; lra). lra.
  - intros d Fd. rewrite <- (rn_B2R d) at 2 4. split; intros H; apply rn_le; exact H.
Qed.
Lemma rounded_square_ok : libm_square rounded_square.
Proof.
  intros x Fx Hx. assert (B : (Rabs (B2R x * B2R x) <= big)%R).
  { rewrite Rabs_mult. apply Rle_trans with (2 ^ 200 * 2 ^ 200)%R; [apply Rmult_le_compat; auto using Rabs_pos|]. apply Rle_trans with (bpow radix2 200 * bpow radix2 200)%R; [right|unfold big; rewrite <- bpow_plus; apply bpow_le; lia].
    assert (E : (2 ^ 200 = bpow radix2 200)%R) by (change (2 ^ 200)%R with (2 ^ Pos.to_nat 200)%R; rewrite pow_two; reflexivity). rewrite E. reflexivity. }
  exists (nearest_f64 (B2R x * B2R x)). split; [reflexivity|]. destruct (nearest_f64_val _ B) as [F V]. split; [exact F|]. rewrite V. assert (P : (0 <= B2R x * B2R x)%R) by apply Rle_0_sqr. split; [rewrite <- rn_0; apply rn_le; exact P|]. split.
  - intros ->. rewrite Rmult_0_l. apply rn_0.
  - apply Rle_trans with (1 := rn_sub _). rewrite u_52, (Rabs_pos_eq (B2R x * B2R x)) by exact P. pose proof u_tiny. assert (0 <= u * (B2R x * B2R x))%R by (apply Rmult_le_pos; lra). lra.
Qed.

(** ---- a model started in 2024 ---- *)
Definition f_2024 (mean speed vol limit : f64) : f_vasicek := FVasicek mean speed vol limit (t_day 0) ACT360 (fun _ => Ok (of_int 3)).
Lemma year_later : exists T, compute_accrual_length (Stamp (t_day 0)) (Stamp (t_day 360)) ACT360 = Ok T /\ Q2R T = 1%R.
Proof.
  assert (E : match compute_accrual_length (Stamp (t_day 0)) (Stamp (t_day 360)) ACT360 with Ok z => Qeq_bool z (1 # 1) | Err _ => false end = true) by (vm_compute; reflexivity).
  destruct (compute_accrual_length _ _ _) as [z|]; [|discriminate]. apply Qeq_bool_iff in E. exists z. split; [reflexivity|]. rewrite (Qeq_eqR _ _ E). unfold Q2R. cbn. lra.
Qed.
Lemma day_moment k : 0 <= k <= 400 -> moment_ok (Stamp (t_day k)).
Proof. intros K. unfold moment_ok, datetime_ok, date_ok, t_day, min_date, max_date, us_per_day. cbn [dt_date dt_us]. repeat split; lia. Qed.
Lemma model_2024 (mean speed vol : f64) mu k s : val mean mu -> val speed k -> val vol s -> (/ 2 ^ 100 <= k <= 1000)%R -> (Rabs mu <= 1000)%R -> (s = 0 \/ / 2 ^ 100 <= Rabs s <= 1000)%R ->
  exists fv v, f_convexity_limit rounded_square (fva_vol fv) (fva_speed fv) = Ok (fva_limit fv) /\ fva_mean fv = mean /\ fva_speed fv = speed /\ fva_vol fv = vol /\ va_mean v = mu /\ va_speed v = k /\ va_vol v = s /\
    constructed v /\ same_vasicek fv v /\ same_rate fv v None /\ ordinary_vasicek v /\ ordinary_times v (Stamp (t_day 360)) None /\ va_accrual v (Stamp (t_day 360)) None = Ok 1%R /\ va_rate v None = Ok 3%R.
Proof.
  intros Vm Vk Vs Hk Hm Hs. assert (k0 : k <> 0%R) by (pose proof (pow_lt 2 100 ltac:(lra)) as P; apply Rinv_0_lt_compat in P; lra).
  destruct (new_ok mu k s k0) as [v0 N]. destruct (va_2024 _ _ _ _ start_heap 0 N ltac:(cbn; lia)) as (v & h & _ & E1 & E2 & E3 & E4 & E5 & E6 & E7 & R). destruct (new_vasicek_ok _ _ _ _ _ _ N) as ([L0 K0] & Em & Ek & Es).
  assert (Cv : constructed v) by (split; rewrite ?E1, ?E2, ?E3, ?E4; assumption). rewrite Em in E1. rewrite Ek in E2. rewrite Es in E3.
  assert (O : ordinary_vasicek v) by (unfold ordinary_vasicek; rewrite E1, E2, E3; auto).
  assert (S : forall l, same_vasicek (f_2024 mean speed vol l) v) by (intros l; unfold same_vasicek; rewrite E1, E2, E3, E5, E6; cbn [f_2024 fva_mean fva_speed fva_vol fva_start fva_dcc]; repeat split; try apply Vm; try apply Vk; apply Vs).
  destruct (limit_value rounded_square (f_2024 mean speed vol mean) v rounded_square_ok (S mean) O) as (l & lv & Q & _). exists (f_2024 mean speed vol l), v.
  destruct year_later as (T & HT & VT). assert (A : va_accrual v (Stamp (t_day 360)) None = Ok 1%R) by (unfold va_accrual, va_purchase; rewrite E5, E6, HT; cbn [bind]; rewrite VT; reflexivity).
  change (arr start_heap 0 0%nat) with (fun n : nat => 3%R) in R || idtac. assert (R3 : va_rate v None = Ok 3%R) by exact R.
  split; [exact Q|]. do 3 (split; [reflexivity|]). split; [exact E1|]. split; [exact E2|]. split; [exact E3|]. split; [exact Cv|]. split; [apply S|]. split.
  - unfold same_rate. rewrite R3. exists (of_int 3). split; [reflexivity|]. apply (of_int_val 3). lia.
  - split; [exact O|]. split; [|split; [exact A|exact R3]]. unfold ordinary_times. unfold va_purchase. rewrite E5. split; [apply day_moment; lia|]. split; [apply day_moment; lia|]. rewrite A, R3.
    split; [intros a Ha; injection Ha as <-; lra|intros r Hr; injection Hr as <-; rewrite Rabs_pos_eq; lra].
Qed.

(** an exponential of a tiny number is rounded to 1 *)
Lemma rn_near_one x : (1 - / 2 ^ 54 < x <= 1)%R -> rn x = 1%R.
Proof.
  intros [H1 H2]. assert (R1 : rn 1 = 1%R) by (apply (val_format (of_int 1) 1), (of_int_val 1); lia). pose proof (rn_le x 1 H2) as U. rewrite R1 in U.
  destruct (Rle_or_lt 1 (rn x)) as [L|L]; [lra|]. exfalso.
  assert (F1 : generic_format radix2 FloatFacts.fe 1) by (rewrite <- R1; apply generic_format_round; typeclasses eauto). assert (Fx : generic_format radix2 FloatFacts.fe (rn x)) by (apply generic_format_round; typeclasses eauto).
  pose proof (pred_ge_gt radix2 FloatFacts.fe (rn x) 1 Fx F1 L) as P. change 1%R with (bpow radix2 0) in P at 1. rewrite pred_bpow in P. replace (bpow radix2 0 - bpow radix2 (FloatFacts.fe 0))%R with (1 - / 2 ^ 53)%R in P by (rewrite u_53; reflexivity).
  pose proof (round_N_pt radix2 FloatFacts.fe (fun n => negb (Z.even n)) x) as [_ NP]. specialize (NP 1%R F1). change (round radix2 FloatFacts.fe (Znearest (fun n => negb (Z.even n))) x) with (rn x) in NP.
  rewrite (Rabs_pos_eq (1 - x)) in NP by lra. apply Rabs_le_inv in NP. assert (/ 2 ^ 53 = 2 * / 2 ^ 54)%R by (change (2 ^ 54)%R with (2 * 2 ^ 53)%R; field; apply pow_nonzero; lra). lra.
Qed.

Definition slow : f64 := flit 1 (-60).
Lemma slow_val : val slow (/ 2 ^ 60).
Proof. pose proof (flit_val 1 (-60) ltac:(lia) ltac:(lia)) as V. rewrite Rmult_1_l in V. change (/ 2 ^ 60)%R with (/ 2 ^ Pos.to_nat 60)%R. rewrite two_pow. exact V. Qed.
Lemma slow_range : (/ 2 ^ 100 <= / 2 ^ 60 <= / 1000000000000000)%R /\ (/ 2 ^ 54 = 64 * / 2 ^ 60)%R /\ (0 < / 2 ^ 60)%R.
Proof.
  change (/ 2 ^ 100)%R with (/ 2 ^ Pos.to_nat 100)%R. change (/ 2 ^ 54)%R with (/ 2 ^ Pos.to_nat 54)%R. change (/ 2 ^ 60)%R with (/ 2 ^ Pos.to_nat 60)%R. rewrite !two_pow. split; [split; [apply bpow_le; lia|]|split].
  - apply Rle_trans with (bpow radix2 (-50)); [apply bpow_le; lia|]. change (bpow radix2 (-50)) with (/ 1125899906842624)%R. apply Rinv_le_contravar; lra.
  - replace 64%R with (bpow radix2 6) by reflexivity. rewrite <- bpow_plus. reflexivity.
  - apply bpow_gt_0.
Qed.
Lemma val_0 x a : val x a -> a = 0%R -> val x 0.
Proof. intros V E. rewrite E in V. exact V. Qed.
Lemma mul_0 x y a b : val x a -> val y b -> (a = 0 \/ b = 0)%R -> val (fmul x y) 0.
Proof. intros Vx Vy H. rewrite <- rn_0. assert (E : (a * b = 0)%R) by (destruct H as [-> | ->]; ring). rewrite <- E. apply fmul_val; [exact Vx|exact Vy|]. rewrite E. apply big_ok. rewrite Rabs_R0. lra. Qed.
Lemma add_0 x y : val x 0 -> val y 0 -> val (fadd x y) 0.
Proof. intros Vx Vy. rewrite <- rn_0. replace 0%R with (0 + 0)%R by ring. apply fadd_val; [exact Vx|exact Vy|]. apply big_ok. rewrite Rplus_0_r, Rabs_R0. lra. Qed.
Lemma opp_0 x : val x 0 -> val (Bopp x) 0.
Proof. intros V. rewrite <- Ropp_0. apply val_opp, V. Qed.
Lemma sub_0 x y : val x 0 -> val y 0 -> val (fsub x y) 0.
Proof. intros Vx Vy. rewrite <- rn_0. replace 0%R with (0 - 0)%R by ring. apply fsub_val; [exact Vx|exact Vy|]. apply big_ok. rewrite Rminus_0_r, Rabs_R0. lra. Qed.
Lemma div_0 x y b : val x 0 -> val y b -> b <> 0%R -> exists q, fdiv x y = Ok q /\ val q 0.
Proof. intros Vx Vy N. assert (E : (0 / b = 0)%R) by (unfold Rdiv; ring). destruct (fdiv_val x y 0 b Vx Vy N ltac:(rewrite E; apply big_ok; rewrite Rabs_R0; lra)) as (q & Q & V). exists q. split; [exact Q|]. rewrite E, rn_0 in V. exact V. Qed.
Lemma square_0 x : val x 0 -> exists z, rounded_square x = Ok z /\ val z 0.
Proof. intros [F V]. eexists. split; [reflexivity|]. rewrite V, Rmult_0_l. rewrite <- rn_0 at 2. apply nearest_f64_val. apply big_ok. rewrite Rabs_R0. lra. Qed.
(** every weight is rounded to 1 *)
Lemma slow_weight x xv af (c : R) : val x xv -> (c = 1 \/ c = 2)%R -> (Rabs (af - 1) <= / 1000000000)%R -> (Rabs (xv + c * / 2 ^ 60 * af) <= 3 * u * (c * / 2 ^ 60 * Rabs af) + tn)%R -> (0 <= af -> xv <= 0)%R ->
  exists z, rounded_exp x = Ok z /\ val z 1.
Proof.
  intros [F V] Hc Ha Hx Np. destruct slow_range as ([_ k1] & k2 & k0). set (k := (/ 2 ^ 60)%R) in *. apply Rabs_le_inv in Ha. pose proof u_tiny as U. destruct tn_range as (t0 & _ & _ & t2). rewrite (Rabs_pos_eq af) in Hx by lra. apply Rabs_le_inv in Hx. specialize (Np ltac:(lra)).
  assert (uk : (u = 128 * k)%R) by (rewrite <- u_53; unfold k; change (/ 2 ^ 53)%R with (/ 2 ^ Pos.to_nat 53)%R; change (/ 2 ^ 60)%R with (/ 2 ^ Pos.to_nat 60)%R; rewrite !two_pow; replace 128%R with (bpow radix2 7) by reflexivity; rewrite <- bpow_plus; reflexivity).
  assert (K : (0 <= c * k * af <= 2 * k * 2)%R) by (split; [apply Rmult_le_pos; [apply Rmult_le_pos; lra|lra]|apply Rmult_le_compat; [apply Rmult_le_pos; lra|lra|apply Rmult_le_compat_r; lra|lra]]).
  assert (3 * u * (c * k * af) <= 3 * u * (2 * k * 2))%R by (apply Rmult_le_compat_l; lra). assert (u * k <= 1 / 1000000000000 * k)%R by (apply Rmult_le_compat_r; lra).
  eexists. split; [reflexivity|]. assert (E : rn (exp (B2R x)) = 1%R).
  { apply rn_near_one. rewrite V. split; [|rewrite <- exp_0; apply exp_le; exact Np]. pose proof (exp_above xv). lra. }
  rewrite <- E. apply nearest_f64_val. apply exp_big. lra.
Qed.

(** With a reversion speed of 2^-60, no volatility, mean 0 and a rate of 3, a one year bond is worth at most 1/2 and is priced at 1,
    also when exp and ** are correctly rounded. *)
Theorem C113_slow_price_refuted : exists fv v P, libm_exp rounded_exp /\ libm_square rounded_square /\ same_vasicek fv v /\ same_rate fv v None /\ ordinary_vasicek v /\ ordinary_times v (Stamp (t_day 360)) None /\
  constructed v /\ f_convexity_limit rounded_square (fva_vol fv) (fva_speed fv) = Ok (fva_limit fv) /\ zero_coupon_bond_price v (Stamp (t_day 360)) None = Ok P /\ (0 < P <= 1 / 2)%R /\
  exists x : f64, f_zero_coupon_bond_price rounded_exp rounded_square fv (Stamp (t_day 360)) None = Ok x /\ B2R x = 1%R.
Proof.
  destruct slow_range as ([k2 k1] & _ & k0). pose proof (of_int_val 0 ltac:(lia)) as V0. change (IZR 0) with 0%R in V0.
  destruct (model_2024 (of_int 0) slow (of_int 0) 0 (/ 2 ^ 60) 0 V0 slow_val V0 ltac:(lra) ltac:(rewrite Rabs_R0; lra) ltac:(left; reflexivity)) as (fv & v & FL & F1 & F2 & F3 & E1 & E2 & E3 & Cv & S & SR & O & T & A & R).
  exists fv, v. unfold zero_coupon_bond_price. rewrite (price_coeffs_value v _ None 1 Cv A). cbn [bind fst snd]. rewrite R. cbn [bind]. set (k := (/ 2 ^ 60)%R) in *.
  eexists. split; [exact rounded_exp_ok|]. split; [exact rounded_square_ok|]. do 6 (split; [assumption|]). split; [reflexivity|]. split.
  - rewrite E1, E2, E3. unfold coefA, coefB. set (c := (- (1 - exp (- k * 1)) / k)%R). replace (- ((0 + - 0 * 0 / (2 * (k * k))) * (c + 1)) - 0 * 0 / (4 * k) * (c * c) + c * 3)%R with (- (- c * 3))%R by (field; lra).
    assert (Hc : (c <= - (99 / 100))%R).
    { unfold c. pose proof (exp_upper (- k * 1) ltac:(lra)) as X. assert (/ (1 - - k * 1) <= 1 - 99 / 100 * k)%R.
      { apply Rmult_le_reg_r with (1 + k)%R; [lra|]. replace (/ (1 - - k * 1) * (1 + k))%R with 1%R by (field; lra). assert (0 <= k * (1 / 100 - 99 / 100 * k))%R by (apply Rmult_le_pos; lra). lra. }
      unfold Rdiv. apply Rmult_le_reg_r with k; [lra|]. rewrite Rmult_assoc, Rinv_l by lra. lra. }
    pose proof (exp_above (- c * 3)) as X. pose proof (exp_inv (- c * 3)) as Y. split; [apply exp_pos|]. pose proof (exp_pos (- (- c * 3))) as Z. assert (exp (- (- c * 3)) * 3 <= exp (- c * 3) * exp (- (- c * 3)))%R; [rewrite (Rmult_comm _ 3); apply Rmult_le_compat_r; lra|lra].
  - destruct T as (O1 & O2 & _). pose proof (accrual_match fv v _ None S O1 O2) as AM. rewrite A in AM. destruct AM as (x & af & X & V & B). pose proof (slack_range v _ None O1 O2) as D. pose proof (rate_match fv v None S SR) as RM. rewrite R in RM. destruct RM as (rf & Rf & Vr).
    pose proof S as ((Sm1 & Sm2) & (Sk1 & Sk2) & (Sv1 & Sv2) & _). assert (Vm : val (fva_mean fv) 0) by (rewrite E1 in Sm2; split; assumption). assert (Vk : val (fva_speed fv) k) by (rewrite E2 in Sk2; split; assumption). assert (Vv : val (fva_vol fv) 0) by (rewrite E3 in Sv2; split; assumption).
    destruct (limit_near rounded_square fv v rounded_square_ok S O FL) as (l & Vl & El & _). assert (C0 : convexity v = 0%R) by (unfold convexity; rewrite E3; unfold Rdiv; ring). rewrite C0 in El. assert (l0 : l = 0%R) by (replace (83 / 10 * u * 0)%R with 0%R in El by ring; apply Rabs_le_inv in El; lra). apply (val_0 _ _ Vl) in l0 as Vl0.
    destruct (exponent_near fv v x af S O V (af_size 1 af (slack v (Stamp (t_day 360)) None) ltac:(lra) ltac:(lra) B)) as ((xv & V1 & X1 & N1) & _). rewrite E2 in X1. fold k in X1.
    destruct (slow_weight _ xv af 1 V1 ltac:(left; reflexivity) ltac:(lra) ltac:(fold k; rewrite !Rmult_1_l; exact X1) N1) as (z & Z & Vz).
    assert (Vs : val (fsub (of_int 1) z) 0). { rewrite <- rn_0. replace 0%R with (1 - 1)%R by ring. apply fsub_val; [apply (of_int_val 1); lia|exact Vz|]. apply big_ok. rewrite Rminus_diag_eq by reflexivity. rewrite Rabs_R0. lra. }
    destruct (div_0 _ _ k (opp_0 _ Vs) Vk ltac:(lra)) as (c & C & Vc). destruct (square_0 _ Vv) as (s & Sq & Vs2). destruct (square_0 _ Vc) as (c2 & Sc & Vc2).
    destruct (scale_near 4 _ k 0 k ltac:(lia) Vk (within_refl k) ltac:(lra) ltac:(lra) ltac:(pose proof (speed_low v O) as SL; rewrite E2 in SL; fold k in SL; lra)) as (t & Vt & _ & Ht). destruct inv_pow_mono as (P1 & _ & P3 & _).
    destruct (div_0 _ _ t Vs2 Vt ltac:(lra)) as (q & Q & Vq).
    unfold f_zero_coupon_bond_price, f_price_coeffs. rewrite X. cbn [bind]. rewrite Z. cbn [bind]. rewrite C. cbn [bind]. rewrite Sq. cbn [bind]. rewrite Q. cbn [bind]. rewrite Sc. cbn [bind fst snd]. rewrite Rf. cbn [bind].
    assert (Vsum : val (fadd (fva_mean fv) (fva_limit fv)) 0) by (apply add_0; assumption).
    assert (Vca : val (fadd c x) (rn (0 + af))) by (apply fadd_val; [exact Vc|exact V|apply big_ok; rewrite Rplus_0_l; apply Rabs_le_inv in B; apply Rabs_le; lra]).
    pose proof (mul_0 _ _ _ _ Vsum Vca ltac:(left; reflexivity)) as Vt1. pose proof (mul_0 _ _ _ _ Vq Vc2 ltac:(left; reflexivity)) as Vt2. pose proof (sub_0 _ _ (opp_0 _ Vt1) Vt2) as Vi. pose proof (mul_0 _ _ _ _ Vc Vr ltac:(left; reflexivity)) as Vcr. destruct (add_0 _ _ Vi Vcr) as [Fe Ve].
    eexists. split; [reflexivity|]. rewrite Ve, exp_0. destruct (nearest_f64_val 1 ltac:(apply big_ok; rewrite Rabs_R1; lra)) as [_ N]. rewrite N. apply (val_format (of_int 1) 1), (of_int_val 1). lia.
Qed.
Print Assumptions C113_slow_price_refuted.

(** and with a volatility of 1 the variance of the rate a year ahead is above 99/100 and is computed as 0. *)
Theorem C113_slow_variance_refuted : exists fv v y, libm_exp rounded_exp /\ libm_square rounded_square /\ same_vasicek fv v /\ ordinary_vasicek v /\ ordinary_times v (Stamp (t_day 360)) None /\
  short_rate_variance v (Stamp (t_day 360)) None = Ok y /\ (99 / 100 <= y)%R /\ exists x : f64, f_short_rate_variance rounded_exp rounded_square fv (Stamp (t_day 360)) None = Ok x /\ B2R x = 0%R.
Proof.
  destruct slow_range as ([k2 k1] & _ & k0). pose proof (of_int_val 0 ltac:(lia)) as V0. pose proof (of_int_val 1 ltac:(lia)) as Vn1. change (IZR 0) with 0%R in V0. destruct inv_pow_mono as (P1 & _ & P3 & P4 & P5).
  assert (p100 : (/ 2 ^ 100 <= 1)%R) by (apply Rle_trans with (/ 1)%R; [apply Rinv_le_contravar; [lra|apply pow_R1_Rle; lra]|lra]).
  destruct (model_2024 (of_int 0) slow (of_int 1) 0 (/ 2 ^ 60) 1 V0 slow_val Vn1 ltac:(lra) ltac:(rewrite Rabs_R0; lra) ltac:(right; rewrite Rabs_R1; lra)) as (fv & v & FL & F1 & F2 & F3 & E1 & E2 & E3 & Cv & S & SR & O & T & A & R).
  exists fv, v. unfold short_rate_variance. rewrite A. cbn [bind]. set (k := (/ 2 ^ 60)%R) in *. rewrite exact_fdiv by (rewrite E2; lra). cbn [bind].
  eexists. split; [exact rounded_exp_ok|]. split; [exact rounded_square_ok|]. do 3 (split; [assumption|]). split; [reflexivity|]. split.
  - rewrite E2, E3. pose proof (exp_upper (-2 * k * 1) ltac:(lra)) as X. assert (/ (1 - -2 * k * 1) <= 1 - 198 / 100 * k)%R.
    { apply Rmult_le_reg_r with (1 + 2 * k)%R; [lra|]. replace (/ (1 - -2 * k * 1) * (1 + 2 * k))%R with 1%R by (field; lra). assert (0 <= k * (2 / 100 - 396 / 100 * k))%R by (apply Rmult_le_pos; lra). lra. }
    apply Rmult_le_reg_l with (2 * k)%R; [lra|]. replace (2 * k * (1 * 1 / (2 * k) * (1 - exp (-2 * k * 1))))%R with (1 - exp (-2 * k * 1))%R by (field; lra). lra.
  - destruct T as (O1 & O2 & _). pose proof (accrual_match fv v _ None S O1 O2) as AM. rewrite A in AM. destruct AM as (x & af & X & V & B). pose proof (slack_range v _ None O1 O2) as D.
    destruct (exponent_near fv v x af S O V (af_size 1 af (slack v (Stamp (t_day 360)) None) ltac:(lra) ltac:(lra) B)) as (_ & _ & (xv & V1 & X1 & N1)). rewrite E2 in X1. fold k in X1.
    destruct (slow_weight _ xv af 2 V1 ltac:(right; reflexivity) ltac:(lra) ltac:(fold k; exact X1) N1) as (z & Z & Vz).
    assert (Vs : val (fsub (of_int 1) z) 0). { rewrite <- rn_0. replace 0%R with (1 - 1)%R by ring. apply fsub_val; [apply (of_int_val 1); lia|exact Vz|]. apply big_ok. rewrite Rminus_diag_eq by reflexivity. rewrite Rabs_R0. lra. }
    destruct (vol_over_speed rounded_square fv v 2 ltac:(lia) rounded_square_ok S O) as (z2 & q2 & c & Z2 & Q2 & Vc & _).
    unfold f_short_rate_variance. rewrite X. cbn [bind]. rewrite Z. cbn [bind]. rewrite Z2. cbn [bind]. rewrite Q2. cbn [bind]. eexists. split; [reflexivity|]. apply (mul_0 _ _ _ _ Vc Vs). right. reflexivity.
Qed.
Print Assumptions C113_slow_variance_refuted.

(** A model with mean 1/16, speed 1/2, volatility 1/64 and a rate of 3 meets the hypotheses of every theorem above. *)
Example C113_case : exists fv v P, libm_exp rounded_exp /\ libm_square rounded_square /\ same_vasicek fv v /\ same_rate fv v None /\ ordinary_vasicek v /\ ordinary_times v (Stamp (t_day 360)) None /\ constructed v /\
  f_convexity_limit rounded_square (fva_vol fv) (fva_speed fv) = Ok (fva_limit fv) /\ zero_coupon_bond_price v (Stamp (t_day 360)) None = Ok P /\ va_accrual v (Stamp (t_day 360)) None = Ok 1%R /\ va_rate v None = Ok 3%R /\
  (/ 2 ^ 400 <= P <= 2 ^ 400)%R /\ (40 * (price_slack v (Stamp (t_day 360)) None 1 * (Rabs (va_mean v) + convexity v + Rabs 3)) <= 1 / 1000)%R.
Proof.
  pose proof (flit_val 1 (-4) ltac:(lia) ltac:(lia)) as Vm. pose proof (flit_val 1 (-1) ltac:(lia) ltac:(lia)) as Vk. pose proof (flit_val 1 (-6) ltac:(lia) ltac:(lia)) as Vs. rewrite Rmult_1_l in Vm, Vk, Vs. change (bpow radix2 (-4)) with (/ 16)%R in Vm. change (bpow radix2 (-1)) with (/ 2)%R in Vk. change (bpow radix2 (-6)) with (/ 64)%R in Vs.
  assert (p100 : (/ 2 ^ 100 <= / 2 ^ 10)%R) by (apply Rinv_le_contravar; [apply pow_lt; lra|apply Rle_pow; [lra|lia]]). replace (/ 2 ^ 10)%R with (/ 1024)%R in p100 by (f_equal; ring).
  destruct (model_2024 _ _ _ _ _ _ Vm Vk Vs ltac:(lra) ltac:(rewrite Rabs_pos_eq; lra) ltac:(right; rewrite Rabs_pos_eq; lra)) as (fv & v & FL & F1 & F2 & F3 & E1 & E2 & E3 & Cv & S & SR & O & T & A & R).
  exists fv, v. unfold zero_coupon_bond_price. rewrite (price_coeffs_value v _ None 1 Cv A). cbn [bind fst snd]. rewrite R. cbn [bind].
  eexists. split; [exact rounded_exp_ok|]. split; [exact rounded_square_ok|]. do 6 (split; [assumption|]). split; [reflexivity|]. split; [exact A|]. split; [reflexivity|]. assert (Cx : convexity v = (/ 2048)%R) by (unfold convexity; rewrite E2, E3; field). split.
  - pose proof (coefA_size v 1 Cv O ltac:(lra)) as SA. pose proof (coefficient_range (va_speed v) 1 ltac:(rewrite E2; lra) ltac:(lra)) as [[c1 c2] _]. change (coefB (va_speed v) 1) with (coefficient (va_speed v) 1). set (y := (coefA (va_mean v) (va_speed v) (va_vol v) 1 + coefficient (va_speed v) 1 * 3)%R).
    rewrite E1, Cx, (Rabs_pos_eq (/ 16)) in SA by lra. apply Rabs_le_inv in SA. rewrite <- E1 in SA.
    assert (Hy : (- (4) <= y <= 4)%R). { unfold y. assert (K2 : (/ va_speed v = 2)%R) by (rewrite E2; field). rewrite K2 in SA. lra. }
    assert (X4 : (exp 4 <= 2 ^ 400)%R). { replace 4%R with (INR 4) by (cbn; ring). assert (G : forall n, (exp (INR n) <= 4 ^ n)%R). { induction n as [|n IH]; [cbn; rewrite exp_0; lra|]. rewrite S_INR, exp_plus. cbn [pow]. rewrite (Rmult_comm 4). pose proof exp_le_3. apply Rmult_le_compat; [apply Rlt_le, exp_pos|apply Rlt_le, exp_pos|exact IH|lra]. }
      apply Rle_trans with (1 := G 4%nat). replace 4%R with (2 ^ 2)%R by ring. rewrite <- pow_mult. apply Rle_pow; [lra|cbn; lia]. }
    split; [|apply Rle_trans with (exp 4); [apply exp_le; lra|exact X4]]. apply Rle_trans with (exp (- (4))); [|apply exp_le; lra]. rewrite exp_Ropp. apply Rinv_le_contravar; [apply exp_pos|exact X4].
  - rewrite Cx, E1. unfold price_slack. rewrite E2, u_53. destruct T as (O1 & O2 & _). pose proof (slack_range v _ None O1 O2) as D. pose proof u_tiny. rewrite (Rabs_pos_eq (/ 16)), (Rabs_pos_eq 3) by lra. replace (/ / 2)%R with 2%R by field. set (s := slack v (Stamp (t_day 360)) None) in *.
    assert ((s + u * 2 + u * 1) * (/ 16 + / 2048 + 3) <= (/ 1000000000 + 3 / 1000000000000) * 4)%R by (apply Rmult_le_compat; lra). lra.
Qed.
