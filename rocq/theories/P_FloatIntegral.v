(** The integrated short rate path in double precision: C120. *)
From Verif Require Import Base PyDate PyDateFacts DayCount DayCountFacts Loan LoanFacts CurveFacts RVec Stochastic StochasticFacts P_Stochastic ShortRate P_ShortRate Float FloatFacts FloatDayCount P_FloatDayCount P_FloatStamp P_FloatCurve P_FloatCashflow P_FloatSwap P_FloatYield P_FloatVasicek FloatIntegral.
From Coq Require Import Lra Reals Qreals Sorted.
From Flocq Require Import Core BinarySingleNaN Relative.
Open Scope Z_scope.

(** ---- specification ---- *)
(** the float model reads the grid of the exact one, and at the dates [ds] the rates of its path *)
Definition same_rates (s : short_rate) (fs : f_short_rate) (ds : list datetime) : Prop :=
  fsr_start fs = bm_start (sr_bm s) /\ fsr_end fs = bm_end (sr_bm s) /\ fsr_dt fs = sr_dt s /\ fsr_dcc fs = bm_dcc (sr_bm s) /\
  forall t, In t ds -> match sr_call s t with Ok r => exists x, fsr_rate fs t = Ok x /\ val x r | Err e => fsr_rate fs t = Err e end.
(** rates at most M, accruals at most Y and calendar years at most N from the start *)
Definition within_bounds (s : short_rate) (ds : list datetime) (M Y : R) (N : Z) : Prop :=
  (0 <= M <= 1000)%R /\ (0 <= Y <= 10000)%R /\ 0 <= N <= 9998 /\ datetime_ok (bm_start (sr_bm s)) /\
  forall t, In t ds -> datetime_ok t /\ Z.abs (year (dt_date t) - year (dt_date (bm_start (sr_bm s)))) <= N /\ (forall r, sr_call s t = Ok r -> (Rabs r <= M)%R) /\
    (forall q, compute_accrual_length (Stamp (bm_start (sr_bm s))) (Stamp t) (bm_dcc (sr_bm s)) = Ok q -> (Rabs (Q2R q) <= Y)%R).
(** the error allowed after k steps *)
Definition integral_error (M Y : R) (N : Z) (k : nat) : R := (INR k * (M * ((INR k + 8) * / 2 ^ 52 * Y + / 2 ^ 45 * (IZR N + 3)) + / 2 ^ 1000))%R.

(** ---- one trapezoid ---- *)
Lemma min_val x y a b : val x a -> val y b -> val (f_min x y) (Rmin a b).
Proof.
  intros X Y. unfold f_min. destruct (flt y x) eqn:L.
  - apply (flt_val y x b a Y X) in L. rewrite Rmin_right by lra. exact Y.
  - destruct (Rle_or_lt a b) as [H|H]; [rewrite Rmin_left by lra; exact X|]. apply (flt_val y x b a Y X) in H. congruence.
Qed.
Lemma max_val x y a b : val x a -> val y b -> val (f_max x y) (Rmax a b).
Proof.
  intros X Y. unfold f_max. destruct (flt x y) eqn:L.
  - apply (flt_val x y a b X Y) in L. rewrite Rmax_right by lra. exact Y.
  - destruct (Rle_or_lt b a) as [H|H]; [rewrite Rmax_left by lra; exact X|]. apply (flt_val x y a b X Y) in H. congruence.
Qed.
(** c T + d T / 2 for doubles: [base] c, [other] d + c *)
Lemma half_step c e t (C E T M Y : R) : val c C -> val e E -> val t T -> (Rabs C <= M)%R -> (Rabs E <= M)%R -> (Rabs T <= Y)%R -> (M <= 1000)%R -> (Y <= 10001)%R ->
  exists h v z, fdiv (fmul (fsub e c) t) (of_int 2) = Ok h /\ fadd (fmul c t) h = v /\ val v z /\ (Rabs (z - (C + E) / 2 * T) <= 6 * (u * (M * Y)) + 4 * tn)%R /\ (0 <= C -> C <= E -> 0 <= T -> 0 <= z)%R.
Proof.
  intros Vc Ve Vt HC HE HT HM HY. pose proof u_tiny as U. destruct tn_range as (t0 & t1 & _ & t2). pose proof (Rabs_pos C) as C0. pose proof (Rabs_pos E) as E0. pose proof (Rabs_pos T) as T00.
  assert (Tn : (tn <= 1 / 1000)%R) by lra. set (A := (u * (M * Y))%R). assert (MY : (0 <= M * Y <= 10001000)%R). { split; [apply Rmult_le_pos; lra|]. replace 10001000%R with (1000 * 10001)%R by lra. apply Rmult_le_compat; lra. }
  assert (A0 : (0 <= A <= 1 / 1000000000000 * (M * Y))%R) by (split; [apply Rmult_le_pos; lra|apply Rmult_le_compat_r; lra]).
  (* the difference *)
  assert (D0 : (Rabs (E - C) <= 2 * M)%R) by (replace (E - C)%R with (E + - C)%R by ring; apply Rle_trans with (1 := Rabs_triang _ _); rewrite Rabs_Ropp; lra).
  pose proof (fsub_val e c E C Ve Vc ltac:(apply big_ok; lra)) as Vd. pose proof (rn_minus_err e c E C Ve Vc) as Ed. set (d := rn (E - C)) in *.
  assert (Ed' : (Rabs (d - (E - C)) <= 2 * (u * M))%R) by (apply Rle_trans with (1 := Ed); replace (2 * (u * M))%R with (u * (2 * M))%R by ring; apply Rmult_le_compat_l; lra).
  assert (uM : (0 <= u * M <= 1 / 1000000000000 * M)%R) by (split; [apply Rmult_le_pos; lra|apply Rmult_le_compat_r; lra]).
  assert (Ad : (Rabs d <= 2001 / 1000 * M)%R). { replace d with ((d - (E - C)) + (E - C))%R by ring. apply Rle_trans with (1 := Rabs_triang _ _). lra. }
  (* times the accrual *)
  destruct (mul_in _ _ _ _ (2001 / 1000 * M) Y Vd Vt Ad HT ltac:(lra)) as [Vp Ep]. set (p := rn (d * T)) in *.
  assert (P1 : (Rabs d * Rabs T <= 2001 / 1000 * (M * Y))%R). { rewrite <- Rmult_assoc. apply Rmult_le_compat; [apply Rabs_pos|apply Rabs_pos|exact Ad|exact HT]. }
  assert (P2 : (u * (Rabs d * Rabs T) <= 2001 / 1000 * A)%R). { unfold A. replace (2001 / 1000 * (u * (M * Y)))%R with (u * (2001 / 1000 * (M * Y)))%R by ring. apply Rmult_le_compat_l; lra. }
  assert (P3 : (Rabs (p - (E - C) * T) <= 4002 / 1000 * A + tn)%R).
  { replace (p - (E - C) * T)%R with ((p - d * T) + (d - (E - C)) * T)%R by ring. apply Rle_trans with (1 := Rabs_triang _ _). rewrite (Rabs_mult (d - (E - C))).
    assert (Rabs (d - (E - C)) * Rabs T <= 2 * (u * M) * Y)%R by (apply Rmult_le_compat; [apply Rabs_pos|apply Rabs_pos|exact Ed'|exact HT]). replace (2 * (u * M) * Y)%R with (2 * A)%R in * by (unfold A; ring). lra. }
  assert (P4 : (Rabs p <= 201 / 100 * (M * Y) + tn)%R).
  { replace p with ((p - d * T) + d * T)%R by ring. apply Rle_trans with (1 := Rabs_triang _ _). rewrite (Rabs_mult d). lra. }
  (* halved *)
  pose proof (of_int_val 2 ltac:(lia)) as V2. change (IZR 2) with 2%R in V2.
  assert (Ph : (Rabs (p / 2) <= 101 / 100 * (M * Y) + tn)%R). { unfold Rdiv. rewrite Rabs_mult, (Rabs_pos_eq (/ 2)) by lra. lra. }
  destruct (fdiv_val _ _ p 2 Vp V2 ltac:(lra) ltac:(apply big_ok; lra)) as (h & Hh & Vh). set (g := rn (p / 2)) in *. pose proof (rn_abs (p / 2)) as Eg. fold tn in Eg. fold g in Eg.
  assert (H1 : (u * Rabs (p / 2) <= 102 / 100 * A + 1 / 1000 * tn)%R).
  { apply Rle_trans with (u * (101 / 100 * (M * Y) + tn))%R; [apply Rmult_le_compat_l; lra|]. unfold A. rewrite Rmult_plus_distr_l. assert (u * tn <= 1 / 1000 * tn)%R by (apply Rmult_le_compat_r; lra). assert (0 <= u * (M * Y))%R by exact (proj1 A0). lra. }
  assert (H2 : (Rabs (g - (E - C) * T / 2) <= 304 / 100 * A + 2 * tn)%R).
  { replace (g - (E - C) * T / 2)%R with ((g - p / 2) + (p - (E - C) * T) * / 2)%R by field. apply Rle_trans with (1 := Rabs_triang _ _). rewrite (Rabs_mult (p - (E - C) * T)), (Rabs_pos_eq (/ 2)) by lra. lra. }
  (* the rectangle *)
  destruct (mul_in _ _ _ _ M Y Vc Vt HC HT ltac:(lra)) as [Vq Eq]. set (q := rn (C * T)) in *.
  assert (Q1 : (Rabs C * Rabs T <= M * Y)%R) by (apply Rmult_le_compat; lra). assert (Q2 : (u * (Rabs C * Rabs T) <= A)%R) by (unfold A; apply Rmult_le_compat_l; lra).
  (* their sum *)
  assert (S0 : (Rabs ((C + E) / 2 * T) <= M * Y)%R).
  { rewrite Rabs_mult. apply Rmult_le_compat; [apply Rabs_pos|apply Rabs_pos| |exact HT]. unfold Rdiv. rewrite Rabs_mult, (Rabs_pos_eq (/ 2)) by lra. pose proof (Rabs_triang C E). lra. }
  assert (S1 : (Rabs (q + g - (C + E) / 2 * T) <= 405 / 100 * A + 3 * tn)%R).
  { replace (q + g - (C + E) / 2 * T)%R with ((q - C * T) + (g - (E - C) * T / 2))%R by field. apply Rle_trans with (1 := Rabs_triang _ _). lra. }
  assert (S2 : (Rabs (q + g) <= 101 / 100 * (M * Y) + 3 * tn)%R).
  { replace (q + g)%R with ((q + g - (C + E) / 2 * T) + (C + E) / 2 * T)%R by ring. apply Rle_trans with (1 := Rabs_triang _ _). lra. }
  pose proof (fadd_val _ _ _ _ Vq Vh ltac:(apply big_ok; lra)) as Vs. pose proof (rn_plus_err _ _ _ _ Vq Vh) as Es.
  assert (S3 : (u * Rabs (q + g) <= 102 / 100 * A + 1 / 1000 * tn)%R).
  { apply Rle_trans with (u * (101 / 100 * (M * Y) + 3 * tn))%R; [apply Rmult_le_compat_l; lra|]. unfold A. rewrite Rmult_plus_distr_l. assert (u * (3 * tn) <= 1 / 1000 * tn)%R. { apply Rle_trans with (1 / 1000000 * (3 * tn))%R; [apply Rmult_le_compat_r; lra|lra]. } assert (0 <= u * (M * Y))%R by exact (proj1 A0). lra. }
  exists h, (fadd (fmul c t) h), (rn (q + g)). split; [exact Hh|]. split; [reflexivity|]. split; [exact Vs|]. split.
  2:{ intros G1 G2 G3. apply P_FloatCurve.rn_pos, Rplus_le_le_0_compat; [apply P_FloatCurve.rn_pos, Rmult_le_pos; assumption|]. apply P_FloatCurve.rn_pos. apply Rmult_le_pos; [|lra]. apply P_FloatCurve.rn_pos, Rmult_le_pos; [apply P_FloatCurve.rn_pos; lra|exact G3]. }
  replace (rn (q + g) - (C + E) / 2 * T)%R with ((rn (q + g) - (q + g)) + (q + g - (C + E) / 2 * T))%R by ring. apply Rle_trans with (1 := Rabs_triang _ _). lra.
Qed.
Lemma trapezoid_near x y t (a b T T' M Y e : R) : val x a -> val y b -> val t T' -> (Rabs a <= M)%R -> (Rabs b <= M)%R -> (Rabs T <= Y)%R -> (M <= 1000)%R -> (Y <= 10000)%R -> (0 <= e <= 1)%R -> (Rabs (T' - T) <= e)%R ->
  exists v z, f_trapezoid x y t = Ok v /\ val v z /\ (Rabs (z - (a + b) / 2 * T) <= 6 * (u * (M * Y)) + 101 / 100 * (M * e) + 4 * tn)%R /\ (0 <= a -> 0 <= b -> 0 <= T' -> 0 <= z)%R.
Proof.
  intros X Y0 V A B HT HM HY He E. pose proof u_tiny as U. pose proof (Rabs_pos a) as a0. assert (T1 : (Rabs T' <= Y + e)%R). { replace T' with (T + (T' - T))%R by ring. apply Rle_trans with (1 := Rabs_triang _ _). lra. }
  pose proof (min_val _ _ _ _ X Y0) as Vn. pose proof (max_val _ _ _ _ X Y0) as Vx. pose proof (of_int_val 0 ltac:(lia)) as Z0.
  assert (Mn : (Rabs (Rmin a b) <= M)%R) by (apply Rmin_case; assumption). assert (Mx : (Rabs (Rmax a b) <= M)%R) by (apply Rmax_case; assumption).
  assert (Sm : (Rmin a b + Rmax a b = a + b)%R) by (unfold Rmin, Rmax; destruct (Rle_dec a b); ring).
  assert (Me : (0 <= M * e)%R) by (apply Rmult_le_pos; lra).
  assert (Fin : forall z, (Rabs (z - (a + b) / 2 * T') <= 6 * (u * (M * (Y + e))) + 4 * tn)%R -> (Rabs (z - (a + b) / 2 * T) <= 6 * (u * (M * Y)) + 101 / 100 * (M * e) + 4 * tn)%R).
  { intros z H. replace (z - (a + b) / 2 * T)%R with ((z - (a + b) / 2 * T') + (a + b) / 2 * (T' - T))%R by ring. apply Rle_trans with (1 := Rabs_triang _ _).
    assert (Rabs ((a + b) / 2 * (T' - T)) <= M * e)%R.
    { rewrite Rabs_mult. apply Rmult_le_compat; [apply Rabs_pos|apply Rabs_pos| |exact E]. unfold Rdiv. rewrite Rabs_mult, (Rabs_pos_eq (/ 2)) by lra. pose proof (Rabs_triang a b). lra. }
    replace (6 * (u * (M * (Y + e))))%R with (6 * (u * (M * Y)) + 6 * (u * (M * e)))%R in H by ring. assert (u * (M * e) <= 1 / 1000000 * (M * e))%R by (apply Rmult_le_compat_r; lra). lra. }
  unfold f_trapezoid. destruct (flt (f_min x y) (of_int 0)) eqn:L.
  - destruct (half_step (f_max x y) (f_min x y) t _ _ T' M (Y + e) Vx Vn V Mx Mn T1 HM ltac:(lra)) as (h & v & z & H1 & H2 & H3 & H4 & H5). rewrite H1. cbn [bind]. exists v, z. split; [f_equal; exact H2|]. split; [exact H3|]. split; [apply Fin; rewrite <- Sm, (Rplus_comm (Rmin a b)); exact H4|]. intros G1 G2 G3. exfalso. apply (flt_val _ _ _ _ Vn Z0) in L. assert (0 <= Rmin a b)%R by (apply Rmin_case; assumption). lra.
  - destruct (half_step (f_min x y) (f_max x y) t _ _ T' M (Y + e) Vn Vx V Mn Mx T1 HM ltac:(lra)) as (h & v & z & H1 & H2 & H3 & H4 & H5). rewrite H1. cbn [bind]. exists v, z. split; [f_equal; exact H2|]. split; [exact H3|]. split; [apply Fin; rewrite <- Sm; exact H4|]. intros G1 G2 G3. apply H5; [apply Rmin_case; assumption|unfold Rmin, Rmax; destruct (Rle_dec a b); lra|exact G3].
Qed.


(** ---- the running sum ---- *)
Definition err_k (M Y E : R) (k : nat) : R := (INR k * (M * ((INR k + 8) * (2 * u) * Y + 2 * E) + 1000 * tn))%R.
Lemma running_near run w (s S z v M Y E : R) k : val run s -> val w z -> (0 <= M <= 1000)%R -> (0 <= Y <= 10000)%R -> (0 <= E <= 1 / 1000000)%R -> Z.of_nat k <= 2 ^ 20 ->
  (Rabs (s - S) <= err_k M Y E k)%R -> (Rabs S <= INR k * (M * Y))%R -> (Rabs (z - v) <= 6 * (u * (M * Y)) + 101 / 100 * (M * E) + 4 * tn)%R -> (Rabs v <= M * Y)%R ->
  exists s', val (fadd run w) s' /\ (Rabs (s' - (S + v)) <= err_k M Y E (1 + k))%R /\ (Rabs (S + v) <= INR (1 + k) * (M * Y))%R /\ (0 <= z -> s <= s')%R.
Proof.
  intros Vr Vw HM HY HE K Hs HS Hz Hv. pose proof u_tiny as U. destruct tn_range as (t0 & _ & _ & t2). set (n := INR k) in *.
  assert (n0 : (0 <= n <= 1048576)%R) by (split; [apply pos_INR|unfold n; rewrite INR_IZR_INZ; apply (IZR_le _ 1048576); exact K]).
  assert (n1 : INR (1 + k) = (1 + n)%R) by (rewrite plus_INR; reflexivity).
  set (P := (M * Y)%R) in *. set (Q := (M * E)%R) in *. assert (P0 : (0 <= P <= 10000000)%R). { split; [apply Rmult_le_pos; lra|]. replace 10000000%R with (1000 * 10000)%R by lra. apply Rmult_le_compat; lra. }
  assert (Q0 : (0 <= Q <= 1)%R). { split; [apply Rmult_le_pos; lra|]. apply Rle_trans with (1000 * (1 / 1000000))%R; [apply Rmult_le_compat; lra|lra]. }
  set (A := (u * P)%R) in *. assert (A0 : (0 <= A <= 1 / 1000000000000 * P)%R) by (split; [apply Rmult_le_pos; lra|apply Rmult_le_compat_r; lra]).
  set (B := (n * A)%R). assert (B0 : (0 <= B)%R) by (apply Rmult_le_pos; lra). set (C := (n * B)%R). assert (C0 : (0 <= C <= 1048576 * B)%R) by (split; [apply Rmult_le_pos; lra|apply Rmult_le_compat_r; lra]).
  assert (B1 : (B <= 1 / 100000 * P)%R). { apply Rle_trans with (1048576 * (1 / 1000000000000 * P))%R; [apply Rmult_le_compat; lra|lra]. }
  assert (nQ : (0 <= n * Q <= 1048576 * Q)%R) by (split; [apply Rmult_le_pos; lra|apply Rmult_le_compat_r; lra]). assert (nt : (0 <= n * tn <= 1048576 * tn)%R) by (split; [apply Rmult_le_pos; lra|apply Rmult_le_compat_r; lra]).
  assert (nP : (0 <= n * P <= 1048576 * P)%R) by (split; [apply Rmult_le_pos; lra|apply Rmult_le_compat_r; lra]).
  assert (Ek : err_k M Y E k = (2 * C + 16 * B + 2 * (n * Q) + 1000 * (n * tn))%R) by (unfold err_k, C, B, A, P, Q; fold n; ring).
  assert (Es : err_k M Y E (1 + k) = (2 * C + 20 * B + 18 * A + 2 * (n * Q) + 2 * Q + 1000 * (n * tn) + 1000 * tn)%R) by (unfold err_k; rewrite n1; unfold C, B, A, P, Q; ring).
  rewrite Ek in Hs. rewrite Es, n1.
  assert (X : (Rabs (s + z - (S + v)) <= 2 * C + 16 * B + 2 * (n * Q) + 1000 * (n * tn) + (6 * A + 101 / 100 * Q + 4 * tn))%R).
  { replace (s + z - (S + v))%R with ((s - S) + (z - v))%R by ring. apply Rle_trans with (1 := Rabs_triang _ _). lra. }
  assert (Sv : (Rabs (S + v) <= n * P + P)%R) by (apply Rle_trans with (1 := Rabs_triang _ _); lra).
  assert (W : (Rabs (s + z) <= n * P + P + (2 * C + 16 * B + 2 * (n * Q) + 1000 * (n * tn) + (6 * A + 101 / 100 * Q + 4 * tn)))%R).
  { replace (s + z)%R with ((s + z - (S + v)) + (S + v))%R by ring. apply Rle_trans with (1 := Rabs_triang _ _). lra. }
  assert (uW : (u * Rabs (s + z) <= B + A + 1 / 100000 * (B + A + Q + tn))%R).
  { apply Rle_trans with (u * (n * P + P + (2 * C + 16 * B + 2 * (n * Q) + 1000 * (n * tn) + (6 * A + 101 / 100 * Q + 4 * tn))))%R; [apply Rmult_le_compat_l; lra|].
    replace (u * (n * P + P + (2 * C + 16 * B + 2 * (n * Q) + 1000 * (n * tn) + (6 * A + 101 / 100 * Q + 4 * tn))))%R with (B + A + (2 * (u * C) + 16 * (u * B) + 2 * (u * (n * Q)) + 1000 * (u * (n * tn)) + 6 * (u * A) + 101 / 100 * (u * Q) + 4 * (u * tn)))%R by (unfold B, A; ring).
    assert (R : forall y c, (0 <= y)%R -> (0 <= c)%R -> (y <= 1048576 * c -> u * y <= 1 / 900000000 * c)%R).
    { assert (U5 : (u <= 1 / 1000000000000000)%R) by (rewrite u_num; lra). intros y c H0 H1 H2. apply Rle_trans with (1 / 1000000000000000 * (1048576 * c))%R; [apply Rmult_le_compat; lra|lra]. }
    pose proof (R C B ltac:(lra) B0 ltac:(lra)). pose proof (R B B B0 B0 ltac:(lra)). pose proof (R _ Q (proj1 nQ) (proj1 Q0) (proj2 nQ)). pose proof (R _ tn (proj1 nt) ltac:(lra) (proj2 nt)). pose proof (R A A (proj1 A0) (proj1 A0) ltac:(lra)). pose proof (R Q Q (proj1 Q0) (proj1 Q0) ltac:(lra)). pose proof (R tn tn ltac:(lra) ltac:(lra) ltac:(lra)). lra. }
  pose proof (fadd_val _ _ _ _ Vr Vw ltac:(apply big_ok; lra)) as Vs. pose proof (rn_plus_err _ _ _ _ Vr Vw) as Er.
  exists (rn (s + z)). split; [exact Vs|]. split; [|split; [lra|intros Z0; rewrite <- (val_format _ _ Vr) at 1; apply rn_le; lra]].
  replace (rn (s + z) - (S + v))%R with ((rn (s + z) - (s + z)) + (s + z - (S + v)))%R by ring. apply Rle_trans with (1 := Rabs_triang _ _). lra.
Qed.

Lemma two46 : (0 < / 2 ^ 46 <= 1 / 10000000000000)%R.
Proof.
  assert (H : (2 ^ 46 = 70368744177664)%R) by (cbn [pow]; ring). rewrite H. lra.
Qed.
Lemma loop_near s fs M Y N : let E := (/ 2 ^ 46 * (IZR N + 3))%R in
  forall ds, same_rates s fs ds -> within_bounds s ds M Y N -> forall k run (r S : R), val run r -> (Rabs (r - S) <= err_k M Y E k)%R -> (Rabs S <= INR k * (M * Y))%R -> Z.of_nat k + Z.of_nat (List.length ds) <= 2 ^ 20 ->
  match integral_loop s 0 S (pairwise ds) with
  | Ok L => exists FL, f_integral_loop fs run (pairwise ds) = Ok FL /\ List.length FL = List.length L /\
      (forall j v x, nth_error L j = Some v -> nth_error FL j = Some x -> is_finite x = true /\ (Rabs (B2R x - v) <= err_k M Y E (1 + j + k))%R) /\
      ((forall t v, In t ds -> sr_call s t = Ok v -> (0 <= v)%R) -> (forall t c, In t ds -> f_compute_accrual_length (Stamp (fsr_start fs)) (Stamp t) (fsr_dcc fs) = Ok c -> (0 <= B2R c)%R) -> StronglySorted Rle (r :: List.map (fun x : f64 => B2R x) FL))
  | Err e => f_integral_loop fs run (pairwise ds) = Err e
  end.
Proof.
  intros E. induction ds as [|t ds IH]; intros SS W k run r S V Hr HS K.
  - exists []. split; [reflexivity|]. split; [reflexivity|]. split; [intros [|j]; discriminate|intros _ _; repeat constructor].
  - destruct ds as [|t' ds]; [exists []; split; [reflexivity|]; split; [reflexivity|]; split; [intros [|j]; discriminate|intros _ _; repeat constructor]|].
    change (pairwise (t :: t' :: ds)) with ((t, t') :: pairwise (t' :: ds)). cbn [integral_loop f_integral_loop].
    pose proof SS as (S1 & S2 & S3 & S4 & SR). pose proof W as (HM & HY & HN & Os & HT). destruct (HT t (or_introl eq_refl)) as (_ & _ & Ra & _). destruct (HT t' (or_intror (or_introl eq_refl))) as (O' & Y' & Rb & Qb).
    pose proof (SR t (or_introl eq_refl)) as A. destruct (sr_call s t) as [a|e] eqn:Ea; cbn [bind]; [|rewrite A; reflexivity]. destruct A as (x & A & Va). rewrite A. cbn [bind].
    pose proof (SR t' (or_intror (or_introl eq_refl))) as B. destruct (sr_call s t') as [b|e] eqn:Eb0; cbn [bind]; [|rewrite B; reflexivity]. destruct B as (y & B & Vb). rewrite B. cbn [bind].
    rewrite S1, S4. destruct (compute_accrual_length _ _ _) as [q|e] eqn:C; cbn [bind].
    2:{ apply (C85_errors _ (Stamp (bm_start (sr_bm s))) (Stamp t')) in C; [|exact Os|exact O']. rewrite C. reflexivity. }
    destruct (C85_accuracy _ (Stamp (bm_start (sr_bm s))) (Stamp t') _ Os O' C) as (c & Cc & Fc & Ec). rewrite Cc. cbn [bind]. cbn [day_of] in Ec.
    assert (Vc : val (fsub c (of_int 0)) (B2R c)).
    { pose proof (of_int_val 0 ltac:(lia)) as V0. change (IZR 0) with 0%R in V0. assert (Vc : val c (B2R c)) by (split; [exact Fc|reflexivity]).
      pose proof two46 as E0. destruct HN as [N0 N1]. apply IZR_le in Y', N0, N1.
      assert (Ec1 : (/ 2 ^ 46 * (IZR (Z.abs (year (dt_date t') - year (dt_date (bm_start (sr_bm s))))) + 3) <= 1)%R) by (apply Rle_trans with (1 / 10000000000000 * 10001)%R; [apply Rmult_le_compat; [lra| |lra|lra]|lra]; apply Rplus_le_le_0_compat; [apply (IZR_le 0), Z.abs_nonneg|lra]).
      pose proof (fsub_val c (of_int 0) (B2R c) 0 Vc V0) as H. rewrite Rminus_0_r, (val_format c _ Vc) in H. apply H. apply big_ok.
      replace (B2R c) with ((B2R c - Q2R q) + Q2R q)%R by ring. apply Rle_trans with (1 := Rabs_triang _ _). specialize (Qb q eq_refl). lra. }
    specialize (Qb q eq_refl). specialize (Ra a eq_refl). specialize (Rb b eq_refl).
    assert (Eb : (0 <= E <= 1 / 1000000)%R).
    { unfold E. pose proof two46 as E0. destruct HN as [N0 N1]. apply IZR_le in N0, N1. split; [apply Rmult_le_pos; lra|]. apply Rle_trans with (1 / 10000000000000 * 10001)%R; [apply Rmult_le_compat; lra|lra]. }
    assert (Ec' : (Rabs (B2R c - Q2R q) <= E)%R).
    { apply Rle_trans with (1 := Ec). unfold E. apply Rmult_le_compat_l; [apply Rlt_le, Rinv_0_lt_compat, pow_lt; lra|]. apply IZR_le in Y'. lra. }
    rewrite Rminus_0_r, trapezoid_value.
    destruct (trapezoid_near _ _ _ _ _ _ _ M Y E Va Vb Vc Ra Rb Qb ltac:(lra) ltac:(lra) ltac:(lra) Ec') as (w & z & Ew & Vw & Hz & Pz). rewrite Ew. cbn [bind].
    assert (Hv : (Rabs ((a + b) / 2 * Q2R q) <= M * Y)%R).
    { rewrite Rabs_mult. apply Rmult_le_compat; [apply Rabs_pos|apply Rabs_pos| |exact Qb]. unfold Rdiv. rewrite Rabs_mult, (Rabs_pos_eq (/ 2)) by lra. pose proof (Rabs_triang a b). lra. }
    cbn [List.length] in K.
    destruct (running_near run w r S z _ M Y E k V Vw HM HY Eb ltac:(lia) Hr HS Hz Hv) as (r' & V' & H1 & H2 & Up).
    assert (W' : within_bounds s (t' :: ds) M Y N) by (split; [exact HM|]; split; [exact HY|]; split; [exact HN|]; split; [exact Os|]; intros d D; apply HT; right; exact D).
    assert (SS' : same_rates s fs (t' :: ds)) by (split; [exact S1|]; split; [exact S2|]; split; [exact S3|]; split; [exact S4|]; intros d D; apply SR; right; exact D).
    specialize (IH SS' W' (1 + k)%nat (fadd run w) r' (S + (a + b) / 2 * Q2R q)%R V' H1 H2 ltac:(cbn [List.length]; lia)).
    destruct (integral_loop s 0 (S + (a + b) / 2 * Q2R q) (pairwise (t' :: ds))) as [L|e]; cbn [bind]; [|rewrite IH; reflexivity].
    destruct IH as (FL & EF & LF & HF & MF). rewrite EF. cbn [bind]. exists (fadd run w :: FL). split; [reflexivity|]. split; [cbn [List.length]; f_equal; exact LF|].
    split.
    2:{ intros G1 G2. rewrite S1, S4 in MF. specialize (MF (fun d v D => G1 d v (or_intror D)) (fun d v D => G2 d v (or_intror D))). assert (Z0 : (0 <= z)%R).
      { apply Pz; [exact (G1 t a (or_introl eq_refl) Ea)|exact (G1 t' b (or_intror (or_introl eq_refl)) Eb0)|apply (G2 t' c (or_intror (or_introl eq_refl))); exact Cc]. }
      specialize (Up Z0). cbn [List.map]. rewrite (proj2 V'). constructor; [exact MF|]. inversion MF as [|? ? _ FA]; subst. constructor; [exact Up|]. apply (Forall_impl _ (fun v (H : (r' <= v)%R) => Rle_trans _ _ _ Up H) FA). }
    intros [|j] v0 x0 Hv0 Hx0.
    + injection Hv0 as <-. injection Hx0 as <-. destruct V' as [F' B']. split; [exact F'|]. rewrite B'. exact H1.
    + destruct (HF j v0 x0 Hv0 Hx0) as [F0 B0]. split; [exact F0|]. replace (1 + Datatypes.S j + k)%nat with (1 + j + (1 + k))%nat by lia. exact B0.
Qed.


(** ---- the path of integrals ---- *)
Lemma err_stated M Y N k : (err_k M Y (/ 2 ^ 46 * (IZR N + 3)) k <= integral_error M Y N k)%R.
Proof.
  unfold err_k, integral_error. pose proof tn_many as TM. pose proof (pos_INR k) as K. apply Rmult_le_compat_l; [exact K|]. rewrite u_52.
  assert (H : (/ 2 ^ 45 = 2 * / 2 ^ 46)%R) by (cbn [pow]; lra). rewrite H. lra.
Qed.
Lemma grid_rewrite s fs ds l : same_rates s fs ds -> sr_datetimes s l = match l with Some l => Ok l | None => generate_datetimes (fsr_start fs) (fsr_end fs) (fsr_dt fs) 1000000 end.
Proof. intros (S1 & S2 & S3 & _). destruct l; [reflexivity|]. unfold sr_datetimes. rewrite S1, S2, S3. reflexivity. Qed.

(** The double-precision path of integrals against the exact one (ShortRate.v) of the same rates *)
Theorem C120_integral : forall s fs l ds M Y N, same_rates s fs ds -> sr_path s <> None -> sr_datetimes s l = Ok ds -> within_bounds s ds M Y N -> Z.of_nat (List.length ds) <= 2 ^ 20 ->
  match snd (sr_generate_integrated s l) with
  | Ok L => exists FL, f_generate_integrated fs l = Ok FL /\ List.length FL = List.length L /\
      forall k v x, nth_error L k = Some v -> nth_error FL k = Some x -> is_finite x = true /\ (Rabs (B2R x - v) <= integral_error M Y N k)%R
  | Err e => f_generate_integrated fs l = Err e
  end.
Proof.
  intros s fs l ds M Y N SS P D W Ln. unfold sr_generate_integrated. destruct (sr_path s); [|contradiction]. rewrite D. cbn [bind].
  unfold f_generate_integrated. rewrite <- (grid_rewrite s fs ds l SS), D. cbn [bind].
  pose proof (of_int_val 0 ltac:(lia)) as V0. change (IZR 0) with 0%R in V0. pose proof W as (HM & HY & HN & _).
  assert (E0 : (Rabs (0 - 0) <= err_k M Y (/ 2 ^ 46 * (IZR N + 3)) 0)%R) by (unfold err_k; cbn [INR]; rewrite Rminus_0_r, Rabs_R0, Rmult_0_l; lra).
  assert (A0 : (Rabs 0 <= INR 0 * (M * Y))%R) by (cbn [INR]; rewrite Rabs_R0, Rmult_0_l; lra).
  pose proof (loop_near s fs M Y N ds SS W 0%nat (of_int 0) 0%R 0%R V0 E0 A0 ltac:(lia)) as H. cbv zeta in H.
  destruct (integral_loop s 0 0 (pairwise ds)) as [L|e]; cbn [bind snd]; [|rewrite H; reflexivity].
  destruct H as (FL & EF & LF & HF & _). rewrite EF. cbn [bind]. exists (of_int 0 :: FL). split; [reflexivity|]. split; [cbn [List.length]; f_equal; exact LF|].
  intros [|k] v x Hv Hx.
  - injection Hv as <-. assert (Ex : x = of_int 0) by (cbn [nth_error] in Hx; congruence). rewrite Ex. destruct V0 as [F0 B0]. split; [exact F0|]. rewrite B0. unfold integral_error. cbn [INR]. rewrite Rminus_0_r, Rabs_R0, Rmult_0_l. lra.
  - destruct (HF k v x Hv Hx) as [F0 B0]. split; [exact F0|]. apply Rle_trans with (1 := B0). replace (1 + k + 0)%nat with (Datatypes.S k) by lia. apply err_stated.
Qed.
Print Assumptions C120_integral.

(** The discount factors numpy makes of it *)
Theorem C120_discount : forall ex s fs l ds M Y N, libm_exp ex -> same_rates s fs ds -> sr_path s <> None -> sr_datetimes s l = Ok ds -> within_bounds s ds M Y N -> Z.of_nat (List.length ds) <= 2 ^ 20 ->
  (integral_error M Y N (List.length ds) <= 1 / 8)%R ->
  forall L FL, snd (sr_generate_integrated s l) = Ok L -> f_generate_integrated fs l = Ok FL -> (forall v, In v L -> (- 400 <= v)%R) ->
  exists DL, f_discount_values ex FL = Ok DL /\ List.length DL = List.length L /\
    forall k v z, nth_error L k = Some v -> nth_error DL k = Some z -> is_finite z = true /\ (Rabs (B2R z - exp (- v)) <= exp (- v) * (4 / 3 * integral_error M Y N k + / 2 ^ 51) + / 2 ^ 1074)%R.
Proof.
  intros ex s fs l ds M Y N HE SS P D W Ln Sm L FL HL HFL Lo.
  pose proof (C120_integral s fs l ds M Y N SS P D W Ln) as H. rewrite HL in H. destruct H as (FL' & H1 & H2 & H3). rewrite HFL in H1. injection H1 as <-.
  assert (LL : List.length L = List.length ds \/ (List.length L = 1)%nat /\ ds = []).
  { unfold sr_generate_integrated in HL. destruct (sr_path s); [|contradiction]. rewrite D in HL. cbn [bind] in HL. destruct (integral_loop s 0 0 (pairwise ds)) as [L'|] eqn:Q; [|discriminate]. cbn [bind snd] in HL. injection HL as <-.
    destruct (integral_loop_spec s ds 0%R L' Q) as [Ln' _]. cbn [List.length]. destruct ds as [|d ds']; [right; cbn in Q; injection Q as <-; auto|left; cbn [List.length] in *; lia]. }
  pose proof W as (HM & HY & HN & _).
  assert (mono : forall k, (k <= List.length ds)%nat -> (integral_error M Y N k <= 1 / 8)%R).
  { intros k K. apply Rle_trans with (2 := Sm). unfold integral_error. pose proof (pos_INR k) as K0. pose proof (le_INR _ _ K) as K1. destruct HN as [N0 _]. apply IZR_le in N0.
    assert (p52 : (0 <= / 2 ^ 52)%R) by (apply Rlt_le, Rinv_0_lt_compat, pow_lt; lra). assert (p45 : (0 <= / 2 ^ 45)%R) by (apply Rlt_le, Rinv_0_lt_compat, pow_lt; lra). assert (pp : (0 <= / 2 ^ 1000)%R) by (apply Rlt_le, Rinv_0_lt_compat, pow_lt; lra).
    assert (q1 : (0 <= (INR k + 8) * / 2 ^ 52 * Y)%R) by (apply Rmult_le_pos; [apply Rmult_le_pos; lra|lra]). assert (q2 : (0 <= / 2 ^ 45 * (IZR N + 3))%R) by (apply Rmult_le_pos; lra).
    assert (q3 : ((INR k + 8) * / 2 ^ 52 * Y <= (INR (List.length ds) + 8) * / 2 ^ 52 * Y)%R) by (apply Rmult_le_compat_r; [lra|]; apply Rmult_le_compat_r; lra).
    apply Rmult_le_compat; [exact K0| |exact K1|]; [apply Rplus_le_le_0_compat; [apply Rmult_le_pos; lra|lra]|]. apply Rplus_le_compat_r, Rmult_le_compat_l; lra. }
  assert (each : forall k v x, nth_error L k = Some v -> nth_error FL k = Some x -> exists z, ex (Bopp x) = Ok z /\ is_finite z = true /\ (Rabs (B2R z - exp (- v)) <= exp (- v) * (4 / 3 * integral_error M Y N k + / 2 ^ 51) + / 2 ^ 1074)%R).
  { intros k v x Hv Hx. destruct (H3 k v x Hv Hx) as [F0 B0]. assert (Kl : (k < List.length L)%nat) by (apply nth_error_Some; congruence).
    assert (Hk : (integral_error M Y N k <= 1 / 8)%R). { destruct LL as [LL|[LL ->]]; [apply mono; lia|]. replace k with 0%nat by lia. apply mono. cbn; lia. }
    set (d := integral_error M Y N k) in *. pose proof (Lo v (nth_error_In _ _ Hv)) as Lv. set (xr := B2R x) in *.
    assert (Fo : is_finite (Bopp x) = true) by (rewrite is_finite_Bopp; exact F0). assert (Bo : B2R (Bopp x) = (- xr)%R) by apply B2R_Bopp.
    assert (R0 : (- d <= xr - v <= d)%R) by (apply Rabs_le_inv in B0; lra).
    destruct (HE (Bopp x) Fo ltac:(rewrite Bo; lra)) as (z & Hz & Fz & Ez & _). exists z. split; [exact Hz|]. split; [exact Fz|]. rewrite Bo in Ez.
    set (E := exp (- v)) in *. assert (E0 : (0 < E)%R) by apply exp_pos. assert (Se : exp (- xr) = (E * exp (v - xr))%R) by (unfold E; rewrite <- exp_plus; f_equal; ring).
    assert (O1 : (Rabs (exp (v - xr) - 1) <= 4 / 3 * d)%R). { apply Rle_trans with (4 / 3 * Rabs (v - xr))%R; [apply exp_one; apply Rabs_le; lra|]. apply Rmult_le_compat_l; [lra|]. apply Rabs_le. lra. }
    assert (O2 : (exp (v - xr) <= 7 / 6)%R) by (apply Rabs_le_inv in O1; lra).
    assert (p52 : (0 <= / 2 ^ 52)%R) by (apply Rlt_le, Rinv_0_lt_compat, pow_lt; lra). assert (p51 : (/ 2 ^ 51 = 2 * / 2 ^ 52)%R) by (cbn [pow]; lra).
    replace (B2R z - E)%R with ((B2R z - exp (- xr)) + E * (exp (v - xr) - 1))%R by (rewrite Se; ring). apply Rle_trans with (1 := Rabs_triang _ _). rewrite (Rabs_mult E), (Rabs_pos_eq E) by lra. rewrite Se in Ez at 2.
    assert (G1 : (E * Rabs (exp (v - xr) - 1) <= E * (4 / 3 * d))%R) by (apply Rmult_le_compat_l; lra).
    assert (G2 : (/ 2 ^ 52 * (E * exp (v - xr)) <= / 2 ^ 52 * (E * 2))%R) by (apply Rmult_le_compat_l; [lra|]; apply Rmult_le_compat_l; lra).
    rewrite p51. replace (E * (4 / 3 * d + 2 * / 2 ^ 52))%R with (E * (4 / 3 * d) + / 2 ^ 52 * (E * 2))%R by ring. lra. }
  clear H3 LL mono Sm HL HFL Lo. unfold f_discount_values. revert FL H2 each. generalize (integral_error M Y N) as err. induction L as [|v L IH]; intros err FL H2 each.
  - destruct FL; [|discriminate]. exists []. split; [reflexivity|]. split; [reflexivity|]. intros [|k]; discriminate.
  - destruct FL as [|x FL]; [discriminate|]. injection H2 as H2. destruct (each 0%nat v x eq_refl eq_refl) as (z & Hz & Fz & Ez). cbn [mapM]. rewrite Hz. cbn [bind].
    destruct (IH (fun k => err (S k)) FL H2 (fun k v x A B => each (S k) v x A B)) as (DL & E1 & E2 & E3). rewrite E1. cbn [bind]. exists (z :: DL). split; [reflexivity|]. split; [cbn [List.length]; f_equal; exact E2|].
    intros [|k] v0 z0 A B; [injection A as <-; injection B as <-; auto|exact (E3 k v0 z0 A B)].
Qed.
Print Assumptions C120_discount.

(** Rates and computed accruals that are not negative: in doubles too the integral starts at 0 and never falls *)
Theorem C120_monotone : forall s fs l ds M Y N FL, same_rates s fs ds -> sr_path s <> None -> sr_datetimes s l = Ok ds -> within_bounds s ds M Y N -> Z.of_nat (List.length ds) <= 2 ^ 20 ->
  f_generate_integrated fs l = Ok FL ->
  (forall t r, In t ds -> fsr_rate fs t = Ok r -> (0 <= B2R r)%R) ->
  (forall t c, In t ds -> f_compute_accrual_length (Stamp (fsr_start fs)) (Stamp t) (fsr_dcc fs) = Ok c -> (0 <= B2R c)%R) ->
  forall j k x y, (j <= k)%nat -> nth_error FL j = Some x -> nth_error FL k = Some y -> is_finite x = true /\ is_finite y = true /\ (0 <= B2R x <= B2R y)%R.
Proof.
  intros s fs l ds M Y N FL SS P D W Ln EF G1 G2.
  pose proof (C120_integral s fs l ds M Y N SS P D W Ln) as HI. unfold sr_generate_integrated in HI. destruct (sr_path s); [|contradiction]. rewrite D in HI. cbn [bind] in HI.
  assert (EF' := EF). unfold f_generate_integrated in EF'. rewrite <- (grid_rewrite s fs ds l SS), D in EF'. cbn [bind] in EF'.
  pose proof (of_int_val 0 ltac:(lia)) as V0. change (IZR 0) with 0%R in V0. pose proof W as (HM & HY & HN & _).
  assert (E0 : (Rabs (0 - 0) <= err_k M Y (/ 2 ^ 46 * (IZR N + 3)) 0)%R) by (unfold err_k; cbn [INR]; rewrite Rminus_0_r, Rabs_R0, Rmult_0_l; lra).
  assert (A0 : (Rabs 0 <= INR 0 * (M * Y))%R) by (cbn [INR]; rewrite Rabs_R0, Rmult_0_l; lra).
  pose proof (loop_near s fs M Y N ds SS W 0%nat (of_int 0) 0%R 0%R V0 E0 A0 ltac:(lia)) as H. cbv zeta in H.
  destruct (integral_loop s 0 0 (pairwise ds)) as [L|e]; cbn [bind snd] in HI; [|rewrite EF in HI; discriminate].
  destruct HI as (FL0 & EF0 & LF0 & HF0). rewrite EF in EF0. injection EF0 as <-.
  destruct H as (FL1 & EF1 & LF1 & HF1 & MF1). rewrite EF1 in EF'. cbn [bind] in EF'. assert (EFL : FL = of_int 0 :: FL1) by congruence.
  assert (G1' : forall t v, In t ds -> sr_call s t = Ok v -> (0 <= v)%R).
  { intros t v T E. destruct SS as (_ & _ & _ & _ & SR). specialize (SR t T). rewrite E in SR. destruct SR as (x & X & [_ B]). rewrite <- B. exact (G1 t x T X). }
  specialize (MF1 G1' G2).
  assert (fin : forall k x, nth_error FL k = Some x -> is_finite x = true).
  { intros k x X. destruct (nth_error (0%R :: L) k) as [v|] eqn:V; [exact (proj1 (HF0 k v x V X))|]. apply nth_error_None in V. assert (k < List.length FL)%nat by (apply nth_error_Some; congruence). rewrite LF0 in *. lia. }
  assert (So : StronglySorted Rle (List.map (fun x : f64 => B2R x) FL)) by (rewrite EFL; cbn [List.map]; rewrite (proj2 V0); exact MF1).
  assert (low : forall k x, nth_error FL k = Some x -> (0 <= B2R x)%R).
  { intros [|k] x X.
    - rewrite EFL in X. assert (Ex : x = of_int 0) by (cbn [nth_error] in X; congruence). rewrite Ex, (proj2 V0). lra.
    - rewrite EFL in X. cbn [nth_error] in X. inversion MF1 as [|? ? _ FA]; subst. rewrite Forall_forall in FA. apply FA, (in_map (fun x : f64 => B2R x)), (nth_error_In _ _ X). }
  intros j k x y J X Y0. split; [exact (fin j x X)|]. split; [exact (fin k y Y0)|]. split; [exact (low j x X)|].
  clear - So J X Y0. revert j k J X Y0. induction FL as [|z FL IH]; intros j k J X Y0; [destruct j; discriminate|]. cbn [List.map] in So. inversion So as [|? ? S1 FA]; subst.
  destruct j as [|j]; destruct k as [|k]; try lia.
  - cbn [nth_error] in X, Y0. assert (E : x = y) by congruence. rewrite E. lra.
  - cbn [nth_error] in X, Y0. assert (E : z = x) by congruence. rewrite <- E. rewrite Forall_forall in FA. apply FA, (in_map (fun x : f64 => B2R x)), (nth_error_In _ _ Y0).
  - exact (IH S1 j k ltac:(lia) X Y0).
Qed.
Print Assumptions C120_monotone.

(** ... and the discount factors stay between 0 and 1 *)
Theorem C120_discount_range : forall ex s fs l ds M Y N FL DL, libm_exp ex -> same_rates s fs ds -> sr_path s <> None -> sr_datetimes s l = Ok ds -> within_bounds s ds M Y N -> Z.of_nat (List.length ds) <= 2 ^ 20 ->
  f_generate_integrated fs l = Ok FL ->
  (forall t r, In t ds -> fsr_rate fs t = Ok r -> (0 <= B2R r)%R) ->
  (forall t c, In t ds -> f_compute_accrual_length (Stamp (fsr_start fs)) (Stamp t) (fsr_dcc fs) = Ok c -> (0 <= B2R c)%R) ->
  f_discount_values ex FL = Ok DL -> List.length DL = List.length FL /\ forall k z, nth_error DL k = Some z -> is_finite z = true /\ (0 <= B2R z <= 1)%R /\ (k = 0%nat -> B2R z = 1%R).
Proof.
  intros ex s fs l ds M Y N FL DL HE SS P D W Ln EF G1 G2 ED.
  pose proof (C120_monotone s fs l ds M Y N FL SS P D W Ln EF G1 G2) as Mo.
  assert (first : forall x, nth_error FL 0 = Some x -> B2R x = 0%R).
  { intros x X. unfold f_generate_integrated in EF. rewrite <- (grid_rewrite s fs ds l SS), D in EF. cbn [bind] in EF. destruct (f_integral_loop fs (of_int 0) (pairwise ds)) as [FL1|]; [|discriminate]. cbn [bind] in EF.
    assert (Ex : x = of_int 0) by (assert (FL = of_int 0 :: FL1) as -> by congruence; cbn [nth_error] in X; congruence). rewrite Ex. pose proof (of_int_val 0 ltac:(lia)) as V0. exact (proj2 V0). }
  unfold f_discount_values in ED. apply CurveFacts.mapM_Forall2 in ED. assert (LE : List.length DL = List.length FL) by (clear - ED; induction ED; cbn [List.length]; congruence). split; [exact LE|]. intros k z Z0.
  assert (Kl : (k < List.length FL)%nat) by (rewrite <- LE; apply nth_error_Some; congruence).
  destruct (nth_error FL k) as [x|] eqn:X; [|apply nth_error_None in X; lia]. destruct (Mo k k x x ltac:(lia) X X) as (Fx & _ & Lx & _).
  assert (Hz : ex (Bopp x) = Ok z). { clear - ED X Z0. revert k X Z0. induction ED as [|a b FL DL E _ IH]; intros [|k] X Z0; try discriminate; cbn [nth_error] in X, Z0; [|exact (IH k X Z0)]. assert (a = x) as <- by congruence. assert (b = z) as <- by congruence. exact E. }
  assert (Fo : is_finite (Bopp x) = true) by (rewrite is_finite_Bopp; exact Fx). assert (Bo : B2R (Bopp x) = (- B2R x)%R) by apply B2R_Bopp.
  destruct (HE (Bopp x) Fo ltac:(rewrite Bo; lra)) as (z' & Hz' & Fz & _ & Or). assert (z' = z) as -> by congruence. split; [exact Fz|]. rewrite Bo in Or.
  destruct (of_int_val 0 ltac:(lia)) as [F0 B0]. destruct (of_int_val 1 ltac:(lia)) as [F1 B1]. change (IZR 0) with 0%R in B0. change (IZR 1) with 1%R in B1.
  destruct (exp_nonpos (B2R x) Lx) as [E0 E1]. destruct (Or (of_int 1) F1) as [O1 O2]. destruct (Or (of_int 0) F0) as [_ O3]. rewrite B0 in O3. rewrite B1 in O1, O2.
  split; [split; [apply O3|apply O1]; lra|]. intros ->. pose proof (first x X) as X0. rewrite X0 in *. rewrite Ropp_0, exp_0 in *. specialize (O1 ltac:(lra)). specialize (O2 ltac:(lra)). lra.
Qed.
Print Assumptions C120_discount_range.

(** A concrete case: a rate constantly 3 over four days of 2024 *)
Definition f_flat (s : short_rate) : f_short_rate := FShortRate (bm_start (sr_bm s)) (bm_end (sr_bm s)) (sr_dt s) (bm_dcc (sr_bm s)) (fun _ => Ok (of_int 3)).
Example C120_case : exists s h L FL, sr_generate_path flat_rate two_starts 0 true ones = (s, h, Ok tt) /\ sr_path s <> None /\ sr_datetimes s None = Ok days_2024 /\ same_rates s (f_flat s) days_2024 /\ within_bounds s days_2024 3 1 0 /\
  snd (sr_generate_integrated s None) = Ok L /\ List.length L = 5%nat /\ f_generate_integrated (f_flat s) None = Ok FL /\ (exists v x, nth_error L 2 = Some v /\ nth_error FL 2 = Some x /\ v = (9 / 360)%R /\ (Rabs (B2R x - 9 / 360) <= / 2 ^ 39)%R) /\
  (integral_error 3 1 0 5 <= 1 / 8)%R /\ (forall v, In v L -> (- 400 <= v)%R) /\
  (forall t r, In t days_2024 -> fsr_rate (f_flat s) t = Ok r -> (0 <= B2R r)%R) /\
  (forall t c, In t days_2024 -> f_compute_accrual_length (Stamp (fsr_start (f_flat s))) (Stamp t) (fsr_dcc (f_flat s)) = Ok c -> (0 <= B2R c)%R).
Proof.
  destruct (flat_generate flat_rate two_starts 0) as (s & h & G & Fr & Fh & P & In_ & Ed & Ef & Ec & Ep & E1 & E2 & E3 & C); try reflexivity; [cbn; lia|].
  change (arr two_starts 0%nat 0%nat) with 3%R in C. destruct (flat_discount s 3%R P In_ Ed E1 E2 E3 C) as (D & (s2 & L & HI) & _).
  pose proof (of_int_val 3 ltac:(lia)) as V3.
  assert (SS : same_rates s (f_flat s) days_2024). { split; [reflexivity|]. split; [reflexivity|]. split; [reflexivity|]. split; [reflexivity|]. intros t T. rewrite (C t T). exists (of_int 3). split; [reflexivity|exact V3]. }
  assert (W : within_bounds s days_2024 3 1 0).
  { split; [lra|]. split; [lra|]. split; [lia|]. split; [rewrite E1; apply (day_ok 0); lia|]. intros t T. destruct (days_in t T) as (k & K & Ek). split; [rewrite Ek; apply day_ok; lia|]. split; [|split].
    - rewrite Ek, E1. assert (Kc : k = 0 \/ k = 1 \/ k = 2 \/ k = 3 \/ k = 4) by lia. destruct Kc as [-> | [-> | [-> | [-> | ->]]]]; vm_compute; discriminate.
    - intros r R. rewrite (C t T) in R. injection R as <-. rewrite Rabs_pos_eq; lra.
    - intros q Q. rewrite Ek, E1, E3 in Q. destruct (accrual_day k K) as (T' & HT & VT). rewrite HT in Q. injection Q as <-. rewrite VT. destruct K as [K0 K1]. apply IZR_le in K0, K1. rewrite Rabs_pos_eq; lra. }
  assert (HL : snd (sr_generate_integrated s None) = Ok L) by (rewrite HI; reflexivity).
  pose proof (C120_integral s (f_flat s) None days_2024 3 1 0 SS P D W ltac:(vm_compute; discriminate)) as H. rewrite HL in H. destruct H as (FL & H1 & H2 & H3).
  destruct (C52_constant_rate s None days_2024 s2 L 3%R D ltac:(discriminate) HI) as (K & _); [intros t v J E; rewrite (C t J) in E; congruence|].
  destruct (C52_integral s None days_2024 s2 L D ltac:(discriminate) HI) as (Ln & _).
  assert (Small : forall k, (k <= 5)%nat -> (integral_error 3 1 0 k <= / 2 ^ 39)%R).
  { intros k Kk. apply (le_INR k 5) in Kk. change (INR 5) with (1 + 1 + 1 + 1 + 1)%R in Kk. pose proof (pos_INR k) as K0. unfold integral_error. rewrite u_52. assert (T1 : (/ 2 ^ 45 = 1 / 35184372088832)%R) by (cbn [pow]; lra). assert (T2 : (/ 2 ^ 39 = 1 / 549755813888)%R) by (cbn [pow]; lra).
    assert (T3 : (0 <= / 2 ^ 1000 <= 1 / 100000000000000)%R). { split; [apply Rlt_le, Rinv_0_lt_compat, pow_lt; lra|]. replace (1 / 100000000000000)%R with (/ 100000000000000)%R by lra. apply Rinv_le_contravar; [lra|]. apply Rle_trans with (2 ^ 47)%R; [cbn [pow]; lra|]. apply Rle_pow; [lra|lia]. }
    rewrite T1, T2, u_num. apply Rle_trans with (5 * (3 * ((5 + 8) * (2 * (1 / 9007199254740992)) * 1 + 1 / 35184372088832 * (0 + 3)) + 1 / 100000000000000))%R; [|lra].
    apply Rmult_le_compat; [exact K0| |lra|].
    - assert (0 <= INR k * (1 / 9007199254740992))%R by (apply Rmult_le_pos; lra). lra.
    - lra. }
  exists s, h, L, FL. split; [exact G|]. split; [exact P|]. split; [exact D|]. split; [exact SS|]. split; [exact W|]. split; [exact HL|]. split; [exact Ln|]. split; [exact H1|].
  assert (Val : forall k v, nth_error L k = Some v -> (- 400 <= v)%R /\ (k = 2%nat -> v = 9 / 360)%R).
  { intros k v V. rewrite (K k v V), E1, E3. assert (Kl : (k < List.length L)%nat) by (apply nth_error_Some; congruence). rewrite Ln in Kl. change (List.length days_2024) with 5%nat in Kl.
    destruct (accrual_day 1 ltac:(lia)) as (T1 & HT1 & V1). destruct (accrual_day 2 ltac:(lia)) as (T2 & HT2 & V2). destruct (accrual_day 3 ltac:(lia)) as (T3 & HT3 & V4). destruct (accrual_day 4 ltac:(lia)) as (T4 & HT4 & V5).
    assert (Kc : (k = 0 \/ k = 1 \/ k = 2 \/ k = 3 \/ k = 4)%nat) by lia. destruct Kc as [-> | [-> | [-> | [-> | ->]]]]; cbn [accruals_to]; change (nth_error days_2024 1) with (Some (t_day 1)); change (nth_error days_2024 2) with (Some (t_day 2)); change (nth_error days_2024 3) with (Some (t_day 3)); change (nth_error days_2024 4) with (Some (t_day 4)); cbv iota; rewrite ?HT1, ?HT2, ?HT3, ?HT4, ?V1, ?V2, ?V4, ?V5; (split; [lra|intros Z0; first [discriminate Z0|lra]]). }
  split; [|split; [|split; [|split]]].
  - destruct (nth_error L 2) as [v|] eqn:V; [|apply nth_error_None in V; rewrite Ln in V; cbn in V; lia]. destruct (nth_error FL 2) as [x|] eqn:X; [|apply nth_error_None in X; rewrite H2, Ln in X; cbn in X; lia].
    exists v, x. split; [reflexivity|]. split; [reflexivity|]. destruct (Val 2%nat v V) as [_ Ev]. specialize (Ev eq_refl). split; [exact Ev|]. rewrite <- Ev. destruct (H3 2%nat v x V X) as [_ B]. apply Rle_trans with (1 := B). apply Small. lia.
  - apply Rle_trans with (1 := Small 5%nat ltac:(lia)). assert (T2 : (/ 2 ^ 39 = 1 / 549755813888)%R) by (cbn [pow]; lra). lra.
  - intros v Iv. apply In_nth_error in Iv. destruct Iv as [k Hk]. apply (Val k v Hk).
  - intros t r _ R. assert (r = of_int 3) as -> by (cbn [fsr_rate f_flat] in R; congruence). rewrite (proj2 V3). lra.
  - intros t c T Hc. cbn [fsr_start fsr_dcc f_flat] in Hc. rewrite E1, E3 in Hc. destruct (days_in t T) as (k & K0 & ->). clear - K0 Hc.
    assert (Kc : k = 0 \/ k = 1 \/ k = 2 \/ k = 3 \/ k = 4) by lia.
    assert (Pos : match f_compute_accrual_length (Stamp (t_day 0)) (Stamp (t_day k)) ACT360 with Ok c => negb (Bsign c) | Err _ => true end = true) by (destruct Kc as [-> | [-> | [-> | [-> | ->]]]]; vm_compute; reflexivity).
    rewrite Hc in Pos. apply Bool.negb_true_iff in Pos. clear Hc. destruct c as [? | ? | | sg m e B]; cbn; try lra. destruct sg; [discriminate|]. apply F2R_ge_0. cbn. lia.
Qed.
