(** Overnight compounding and swap legs in double precision: C109. *)
From Verif Require Import Base PyDate PyDateFacts DayCount DayCountFacts Holidays Scheduler SchedulerFacts ModFollFacts PyList KeyRate KeyRateFacts Curve CurveFacts Cashflow CashflowFacts Bond Loan LoanFacts LoopFacts Swap SwapFacts P_BondYield P_DayCount P_Scheduler P_Swap Float FloatFacts FloatDayCount P_FloatDayCount FloatKeyRate FloatCashflow P_FloatBond FloatSwap.

From Coq Require Import Lra Reals Qreals Sorting.Sorted.
From Flocq Require Import Core BinarySingleNaN.
Open Scope Z_scope.
Local Opaque add_business_days.

Lemma u_tiny : (0 < u < 1 / 1000000000000)%R.
Proof. unfold u. split; [apply bpow_gt_0|]. apply Rlt_trans with (bpow radix2 (-40)); [apply bpow_lt; reflexivity|]. cbn. lra. Qed.
(** also with underflow *)
Lemma rn_abs x : (Rabs (rn x - x) <= u * Rabs x + 2 * small)%R.
Proof.
  pose proof (bpow_ge_0 radix2 (-1022)) as S0. fold small in S0. destruct (Rle_or_lt small (Rabs x)) as [H|H].
  - pose proof (rn_err x (or_intror H)). lra.
  - assert (Fs : rn small = small) by (apply (val_format (flit 1 (-1022)) small); replace small with (1 * bpow radix2 (-1022))%R by (unfold small; ring); apply flit_val; lia).
    apply Rlt_le in H. pose proof H as Hx. apply Rabs_le_inv in H. destruct H as [H1 H2]. apply rn_le in H1, H2. rewrite rn_opp, Fs in H1. rewrite Fs in H2.
    assert (Rabs (rn x) <= small)%R by (apply Rabs_le; lra).
    pose proof u_tiny. assert (0 <= u * Rabs x)%R by (apply Rmult_le_pos; [lra|apply Rabs_pos]). replace (rn x - x)%R with (rn x + - x)%R by ring. apply Rle_trans with (1 := Rabs_triang _ _). rewrite Rabs_Ropp. lra.
Qed.
Lemma small_u : (2 * small <= u * u * u)%R.
Proof. change 2%R with (bpow radix2 1). unfold small, u. rewrite <- !bpow_plus. apply bpow_le. lia. Qed.

(** one day's growth factor 1 + rate * accrual *)
Lemma factor_near r x rho q v : val r rho -> (Rabs rho <= 1)%R -> val x v -> near 4 q v -> (0 <= q <= 1 / 2)%R ->
  exists p w, val (fmul r x) p /\ p = rn (rho * v) /\ val (fadd (of_int 1) (fmul r x)) w /\ w = rn (1 + p) /\ (Rabs p <= 3 / 5)%R /\ (Rabs (w - (1 + rho * q)) <= 5 * u)%R.
Proof.
  intros Vr Br Vx Nx Bq. pose proof u_tiny as Us. pose proof (near_abs _ _ _ Nx) as E1. rewrite (Rabs_pos_eq q) in E1 by lra.
  assert (E2 : (Rabs (v - q) <= 2 * u)%R). { apply Rle_trans with (1 := E1). assert (4 * u * q <= 4 * u * (1 / 2))%R by (apply Rmult_le_compat_l; lra). lra. }
  assert (E3 : (Rabs (rho * v - rho * q) <= 2 * u)%R).
  { replace (rho * v - rho * q)%R with (rho * (v - q))%R by ring. rewrite Rabs_mult. pose proof (Rabs_pos rho). pose proof (Rabs_pos (v - q)). assert (Rabs rho * Rabs (v - q) <= 1 * Rabs (v - q))%R by (apply Rmult_le_compat_r; lra). lra. }
  assert (E4 : (Rabs (rho * q) <= 1 / 2)%R).
  { rewrite Rabs_mult, (Rabs_pos_eq q) by lra. pose proof (Rabs_pos rho). assert (Rabs rho * q <= 1 * q)%R by (apply Rmult_le_compat_r; lra). lra. }
  assert (E5 : (Rabs (rho * v) <= 11 / 20)%R) by (replace (rho * v)%R with (rho * q + (rho * v - rho * q))%R by ring; apply Rle_trans with (1 := Rabs_triang _ _); lra).
  assert (B1 : (1 <= big)%R) by (change 1%R with (bpow radix2 0); apply bpow_le; lia). assert (B2 : (2 <= big)%R) by (change 2%R with (bpow radix2 1); apply bpow_le; lia).
  pose proof (fmul_val r x rho v Vr Vx ltac:(lra)) as Vp. set (p := rn (rho * v)) in *. pose proof (rn_abs (rho * v)) as E6. fold p in E6. pose proof small_u as Su.
  assert (U1 : (u * u * u <= u * (1 / 100))%R). { replace (u * u * u)%R with (u * (u * u))%R by ring. apply Rmult_le_compat_l; [lra|]. assert (u * u <= 1 * u)%R by (apply Rmult_le_compat_r; lra). lra. }
  assert (E7 : (u * Rabs (rho * v) <= u * (11 / 20))%R) by (apply Rmult_le_compat_l; lra).
  assert (E8 : (Rabs (p - rho * q) <= 2 * u + 6 / 10 * u)%R). { replace (p - rho * q)%R with ((p - rho * v) + (rho * v - rho * q))%R by ring. apply Rle_trans with (1 := Rabs_triang _ _). lra. }
  assert (E9 : (Rabs p <= 3 / 5)%R) by (replace p with (rho * q + (p - rho * q))%R by ring; apply Rle_trans with (1 := Rabs_triang _ _); lra).
  assert (Ea : (Rabs (1 + p) <= 8 / 5)%R) by (apply Rle_trans with (1 := Rabs_triang _ _); rewrite Rabs_R1; lra).
  pose proof (of_int_val 1 ltac:(lia)) as V1. pose proof (fadd_val _ _ _ _ V1 Vp ltac:(lra)) as Vw. pose proof (rn_plus_err _ _ _ _ V1 Vp) as Eb.
  assert (Ec : (u * Rabs (1 + p) <= u * (8 / 5))%R) by (apply Rmult_le_compat_l; lra).
  exists p, (rn (1 + p)). split; [exact Vp|]. split; [reflexivity|]. split; [exact Vw|]. split; [reflexivity|]. split; [exact E9|].
  replace (rn (1 + p) - (1 + rho * q))%R with ((rn (1 + p) - (1 + p)) + (p - rho * q))%R by ring. apply Rle_trans with (1 := Rabs_triang _ _). lra.
Qed.

(** exponential bounds on the growth *)
Lemma grow_up S G x q : (0 < G <= exp S)%R -> (Rabs x <= q)%R -> (0 <= q)%R -> (0 <= 1 + x)%R -> (G * (1 + x) <= exp (S + q))%R.
Proof.
  intros [G0 G1] X Q F. apply Rabs_le_inv in X. rewrite exp_plus. apply Rmult_le_compat; try lra. apply Rle_trans with (1 + q)%R; [lra|]. destruct (Req_dec q 0) as [-> | N]; [rewrite exp_0; lra|]. apply Rlt_le, exp_ineq1. exact N.
Qed.
Lemma grow_down S G x q : (exp (- (2 * S)) <= G)%R -> (Rabs x <= q)%R -> (0 <= q <= 1 / 2)%R -> (exp (- (2 * (S + q))) <= G * (1 + x))%R.
Proof.
  intros G1 X Q. apply Rabs_le_inv in X. replace (- (2 * (S + q)))%R with (- (2 * S) + - (2 * q))%R by ring. rewrite exp_plus. pose proof (exp_pos (- (2 * S))) as P1.
  apply Rmult_le_compat; [lra|apply Rlt_le, exp_pos|exact G1|]. apply Rle_trans with (1 - q)%R; [|lra].
  rewrite exp_Ropp. assert (L : (1 + 2 * q <= exp (2 * q))%R) by (destruct (Req_dec q 0) as [-> | N]; [rewrite Rmult_0_r, exp_0; lra|apply Rlt_le, exp_ineq1; lra]).
  apply Rle_trans with (/ (1 + 2 * q))%R; [apply Rinv_le; lra|]. apply Rmult_le_reg_r with (1 + 2 * q)%R; [lra|]. rewrite Rinv_l by lra.
  assert (0 <= q * (1 - 2 * q))%R by (apply Rmult_le_pos; lra). replace ((1 - q) * (1 + 2 * q))%R with (1 + q * (1 - 2 * q))%R by ring. lra.
Qed.
Lemma exp_cap S : (0 <= S <= 102)%R -> (exp S <= bpow radix2 204)%R.
Proof.
  intros B. assert (E : (exp 1 <= bpow radix2 2)%R) by (apply Rle_trans with (1 := exp_le_3); cbn; lra).
  assert (P : forall n, (exp (INR n) <= bpow radix2 (2 * Z.of_nat n))%R).
  { induction n as [|n IH]; [cbn; rewrite exp_0; lra|]. rewrite S_INR, exp_plus. replace (2 * Z.of_nat (Datatypes.S n)) with (2 * Z.of_nat n + 2) by lia. rewrite bpow_plus. apply Rmult_le_compat; try apply Rlt_le, exp_pos; assumption. }
  apply Rle_trans with (exp (INR 102)); [|exact (P 102%nat)]. replace (INR 102) with 102%R by (rewrite INR_IZR_INZ; reflexivity). destruct (Rle_lt_or_eq_dec S 102 (proj2 B)) as [L | ->]; [apply Rlt_le, exp_increasing, L|lra].
Qed.
Lemma growth_mid S G : (0 <= S <= 102)%R -> (exp (- (2 * S)) <= G <= exp S)%R -> (bpow radix2 (-408) <= G <= bpow radix2 408)%R.
Proof.
  intros B [L H]. pose proof (exp_cap S B) as C. split.
  - apply Rle_trans with (2 := L). replace (- (2 * S))%R with (- (S + S))%R by ring. rewrite exp_Ropp, exp_plus. replace (-408)%Z with (- (204 + 204))%Z by lia. rewrite bpow_opp, bpow_plus. pose proof (exp_pos S). apply Rinv_le; [apply Rmult_lt_0_compat; assumption|]. apply Rmult_le_compat; lra.
  - apply Rle_trans with (1 := H). apply Rle_trans with (1 := C). apply bpow_le. lia.
Qed.

(** one step of the loop *)
Lemma growth_step k g G gam F w fw : (0 <= k <= 40000)%R -> val g gam -> near (12 * k) G gam -> val fw w -> (1 / 2 <= F <= 3 / 2)%R -> (Rabs (w - F) <= 5 * u)%R ->
  (bpow radix2 (-408) <= G <= bpow radix2 408)%R ->
  val (fmul g fw) (rn (gam * w)) /\ near (12 * (k + 1)) (G * F) (rn (gam * w)) /\ (0 <= gam)%R /\ (0 <= w)%R.
Proof.
  intros K Vg (d & D & ->) Vw BF E BG. pose proof u_tiny as Us. pose proof (bpow_gt_0 radix2 (-408)) as B0.
  assert (K1 : (12 * k * u <= 480000 * u)%R) by (apply Rmult_le_compat_r; lra). pose proof (Rabs_le_inv _ _ D) as D'.
  set (e := ((w - F) / F)%R). assert (He : (Rabs e <= 10 * u)%R).
  { unfold e, Rdiv. rewrite Rabs_mult, Rabs_inv, (Rabs_pos_eq F) by lra. apply Rmult_le_reg_r with F; [lra|]. rewrite Rmult_assoc, Rinv_l, Rmult_1_r by lra. apply Rle_trans with (1 := E).
    assert (10 * u * (1 / 2) <= 10 * u * F)%R by (apply Rmult_le_compat_l; lra). lra. }
  assert (Ew : w = (F * (1 + e))%R) by (unfold e; field; lra). pose proof (Rabs_le_inv _ _ He) as He'.
  set (f := (d + e + d * e)%R). assert (Hf : (Rabs f <= 12 * k * u + 10 * u + 1 / 4 * u)%R).
  { unfold f. apply Rle_trans with (1 := Rabs_triang _ _). rewrite Rabs_mult. pose proof (Rabs_triang d e). pose proof (Rabs_pos d). pose proof (Rabs_pos e). assert (Rabs d * Rabs e <= 1 / 100000 * (10 * u))%R by (apply Rmult_le_compat; lra). lra. }
  assert (Ep : (G * (1 + d) * w = G * F * (1 + f))%R) by (rewrite Ew; unfold f; ring).
  assert (M : mid (G * F)).
  { right. assert (B1 : (0 < G * F)%R) by (apply Rmult_lt_0_compat; lra). rewrite Rabs_pos_eq by lra. split.
    - apply Rle_trans with (bpow radix2 (-408) * bpow radix2 (-1))%R; [rewrite <- bpow_plus; apply bpow_le; lia|]. change (bpow radix2 (-1)) with (/ 2)%R. apply Rmult_le_compat; lra.
    - apply Rle_trans with (bpow radix2 408 * bpow radix2 1)%R; [|rewrite <- bpow_plus; apply bpow_le; lia]. change (bpow radix2 1) with 2%R. apply Rmult_le_compat; lra. }
  destruct (mid_range _ f M ltac:(lra)) as [Sm Bg]. rewrite <- Ep in Sm, Bg.
  split; [apply fmul_val; [exact Vg|exact Vw|exact Bg]|].
  assert (Er : (Rabs (rn (G * (1 + d) * w) - G * (1 + d) * w) <= 1 * u * Rabs (G * (1 + d) * w))%R) by (rewrite Rmult_1_l; apply rn_err, Sm).
  destruct (near_of_abs 1 _ _ ltac:(lra) Er) as (h & H & Eh). split.
  - exists (f + h + f * h)%R. split; [|rewrite Eh, Ep; ring]. apply Rle_trans with (1 := Rabs_triang _ _). rewrite Rabs_mult. pose proof (Rabs_triang f h). pose proof (Rabs_pos f). pose proof (Rabs_pos h).
    assert (Rabs f * Rabs h <= 1 / 100000 * (1 * u))%R by (apply Rmult_le_compat; lra). lra.
  - split; [apply Rmult_le_pos; lra|]. rewrite Ew. apply Rmult_le_pos; lra.
Qed.
Lemma total_step k t T tau a x v : (0 <= k <= 40000)%R -> val t tau -> near (5 + 2 * k) T tau -> (0 <= T <= 102)%R -> val x v -> near 4 a v -> (0 <= a <= 1)%R ->
  val (fadd t x) (rn (tau + v)) /\ near (5 + 2 * (k + 1)) (T + a) (rn (tau + v)).
Proof.
  intros K Vt Nt BT Vx Nx Ba. pose proof u_tiny as Us. pose proof (near_abs _ _ _ Nt) as Et. pose proof (near_abs _ _ _ Nx) as Ex. rewrite (Rabs_pos_eq T) in Et by lra. rewrite (Rabs_pos_eq a) in Ex by lra.
  assert (K1 : (0 <= (5 + 2 * k) * u <= 1 / 100000)%R). { split; [apply Rmult_le_pos; lra|]. apply Rle_trans with (100000 * u)%R; [apply Rmult_le_compat_r; lra|lra]. }
  set (c := ((5 + 2 * k) * u)%R) in *. assert (E0 : (4 * u * a <= c * a)%R) by (apply Rmult_le_compat_r; [lra|]; unfold c; apply Rmult_le_compat_r; lra).
  assert (E1 : (Rabs (tau + v - (T + a)) <= c * (T + a))%R) by (replace (tau + v - (T + a))%R with ((tau - T) + (v - a))%R by ring; apply Rle_trans with (1 := Rabs_triang _ _); lra).
  assert (C1 : (c * (T + a) <= 1 / 100000 * (T + a))%R) by (apply Rmult_le_compat_r; lra).
  assert (E2 : (Rabs (tau + v) <= 101 / 100 * (T + a))%R) by (replace (tau + v)%R with ((T + a) + (tau + v - (T + a)))%R by ring; apply Rle_trans with (1 := Rabs_triang _ _); rewrite (Rabs_pos_eq (T + a)) by lra; lra).
  assert (B : (256 <= big)%R) by (change 256%R with (bpow radix2 8); apply bpow_le; lia).
  split; [apply fadd_val; [exact Vt|exact Vx|lra]|]. apply near_of_abs; [lra|]. rewrite (Rabs_pos_eq (T + a)) by lra.
  pose proof (rn_plus_err _ _ _ _ Vt Vx) as E3. assert (E4 : (u * Rabs (tau + v) <= u * (101 / 100 * (T + a)))%R) by (apply Rmult_le_compat_l; lra).
  replace (rn (tau + v) - (T + a))%R with ((rn (tau + v) - (tau + v)) + (tau + v - (T + a)))%R by ring. apply Rle_trans with (1 := Rabs_triang _ _).
  assert (0 <= u * (T + a))%R by (apply Rmult_le_pos; lra). replace ((5 + 2 * (k + 1)) * u * (T + a))%R with (c * (T + a) + 2 * (u * (T + a)))%R by (unfold c; ring). lra.
Qed.

(** ---- specification ---- *)
(** the same rates as exact numbers *)
Definition exact_rate (rate : date -> res f64) (d : date) : res R := do r <- rate d; Ok (B2R r).
(** every rate the callable returns on these dates is finite and at most 100% in size *)
Definition moderate (rate : date -> res f64) (ds : list date) : Prop := forall d r, In d ds -> rate d = Ok r -> is_finite r = true /\ (Rabs (B2R r) <= 1)%R.
(** at most a century, with no two consecutive business days more than 180 days apart *)
Definition ordinary_period (cal : calendar) (s e : date) : Prop :=
  date_ok s /\ date_ok e /\ e - s <= 36525 /\ forall ds i x y, generate_business_days s e cal = Ok ds -> nth_error ds i = Some x -> nth_error ds (S i) = Some y -> y - x <= 180.

(** the values of the loop *)
Definition rate_of (rate : date -> res f64) (d : date) : R := match rate d with Ok r => B2R r | Err _ => 0%R end.
Definition accrual_of (s e : date) : R := match f_compute_accrual_length (Day s) (Day e) ACT360 with Ok x => B2R x | Err _ => 0%R end.
Fixpoint vcomp (rho : date -> R) (l : list (date * date)) (g : R) : R :=
  match l with [] => g | (s, e) :: l => vcomp rho l (rn (g * rn (1 + rn (rho s * accrual_of s e)))) end.
Fixpoint years_of (l : list (date * date)) : R := match l with [] => 0%R | (s, e) :: l => (IZR (e - s) / 360 + years_of l)%R end.
Definition day_pair (p : date * date) : Prop := date_ok (fst p) /\ date_ok (snd p) /\ fst p <= snd p /\ snd p - fst p <= 180.

Lemma act360_ok s e : s <= e -> exists q, acc ACT360 s e = Ok q /\ Q2R q = (IZR (e - s) / 360)%R.
Proof.
  intros L. unfold acc. rewrite q_compute_days. replace (s <=? e) with true by lia. cbn [q_fun]. unfold dcc_act_over_360. eexists. split; [reflexivity|].
  rewrite Q2R_div by discriminate. unfold Q2R. cbn. field.
Qed.
Lemma years_nonneg l : Forall day_pair l -> (0 <= years_of l)%R.
Proof.
  induction 1 as [|[s e] l (Os & Oe & L & G) F IH]; cbn [years_of fst snd] in *; [lra|]. assert (0 <= IZR (e - s))%R by (apply IZR_le; lia). lra.
Qed.
Lemma loop_near rate l : Forall day_pair l -> moderate rate (List.map fst l) -> forall k G T g t gam tau,
  (Z.of_nat k + Z.of_nat (List.length l) <= 40000) -> val g gam -> near (12 * INR k) G gam -> val t tau -> near (5 + 2 * INR k) (Q2R T) tau ->
  (0 <= Q2R T)%R -> (Q2R T + years_of l <= 102)%R -> (exp (- (2 * Q2R T)) <= G <= exp (Q2R T))%R ->
  match compound (exact_rate rate) l G T with
  | Err e => f_compound rate l g t = Err e
  | Ok (G', T') => exists g' t' tau', f_compound rate l g t = Ok (g', t') /\ val g' (vcomp (rate_of rate) l gam) /\ near (12 * INR (k + List.length l)) G' (vcomp (rate_of rate) l gam) /\
      val t' tau' /\ near (5 + 2 * INR (k + List.length l)) (Q2R T') tau' /\ (exp (- (2 * Q2R T')) <= G' <= exp (Q2R T'))%R /\ Q2R T' = (Q2R T + years_of l)%R
  end.
Proof.
  induction 1 as [|[s e] l (Os & Oe & L & Gap) Fl IH]; intros Mo k G T g t gam tau Kb Vg Ng Vt Nt T0 T1 BG.
  - cbn [compound f_compound vcomp years_of List.length]. exists g, t, tau. rewrite Nat.add_0_r, Rplus_0_r. repeat (split; [first [reflexivity|assumption]|]). reflexivity.
  - cbn [compound f_compound vcomp years_of fst snd] in *. destruct (act360_ok s e L) as (q & A & Vq). rewrite A. cbn [bind].
    destruct (acc_near _ _ _ _ Os Oe A) as (x & v & Fx & Vx & Nx & _). rewrite Fx. cbn [bind]. unfold exact_rate at 1. destruct (rate s) as [r|er] eqn:Er; cbn [bind]; [|reflexivity].
    destruct (Mo s r (or_introl eq_refl) Er) as [Fr Br]. assert (Vr : val r (B2R r)) by (split; auto).
    assert (Bq : (0 <= Q2R q <= 1 / 2)%R). { rewrite Vq. assert (0 <= IZR (e - s))%R by (apply IZR_le; lia). assert (IZR (e - s) <= 180)%R by (apply IZR_le; lia). lra. }
    destruct (factor_near r x (B2R r) (Q2R q) v Vr Br Vx Nx Bq) as (p & w & Vp & Ep & Vw & Ew & Bp & Dw).
    pose proof (years_nonneg l Fl) as Y0. rewrite <- Vq in T1.
    assert (KR : (0 <= INR k <= 40000)%R). { split; [apply pos_INR|]. rewrite INR_IZR_INZ. apply IZR_le. cbn [List.length] in Kb. lia. }
    assert (Ex : (Rabs (B2R r * Q2R q) <= Q2R q)%R). { rewrite Rabs_mult, (Rabs_pos_eq (Q2R q)) by lra. rewrite <- (Rmult_1_l (Q2R q)) at 2. apply Rmult_le_compat_r; lra. }
    assert (BF : (1 / 2 <= 1 + B2R r * Q2R q <= 3 / 2)%R) by (apply Rabs_le_inv in Ex; lra).
    assert (Gm : (bpow radix2 (-408) <= G <= bpow radix2 408)%R) by (apply (growth_mid (Q2R T)); [lra|exact BG]).
    destruct (growth_step (INR k) g G gam _ w _ KR Vg Ng Vw BF Dw Gm) as (Vg' & Ng' & _ & _).
    destruct (total_step (INR k) t (Q2R T) tau (Q2R q) x v KR Vt Nt ltac:(lra) Vx Nx ltac:(lra)) as (Vt' & Nt'). rewrite <- S_INR in Ng', Nt'.
    assert (ET : Q2R (T + q) = (Q2R T + Q2R q)%R) by apply Q2R_plus. rewrite <- ET in Nt'.
    assert (G0 : (0 < G)%R) by (pose proof (bpow_gt_0 radix2 (-408)); lra).
    assert (BG' : (exp (- (2 * Q2R (T + q))) <= G * (1 + B2R r * Q2R q) <= exp (Q2R (T + q)))%R).
    { rewrite ET. split; [apply grow_down; [apply BG|exact Ex|lra]|apply grow_up; [split; [exact G0|apply BG]|exact Ex|lra|lra]]. }
    assert (Mo' : moderate rate (List.map fst l)) by (intros d r' I; apply Mo; right; exact I).
    specialize (IH Mo' (S k) (G * (1 + B2R r * Q2R q))%R (T + q)%Q _ _ _ _ ltac:(cbn [List.length] in Kb; lia) Vg' Ng' Vt' Nt' ltac:(lra) ltac:(lra) BG').
    assert (EV : rn (gam * w) = rn (gam * rn (1 + rn (rate_of rate s * accrual_of s e)))).
    { rewrite Ew, Ep. unfold rate_of, accrual_of. rewrite Er, Fx, (proj2 Vx). reflexivity. }
    rewrite EV in IH. fold (exact_rate rate) in *. destruct (compound (exact_rate rate) l _ _) as [[G' T']|e0]; [|exact IH].
    destruct IH as (g' & t' & tau' & A1 & A2 & A3 & A4 & A5 & A6 & A7). exists g', t', tau'. cbn [List.length]. replace (k + S (List.length l))%nat with (S k + List.length l)%nat by lia.
    split; [exact A1|]. split; [exact A2|]. split; [exact A3|]. split; [exact A4|]. split; [exact A5|]. split; [exact A6|]. rewrite A7, ET, Vq. ring.
Qed.

Lemma sorted_span ds : StronglySorted Z.lt ds -> forall s e, s <= e + 1 -> (forall y, In y ds -> s <= y <= e) -> Z.of_nat (List.length ds) <= e - s + 1.
Proof.
  induction 1 as [|x l Sl IH F]; intros s e L B; cbn [List.length]; [lia|]. pose proof (B x (or_introl eq_refl)) as Bx.
  assert (Z.of_nat (List.length l) <= e - (x + 1) + 1).
  { apply IH; [lia|]. intros y I. rewrite Forall_forall in F. specialize (F y I). pose proof (B y (or_intror I)). lia. }
  lia.
Qed.
Lemma years_telescope ds d : years_of (pairwise ds) = (IZR (last ds d - hd d ds) / 360)%R.
Proof.
  induction ds as [|x [|y ds] IH]; [cbn; rewrite Z.sub_diag; unfold Rdiv; ring|cbn; rewrite Z.sub_diag; unfold Rdiv; ring|].
  change (pairwise (x :: y :: ds)) with ((x, y) :: pairwise (y :: ds)). cbn [years_of]. rewrite IH. change (last (x :: y :: ds) d) with (last (y :: ds) d). cbn [hd]. rewrite !minus_IZR. field.
Qed.
Lemma period_pairs cal s e ds : ordinary_period cal s e -> generate_business_days s e cal = Ok ds ->
  Forall day_pair (pairwise ds) /\ Z.of_nat (List.length (pairwise ds)) <= 40000 /\ (years_of (pairwise ds) <= 102)%R /\ (forall d, In d (List.map fst (pairwise ds)) -> In d ds) /\
  (years_of (pairwise ds) = 0%R <-> pairwise ds = []).
Proof.
  intros (Os & Oe & C & Gp) G. destruct (C15_enumeration _ _ _ _ Os G) as [So In_]. assert (B : forall y, In y ds -> s <= y <= e) by (intros y I; apply In_ in I; apply I).
  assert (N : forall i x y, nth_error ds i = Some x -> nth_error ds (S i) = Some y -> x < y).
  { clear - So. induction So as [|a l Sl IH F]; intros i x y X Y; [destruct i; discriminate|]. destruct i as [|i]; cbn in X, Y; [|eapply IH; eassumption]. injection X as <-. rewrite Forall_forall in F. apply F. apply (nth_error_In l 0). exact Y. }
  assert (Pr : forall p, In p (pairwise ds) -> day_pair p /\ fst p < snd p /\ In (fst p) ds).
  { intros [x y] I. apply In_nth_error in I. destruct I as [i I]. apply pairwise_nth in I. destruct I as [X Y]. pose proof (B x (nth_error_In _ _ X)). pose proof (B y (nth_error_In _ _ Y)). pose proof (N _ _ _ X Y). pose proof (Gp ds i x y G X Y).
    unfold day_pair, date_ok in *. cbn [fst snd]. repeat split; try lia. eapply nth_error_In. exact X. }
  assert (Fp : Forall day_pair (pairwise ds)) by (apply Forall_forall; intros p I; apply Pr, I).
  split; [exact Fp|]. split.
  - rewrite pairwise_length. destruct ds as [|x ds']; [cbn; lia|]. pose proof (B x (or_introl eq_refl)). pose proof (sorted_span _ So s e ltac:(lia) B) as Ls. revert Ls. change (@List.length Z) with (@List.length date). intros Ls. lia.
  - split.
    + destruct ds as [|x ds']; [cbn; lra|]. rewrite (years_telescope _ x). cbn [hd]. assert (I : In (last (x :: ds') x) (x :: ds')).
      { clear. assert (H : forall (l : list date) d, l <> [] -> In (last l d) l). { induction l as [|a [|b l] IH]; intros d Hn; [contradiction|left; reflexivity|right; apply IH; discriminate]. } apply H. discriminate. }
      apply B in I. pose proof (B x (or_introl eq_refl)). assert (IZR (last (x :: ds') x - x) <= 36525)%R by (apply IZR_le; lia). lra.
    + split; [intros d I; apply in_map_iff in I; destruct I as (p & <- & I); apply Pr, I|]. split; [|intros ->; reflexivity]. destruct (pairwise ds) as [|[x y] l] eqn:Ep; [reflexivity|]. intros Z0. exfalso. cbn [years_of] in Z0.
      destruct (Pr (x, y) (or_introl eq_refl)) as (_ & Lt & _). cbn [fst snd] in Lt. assert (1 <= IZR (y - x))%R by (apply IZR_le; lia). inversion Fp as [|? ? _ Fl]; subst. pose proof (years_nonneg l Fl). lra.
Qed.

(** the divisor does not depend on the rates *)
Fixpoint ftotal (l : list (date * date)) (t : f64) : f64 :=
  match l with [] => t | (s, e) :: l => ftotal l (fadd t (match f_compute_accrual_length (Day s) (Day e) ACT360 with Ok x => x | Err _ => of_int 0 end)) end.
Lemma compound_total rate l : forall g t g' t', f_compound rate l g t = Ok (g', t') -> t' = ftotal l t.
Proof.
  induction l as [|[s e] l IH]; intros g t g' t' H; cbn [f_compound ftotal] in *; [congruence|]. destruct (f_compute_accrual_length _ _ _) as [x|]; cbn [bind] in H; [|discriminate].
  destruct (rate s) as [r|]; cbn [bind] in H; [|discriminate]. exact (IH _ _ _ _ H).
Qed.
Lemma div_err N T tau N' m : (1 / 360 <= T)%R -> (0 <= m)%R -> (m <= 1 / 100)%R -> (Rabs (tau - T) <= m * T)%R -> 
  (Rabs (N' / tau - N / T) <= (102 / 100 * Rabs (N' - N) + 102 / 100 * m * Rabs N) / T)%R.
Proof.
  intros BT M0 M1 E. pose proof (Rabs_le_inv _ _ E) as E'. assert (mT : (m * T <= 1 / 100 * T)%R) by (apply Rmult_le_compat_r; lra). assert (P : (0 < tau)%R) by lra.
  replace (N' / tau - N / T)%R with (((N' - N) * T + N * (T - tau)) / (tau * T))%R by (field; lra). unfold Rdiv. rewrite Rabs_mult, Rabs_inv, (Rabs_pos_eq (tau * T)) by (apply Rmult_le_pos; lra).
  assert (A : (Rabs ((N' - N) * T + N * (T - tau)) <= Rabs (N' - N) * T + Rabs N * (m * T))%R).
  { apply Rle_trans with (1 := Rabs_triang _ _). rewrite !Rabs_mult, (Rabs_pos_eq T) by lra. rewrite (Rabs_minus_sym T tau). apply Rplus_le_compat_l. apply Rmult_le_compat_l; [apply Rabs_pos|exact E]. }
  apply Rmult_le_reg_r with (tau * T)%R; [apply Rmult_lt_0_compat; lra|]. rewrite Rmult_assoc, Rinv_l, Rmult_1_r by (apply Rmult_integral_contrapositive_currified; lra). apply Rle_trans with (1 := A).
  set (X := Rabs (N' - N)). set (Y := Rabs N). pose proof (Rabs_pos (N' - N)) as X0. pose proof (Rabs_pos N) as Y0. fold X in X0. fold Y in Y0.
  replace ((102 * / 100 * X + 102 * / 100 * m * Y) * / T * (tau * T))%R with (X * (102 / 100 * tau) + m * Y * (102 / 100 * tau))%R by (field; lra).
  assert (0 <= X * (102 / 100 * tau - T))%R by (apply Rmult_le_pos; lra). assert (0 <= m * Y * (102 / 100 * tau - T))%R by (apply Rmult_le_pos; [apply Rmult_le_pos; lra|lra]). lra.
Qed.
Lemma final_err c y G N gam N' T tau : (0 <= c <= 40000)%R -> N = (G - 1)%R -> y = Rabs N -> (0 < G)%R -> (1 / 360 <= T <= 102)%R -> near (12 * c) G gam -> near (5 + 2 * c) T tau ->
  (Rabs (N' - (gam - 1)) <= u * Rabs (gam - 1))%R ->
  (0 < tau)%R /\ (Rabs (rn (N' / tau) - N / T) <= 16 * (c + 1) * u * (1 / T + 2 * Rabs (N / T)))%R /\ (Rabs (N' / tau) <= bpow radix2 20 * (1 + y))%R.
Proof.
  intros C EN Ey G0 BT Ng Nt Er. pose proof u_tiny as Us. pose proof (near_abs _ _ _ Ng) as E1. rewrite (Rabs_pos_eq G) in E1 by lra. pose proof (near_abs _ _ _ Nt) as E2. rewrite (Rabs_pos_eq T) in E2 by lra.
  assert (y0 : (0 <= y)%R) by (rewrite Ey; apply Rabs_pos). assert (GY : (G <= 1 + y)%R) by (rewrite Ey; pose proof (Rle_abs N); lra).
  assert (C1 : (0 <= 12 * c * u <= 1 / 1000000)%R) by (split; [apply Rmult_le_pos; lra|]; apply Rle_trans with (480000 * u)%R; [apply Rmult_le_compat_r; lra|lra]).
  assert (C2 : (0 <= (5 + 2 * c) * u <= 1 / 1000000)%R) by (split; [apply Rmult_le_pos; lra|]; apply Rle_trans with (80005 * u)%R; [apply Rmult_le_compat_r; lra|lra]).
  assert (E3 : (12 * c * u * G <= 12 * c * u * (1 + y))%R) by (apply Rmult_le_compat_l; lra).
  assert (E4 : (12 * c * u * (1 + y) <= 1 / 1000000 * (1 + y))%R) by (apply Rmult_le_compat_r; lra).
  assert (Eg : (Rabs (gam - 1) <= y + (1 + y))%R) by (replace (gam - 1)%R with (N + (gam - G))%R by lra; apply Rle_trans with (1 := Rabs_triang _ _); rewrite <- Ey; lra).
  assert (Eg' : (Rabs (gam - 1) <= y + 1 / 1000000 * (1 + y))%R) by (replace (gam - 1)%R with (N + (gam - G))%R by lra; apply Rle_trans with (1 := Rabs_triang _ _); rewrite <- Ey; lra).
  assert (E5 : (u * Rabs (gam - 1) <= u * (y + 1 / 1000000 * (1 + y)))%R) by (apply Rmult_le_compat_l; lra).
  assert (H1 : (Rabs (N' - N) <= u * ((12 * c + 1) * (1 + y) + y))%R). { replace (N' - N)%R with ((N' - (gam - 1)) + (gam - G))%R by lra. apply Rle_trans with (1 := Rabs_triang _ _). assert (0 <= u * (1 + y))%R by (apply Rmult_le_pos; lra). lra. }
  pose proof (div_err N T tau N' _ (proj1 BT) (proj1 C2) ltac:(lra) E2) as H2. rewrite <- Ey in H2.
  assert (Pt : (0 < tau)%R). { apply Rabs_le_inv in E2. assert ((5 + 2 * c) * u * T <= 1 / 1000000 * T)%R by (apply Rmult_le_compat_r; lra). lra. }
  split; [exact Pt|]. set (i := (/ T)%R) in *. assert (i0 : (1 / 102 <= i <= 360)%R).
  { unfold i. split; [replace (1 / 102)%R with (/ 102)%R by lra; apply Rinv_le; lra|replace 360%R with (/ (1 / 360))%R by (field); apply Rinv_le; lra]. }
  set (B := (102 / 100 * ((12 * c + 1) * (1 + y) + y) + 102 / 100 * (5 + 2 * c) * y)%R).
  assert (H3 : (Rabs (N' / tau - N / T) <= u * i * B)%R).
  { apply Rle_trans with (1 := H2). unfold Rdiv at 1. fold i. replace (u * i * B)%R with ((102 / 100 * (u * ((12 * c + 1) * (1 + y) + y)) + 102 / 100 * ((5 + 2 * c) * u) * y) * i)%R by (unfold B; ring). apply Rmult_le_compat_r; lra. }
  assert (cy : (0 <= c * y)%R) by (apply Rmult_le_pos; lra). assert (cy1 : (c * y <= 40000 * y)%R) by (apply Rmult_le_compat_r; lra).
  assert (B0 : (0 <= B <= 15 * (c + 1) * (1 + 2 * y))%R) by (unfold B; lra). assert (B1 : (B <= 700000 * (1 + 2 * y))%R) by (unfold B; lra).
  assert (UB : (u * B <= 1 / 1000000 * (1 + 2 * y))%R). { apply Rle_trans with (u * (700000 * (1 + 2 * y)))%R; [apply Rmult_le_compat_l; lra|]. replace (u * (700000 * (1 + 2 * y)))%R with (700000 * u * (1 + 2 * y))%R by ring. apply Rmult_le_compat_r; lra. }
  assert (An : Rabs (N / T) = (y * i)%R) by (unfold Rdiv; rewrite Rabs_mult, (Rabs_pos_eq (/ T)) by (fold i; lra); rewrite <- Ey; reflexivity).
  assert (UBi : (u * B * i <= 1 / 1000000 * (1 + 2 * y) * i)%R) by (apply Rmult_le_compat_r; lra).
  assert (Aq : (Rabs (N' / tau) <= (y + 1 / 1000000 * (1 + 2 * y)) * i)%R) by (replace (N' / tau)%R with (N / T + (N' / tau - N / T))%R by ring; apply Rle_trans with (1 := Rabs_triang _ _); lra).
  split.
  - pose proof (rn_abs (N' / tau)) as H4. pose proof small_u as Su. assert (U3 : (u * u * u <= u * i * (1 / 1000000))%R).
    { replace (u * u * u)%R with (u * (u * u))%R by ring. replace (u * i * (1 / 1000000))%R with (u * (i * (1 / 1000000)))%R by ring. apply Rmult_le_compat_l; [lra|]. assert (u * u <= u * (1 / 1000000000000))%R by (apply Rmult_le_compat_l; lra). lra. }
    assert (U4 : (u * Rabs (N' / tau) <= u * ((y + 1 / 1000000 * (1 + 2 * y)) * i))%R) by (apply Rmult_le_compat_l; lra).
    assert (UiB : (u * i * B <= u * i * (15 * (c + 1) * (1 + 2 * y)))%R) by (apply Rmult_le_compat_l; [apply Rmult_le_pos; lra|lra]).
    replace (rn (N' / tau) - N / T)%R with ((rn (N' / tau) - N' / tau) + (N' / tau - N / T))%R by ring. apply Rle_trans with (1 := Rabs_triang _ _).
    rewrite An. replace (1 / T)%R with i by (unfold i; field; lra). replace (16 * (c + 1) * u * (i + 2 * (y * i)))%R with (u * i * (16 * (c + 1) * (1 + 2 * y)))%R by ring.
    assert (F : (u * i * (15 * (c + 1) * (1 + 2 * y) + (y + 1 / 1000000 * (1 + 2 * y)) + 1 / 1000000) <= u * i * (16 * (c + 1) * (1 + 2 * y)))%R) by (apply Rmult_le_compat_l; [apply Rmult_le_pos; lra|lra]).
    lra.
  - apply Rle_trans with (1 := Aq). change (bpow radix2 20) with 1048576%R. apply Rle_trans with ((y + 1 / 1000000 * (1 + 2 * y)) * 360)%R; [apply Rmult_le_compat_l; lra|lra].
Qed.
(** the whole computation *)
Lemma rate_near a rate s e : ordinary_period (sw_cal a) s e -> (forall ds, generate_business_days s e (sw_cal a) = Ok ds -> moderate rate ds) ->
  match calculate_annualized_rate a (exact_rate rate) s e with
  | Err er => f_calculate_annualized_rate (sw_cal a) rate s e = Err er
  | Ok R0 => exists ds x T, generate_business_days s e (sw_cal a) = Ok ds /\ f_calculate_annualized_rate (sw_cal a) rate s e = Ok x /\
      T = years_of (pairwise ds) /\ (1 / 360 <= T)%R /\ (0 < B2R (ftotal (pairwise ds) (of_int 0)))%R /\
      val x (rn (rn (vcomp (rate_of rate) (pairwise ds) 1 - 1) / B2R (ftotal (pairwise ds) (of_int 0)))) /\
      (Rabs (B2R x - R0) <= 16 * (INR (List.length ds)) * u * (1 / T + 2 * Rabs R0))%R /\ (Rabs R0 <= bpow radix2 420)%R /\ (T <= 102)%R /\ (1 <= INR (List.length ds) <= 40001)%R
  end.
Proof.
  intros Pd Mo. unfold calculate_annualized_rate, f_calculate_annualized_rate. destruct (generate_business_days s e (sw_cal a)) as [ds|er] eqn:G; cbn [bind]; [|reflexivity].
  destruct (period_pairs _ _ _ _ Pd G) as (Fp & Len & Y102 & Sub & Y0).
  assert (Mo' : moderate rate (List.map fst (pairwise ds))) by (intros d r I E; apply (Mo ds eq_refl d r); [apply Sub, I|exact E]).
  pose proof (of_int_val 1 ltac:(lia)) as V1. pose proof (of_int_val 0 ltac:(lia)) as V0. assert (Z0 : Q2R 0 = 0%R) by (unfold Q2R; cbn; lra).
  pose proof (loop_near rate (pairwise ds) Fp Mo' 0 1%R 0%Q (of_int 1) (of_int 0) 1%R 0%R ltac:(lia) V1) as Lp. cbn [INR] in Lp. rewrite Rmult_0_r, Z0 in Lp.
  specialize (Lp (near_refl 1) V0). assert (Nz : near (5 + 2 * 0) 0 0) by (apply near_weak with (2 := near_refl 0); lra). specialize (Lp Nz ltac:(lra) ltac:(lra)). rewrite Rmult_0_r, Ropp_0, exp_0 in Lp. specialize (Lp ltac:(lra)).
  destruct (compound (exact_rate rate) (pairwise ds) 1 0) as [[G' T']|er]; cbn [bind fst snd]; [|rewrite Lp; reflexivity].
  destruct Lp as (g' & t' & tau & Ec & Vg & Ng & Vt & Nt & BG & ET). rewrite Ec. cbn [bind fst snd]. rewrite Rplus_0_l in ET. rewrite Nat.add_0_l in Ng, Nt. set (n := List.length (pairwise ds)) in *.
  destruct (Qeq_bool T' 0) eqn:Qz.
  - apply Qeq_bool_eq in Qz. apply Qeq_eqR in Qz. assert (tau = 0%R) by (rewrite Qz, Z0 in Nt; destruct Nt as (d & _ & ->); ring). subst tau. apply fdiv_zero. exact Vt.
  - apply Qeq_bool_neq in Qz. assert (NT : years_of (pairwise ds) <> 0%R) by (intros H; apply Qz, eqR_Qeq; rewrite ET, H, Z0; reflexivity).
    assert (BT : (1 / 360 <= Q2R T' <= 102)%R).
    { rewrite ET. split; [|lra]. destruct (pairwise ds) as [|[x y] l] eqn:Ep; [contradiction NT; reflexivity|]. inversion Fp as [|? ? (_ & _ & L & _) Fl]; subst. cbn [fst snd] in L. cbn [years_of] in *. pose proof (years_nonneg l Fl).
      assert (x <> y). { intros ->. destruct (C15_enumeration _ _ _ _ (proj1 Pd) G) as [So _]. assert (X : nth_error (pairwise ds) 0 = Some (y, y)) by (rewrite Ep; reflexivity). apply pairwise_nth in X. destruct X as [X1 X2].
        destruct ds as [|d0 [|d1 ds]]; try discriminate. cbn in X1, X2. injection X1 as ->. injection X2 as ->. inversion So as [|? ? _ F0]; subst. inversion F0; subst. lia. }
      assert (1 <= IZR (y - x))%R by (apply IZR_le; lia). lra. }
    assert (KR : (0 <= INR n <= 40000)%R) by (split; [apply pos_INR|]; rewrite INR_IZR_INZ; apply IZR_le; exact Len).
    assert (GP : (bpow radix2 (-408) <= G' <= bpow radix2 408)%R) by (apply (growth_mid (Q2R T')); [lra|exact BG]). pose proof (bpow_gt_0 radix2 (-408)) as P4.
    set (gam := vcomp (rate_of rate) (pairwise ds) 1) in *. pose proof (rn_minus_err _ _ _ _ Vg V1) as E1.
    destruct (final_err (INR n) _ G' (G' - 1) gam (rn (gam - 1)) (Q2R T') tau KR eq_refl eq_refl ltac:(lra) BT Ng Nt E1) as (Pt & Er & Bq).
    assert (B1 : (Rabs (G' - 1) <= 2 * bpow radix2 408)%R). { assert (1 <= bpow radix2 408)%R by (change 1%R with (bpow radix2 0); apply bpow_le; lia). apply Rabs_le. lra. }
    assert (Bg1 : (Rabs (gam - 1) <= big)%R).
    { pose proof (near_abs _ _ _ Ng) as E2. rewrite (Rabs_pos_eq G') in E2 by lra. pose proof u_tiny. assert (12 * INR n * u <= 1)%R by (apply Rle_trans with (480000 * u)%R; [apply Rmult_le_compat_r; lra|lra]).
      assert (12 * INR n * u * G' <= 1 * G')%R by (apply Rmult_le_compat_r; lra). replace (gam - 1)%R with ((G' - 1) + (gam - G'))%R by ring. apply Rle_trans with (1 := Rabs_triang _ _).
      apply Rle_trans with (4 * bpow radix2 408)%R; [lra|]. change 4%R with (bpow radix2 2). rewrite <- bpow_plus. apply bpow_le. lia. }
    pose proof (fsub_val _ _ _ _ Vg V1 Bg1) as Vs.
    destruct (fdiv_val _ _ _ _ Vs Vt ltac:(lra)) as (x & Ex & Vx).
    { apply Rle_trans with (1 := Bq). assert (B2 : (1 <= bpow radix2 408)%R) by (change 1%R with (bpow radix2 0); apply bpow_le; lia). apply Rle_trans with (bpow radix2 20 * (4 * bpow radix2 408))%R; [apply Rmult_le_compat_l; [apply bpow_ge_0|lra]|].
      change 4%R with (bpow radix2 2). rewrite <- !bpow_plus. apply bpow_le. lia. }
    exists ds, x, (Q2R T'). rewrite <- (compound_total _ _ _ _ _ _ Ec), (proj2 Vt). split; [reflexivity|]. split; [exact Ex|]. split; [exact ET|]. split; [apply BT|]. split; [exact Pt|]. split; [exact Vx|].
    rewrite (proj2 Vx). assert (El : INR (List.length ds) = (INR n + 1)%R).
    { rewrite <- S_INR. f_equal. unfold n. rewrite pairwise_length. destruct ds as [|d0 ds]; [contradiction NT; reflexivity|cbn; lia]. }
    rewrite El. split; [exact Er|]. split; [|split; lra]. unfold Rdiv. rewrite Rabs_mult, Rabs_inv, (Rabs_pos_eq (Q2R T')) by lra.
    assert (It : (/ Q2R T' <= 512)%R) by (apply Rle_trans with (/ (1 / 360))%R; [apply Rinv_le; lra|replace (/ (1 / 360))%R with 360%R by field; lra]).
    apply Rle_trans with (2 * bpow radix2 408 * 512)%R; [apply Rmult_le_compat; [apply Rabs_pos|apply Rlt_le, Rinv_0_lt_compat; lra|exact B1|exact It]|].
    change 2%R with (bpow radix2 1). change 512%R with (bpow radix2 9). rewrite <- !bpow_plus. apply bpow_le. lia.
Qed.

Lemma u_53 : (/ 2 ^ 53 = u)%R. Proof. apply u_value. Qed.
(** C109: compounding.  The program's rate is defined exactly when the exact one is; over n business days spanning T years it is
    within 16 n 2^-53 (1/T + 2|rate|) of it. *)
Theorem C109_accuracy : forall a rate s e v, ordinary_period (sw_cal a) s e -> (forall ds, generate_business_days s e (sw_cal a) = Ok ds -> moderate rate ds) ->
  calculate_annualized_rate a (exact_rate rate) s e = Ok v ->
  exists ds x, generate_business_days s e (sw_cal a) = Ok ds /\ f_calculate_annualized_rate (sw_cal a) rate s e = Ok x /\ is_finite x = true /\
    forall d T, T = (IZR (last ds d - hd d ds) / 360)%R -> (0 < T)%R /\ (Rabs (B2R x - v) <= 16 * INR (List.length ds) * / 2 ^ 53 * (1 / T + 2 * Rabs v))%R.
Proof.
  intros a rate s e v Pd Mo E. pose proof (rate_near a rate s e Pd Mo) as H. rewrite E in H. destruct H as (ds & x & T & G & Fx & ET & BT & _ & Vx & Er & _). exists ds, x. split; [exact G|]. split; [exact Fx|]. split; [apply Vx|].
  intros d T' ->. rewrite <- years_telescope, <- ET, u_53. split; [lra|exact Er].
Qed.
Print Assumptions C109_accuracy.
Theorem C109_errors : forall a rate s e er, ordinary_period (sw_cal a) s e -> (forall ds, generate_business_days s e (sw_cal a) = Ok ds -> moderate rate ds) ->
  (f_calculate_annualized_rate (sw_cal a) rate s e = Err er <-> calculate_annualized_rate a (exact_rate rate) s e = Err er).
Proof.
  intros a rate s e er Pd Mo. pose proof (rate_near a rate s e Pd Mo) as H. destruct (calculate_annualized_rate a (exact_rate rate) s e) as [v|e0].
  - destruct H as (ds & x & T & G & Fx & _). rewrite Fx. split; discriminate.
  - rewrite H. split; intros [= ->]; reflexivity.
Qed.
Print Assumptions C109_errors.

(** rounding never reverses the order *)
Lemma accrual_range s e : day_pair (s, e) -> (0 <= accrual_of s e <= 51 / 100)%R.
Proof.
  intros (Os & Oe & L & Gap). cbn [fst snd] in *. destruct (act360_ok s e L) as (q & A & Vq). destruct (acc_near _ _ _ _ Os Oe A) as (x & v & Fx & Vx & Nx & _). unfold accrual_of. rewrite Fx, (proj2 Vx).
  assert (0 <= IZR (e - s))%R by (apply IZR_le; lia). assert (IZR (e - s) <= 180)%R by (apply IZR_le; lia). destruct Nx as (d & D & ->). pose proof u_tiny. apply Rabs_le_inv in D. rewrite Vq. set (q' := (IZR (e - s) / 360)%R) in *. assert (0 <= q' <= 1 / 2)%R by (unfold q'; lra).
  assert (0 <= q' * (1 + d))%R by (apply Rmult_le_pos; lra). assert (q' * (1 + d) <= 1 / 2 * (102 / 100))%R by (apply Rmult_le_compat; lra). lra.
Qed.
Lemma vcomp_mono l rho rho' : Forall day_pair l -> (forall d, In d (List.map fst l) -> (-1 <= rho d)%R /\ (rho d <= rho' d)%R) -> forall g g', (0 <= g <= g')%R -> (0 <= vcomp rho l g <= vcomp rho' l g')%R.
Proof.
  induction 1 as [|[s e] l Pr Fl IH]; intros Hr g g' Bg; cbn [vcomp]; [exact Bg|]. pose proof (accrual_range s e Pr) as Ba. destruct (Hr s (or_introl eq_refl)) as [R1 R2].
  apply IH; [intros d I; apply Hr; right; exact I|]. set (v := accrual_of s e) in *.
  assert (P1 : (-1 <= rho s * v)%R). { assert (-1 * v <= rho s * v)%R by (apply Rmult_le_compat_r; lra). lra. }
  assert (P2 : (-1 <= rn (rho s * v))%R) by (apply rn_le in P1; change (-1)%R with (Ropp 1) in P1; rewrite rn_opp, rn_1 in P1; exact P1).
  assert (P3 : (rn (rho s * v) <= rn (rho' s * v))%R) by (apply rn_le, Rmult_le_compat_r; lra).
  assert (P4 : (0 <= rn (1 + rn (rho s * v)))%R) by (rewrite <- rn_0; apply rn_le; lra). assert (P5 : (rn (1 + rn (rho s * v)) <= rn (1 + rn (rho' s * v)))%R) by (apply rn_le; lra).
  split; [rewrite <- rn_0; apply rn_le, Rmult_le_pos; lra|]. apply rn_le. apply Rmult_le_compat; lra.
Qed.
Lemma f_rate_value a rate s e x : ordinary_period (sw_cal a) s e -> (forall ds, generate_business_days s e (sw_cal a) = Ok ds -> moderate rate ds) -> f_calculate_annualized_rate (sw_cal a) rate s e = Ok x ->
  exists ds, generate_business_days s e (sw_cal a) = Ok ds /\ (0 < B2R (ftotal (pairwise ds) (of_int 0)))%R /\ val x (rn (rn (vcomp (rate_of rate) (pairwise ds) 1 - 1) / B2R (ftotal (pairwise ds) (of_int 0)))) /\
    (forall d, In d (List.map fst (pairwise ds)) -> In d ds /\ exists r, rate d = Ok r).
Proof.
  intros Pd Mo F. pose proof (rate_near a rate s e Pd Mo) as H. destruct (calculate_annualized_rate a (exact_rate rate) s e) as [v|er]; [|congruence].
  destruct H as (ds & x' & T & G & Fx & _ & _ & Pt & Vx & _). assert (x' = x) by congruence. subst x'. exists ds. split; [exact G|]. split; [exact Pt|]. split; [exact Vx|].
  intros d I. destruct (period_pairs _ _ _ _ Pd G) as (_ & _ & _ & Sub & _). split; [apply Sub, I|]. unfold f_calculate_annualized_rate in F. rewrite G in F. cbn [bind] in F.
  destruct (f_compound rate (pairwise ds) (of_int 1) (of_int 0)) as [gt|] eqn:Ec; [|discriminate]. clear - I Ec. revert Ec. generalize (of_int 1), (of_int 0). induction (pairwise ds) as [|[s e] l IH]; intros g t Ec; [contradiction|]. cbn [f_compound] in Ec.
  destruct (f_compute_accrual_length _ _ _); cbn [bind] in Ec; [|discriminate]. destruct (rate s) as [r|] eqn:Er; cbn [bind] in Ec; [|discriminate]. destruct I as [<-|I]; [cbn [fst]; eauto|]. eapply IH; eassumption.
Qed.
(** higher rates never compound to less, in doubles either *)
Theorem C109_monotone : forall a rate rate' s e x x', ordinary_period (sw_cal a) s e ->
  (forall ds, generate_business_days s e (sw_cal a) = Ok ds -> moderate rate ds /\ moderate rate' ds /\ forall d r r', In d ds -> rate d = Ok r -> rate' d = Ok r' -> (B2R r <= B2R r')%R) ->
  f_calculate_annualized_rate (sw_cal a) rate s e = Ok x -> f_calculate_annualized_rate (sw_cal a) rate' s e = Ok x' -> (B2R x <= B2R x')%R.
Proof.
  intros a rate rate' s e x x' Pd H F F'. destruct (f_rate_value a rate s e x Pd) as (ds & G & Pt & Vx & Def); [intros ds G; apply (H ds G)|exact F|]. destruct (f_rate_value a rate' s e x' Pd) as (ds' & G' & _ & Vx' & Def'); [intros ds' G'; apply (H ds' G')|exact F'|].
  assert (ds' = ds) by congruence. subst ds'. destruct (H ds G) as (M1 & M2 & Le). destruct (period_pairs _ _ _ _ Pd G) as (Fp & _).
  rewrite (proj2 Vx), (proj2 Vx'). apply rn_le. unfold Rdiv. apply Rmult_le_compat_r; [apply Rlt_le, Rinv_0_lt_compat, Pt|]. apply rn_le. apply Rplus_le_compat_r. apply vcomp_mono; [exact Fp| |lra].
  intros d I. destruct (Def d I) as (Id & r & Er). destruct (Def' d I) as (_ & r' & Er'). unfold rate_of. rewrite Er, Er'. split; [|exact (Le d r r' Id Er Er')]. destruct (M1 d r Id Er) as [_ B]. apply Rabs_le_inv in B. lra.
Qed.
Print Assumptions C109_monotone.

(** no rounding error when no interest accrues, and rates of one sign compound to that sign *)
Lemma zero_comp l : vcomp (rate_of (fun _ => Ok (of_int 0))) l 1 = 1%R.
Proof.
  induction l as [|[s e] l IH]; cbn [vcomp]; [reflexivity|]. unfold rate_of at 1. rewrite (proj2 (of_int_val 0 ltac:(lia))), Rmult_0_l, rn_0, Rplus_0_r, rn_1, Rmult_1_l, rn_1. exact IH.
Qed.
Theorem C109_sign : forall a rate s e x, ordinary_period (sw_cal a) s e -> (forall ds, generate_business_days s e (sw_cal a) = Ok ds -> moderate rate ds) -> f_calculate_annualized_rate (sw_cal a) rate s e = Ok x ->
  ((forall ds d r, generate_business_days s e (sw_cal a) = Ok ds -> In d ds -> rate d = Ok r -> (0 <= B2R r)%R) -> (0 <= B2R x)%R) /\
  ((forall ds d r, generate_business_days s e (sw_cal a) = Ok ds -> In d ds -> rate d = Ok r -> (B2R r <= 0)%R) -> (B2R x <= 0)%R) /\
  ((forall ds d r, generate_business_days s e (sw_cal a) = Ok ds -> In d ds -> rate d = Ok r -> B2R r = 0%R) -> B2R x = 0%R).
Proof.
  intros a rate s e x Pd Mo F. destruct (f_rate_value a rate s e x Pd Mo F) as (ds & G & Pt & Vx & Def). destruct (period_pairs _ _ _ _ Pd G) as (Fp & _). rewrite (proj2 Vx). set (tau := B2R (ftotal (pairwise ds) (of_int 0))) in *.
  assert (Pi : (0 <= / tau)%R) by (apply Rlt_le, Rinv_0_lt_compat, Pt).
  assert (Zr : forall d, rate_of (fun _ => Ok (of_int 0)) d = 0%R) by (intros d; unfold rate_of; apply (of_int_val 0); lia).
  assert (Up : (forall d r, In d ds -> rate d = Ok r -> (0 <= B2R r)%R) -> (0 <= rn (rn (vcomp (rate_of rate) (pairwise ds) 1 - 1) / tau))%R).
  { intros Sg. rewrite <- rn_0. apply rn_le. apply Rmult_le_pos; [|exact Pi]. rewrite <- rn_0. apply rn_le. rewrite <- (zero_comp (pairwise ds)) at 2. apply Rle_0_minus. apply vcomp_mono; [exact Fp| |lra].
    intros d I. rewrite Zr. split; [lra|]. destruct (Def d I) as (Id & r & Er). unfold rate_of. rewrite Er. eauto. }
  assert (Dn : (forall d r, In d ds -> rate d = Ok r -> (B2R r <= 0)%R) -> (rn (rn (vcomp (rate_of rate) (pairwise ds) 1 - 1) / tau) <= 0)%R).
  { intros Sg. assert (N : (rn (vcomp (rate_of rate) (pairwise ds) 1 - 1) <= 0)%R).
    { rewrite <- rn_0. apply rn_le. rewrite <- (zero_comp (pairwise ds)) at 2. apply Rle_minus. apply vcomp_mono; [exact Fp| |lra]. intros d I. rewrite Zr. destruct (Def d I) as (Id & r & Er). unfold rate_of. rewrite Er. split; [|eauto]. destruct (Mo ds G d r Id Er) as [_ B]. apply Rabs_le_inv in B. lra. }
    rewrite <- rn_0. apply rn_le. unfold Rdiv. rewrite <- (Rmult_0_l (/ tau)). apply Rmult_le_compat_r; assumption. }
  split; [intros H; apply Up; intros d r; exact (H ds d r G)|]. split; [intros H; apply Dn; intros d r; exact (H ds d r G)|].
  intros H. apply Rle_antisym; [apply Dn|apply Up]; intros d r I Er; rewrite (H ds d r G I Er); lra.
Qed.
Print Assumptions C109_sign.

(** with US holidays every period of up to a century is ordinary *)
Theorem C109_us_periods : forall s e, date_ok s -> date_ok e -> e - s <= 36525 -> ordinary_period US_FEDERAL_HOLIDAYS s e.
Proof.
  intros s e Os Oe C. split; [exact Os|]. split; [exact Oe|]. split; [exact C|]. intros ds i x y G X Y. destruct (C15_enumeration _ _ _ _ Os G) as [So In_].
  pose proof (proj1 (In_ x) (nth_error_In _ _ X)) as [Bx _]. pose proof (proj1 (In_ y) (nth_error_In _ _ Y)) as [By _]. destruct (Z.le_gt_cases (y - x) 180) as [L|L]; [exact L|exfalso].
  destruct (us_window (x + 1)) as (z & Bz & Dz); [unfold date_ok in *; lia|unfold date_ok in *; lia|].
  assert (Iz : In z ds) by (apply In_; split; [lia|exact Dz]). apply In_nth_error in Iz. destruct Iz as [k Kz].
  assert (Mono : forall i j a b, nth_error ds i = Some a -> nth_error ds j = Some b -> (i < j)%nat -> a < b).
  { clear - So. induction So as [|a0 l Sl IH F]; intros i j a b A B L; [destruct i; discriminate|]. destruct j as [|j]; [lia|]. cbn in B. destruct i as [|i]; cbn in A.
    - injection A as <-. rewrite Forall_forall in F. apply F. apply (nth_error_In l j). exact B.
    - apply (IH i j a b A B). lia. }
  destruct (Nat.lt_trichotomy k i) as [Lk|[->|Lk]]; [pose proof (Mono _ _ _ _ Kz X Lk); lia|pose proof (eq_trans (eq_sym Kz) X) as E0; injection E0 as E0; lia|].
  destruct (Nat.eq_dec k (S i)) as [->|Nk]; [pose proof (eq_trans (eq_sym Kz) Y) as E0; injection E0 as E0; lia|]. pose proof (Mono _ _ _ _ Y Kz ltac:(lia)). lia.
Qed.
Print Assumptions C109_us_periods.

(** A single day's rate is not recovered: 5% from Monday 6 to Tuesday 7 March 2023 compounds to a different double. *)
Definition five_percent : f64 := flit 3602879701896397 (-56).
Theorem C109_one_day_refuted : exists s e x, mk_date 2023 3 6 = Ok s /\ mk_date 2023 3 7 = Ok e /\ generate_business_days s e US_FEDERAL_HOLIDAYS = Ok [s; e] /\
  f_calculate_annualized_rate US_FEDERAL_HOLIDAYS (fun _ => Ok five_percent) s e = Ok x /\ is_finite x = true /\ B2R x <> B2R five_percent /\
  forall a, sw_cal a = US_FEDERAL_HOLIDAYS -> calculate_annualized_rate a (exact_rate (fun _ => Ok five_percent)) s e = Ok (B2R five_percent).
Proof.
  set (s := ymd2ord 2023 3 6). set (e := ymd2ord 2023 3 7). assert (G : generate_business_days s e US_FEDERAL_HOLIDAYS = Ok [s; e]) by (vm_compute; reflexivity).
  assert (V5 : val five_percent (3602879701896397 * bpow radix2 (-56))%R) by (apply flit_val; lia).
  assert (M5 : moderate (fun _ => Ok five_percent) [s; e]).
  { intros d r _ [= <-]. split; [apply V5|]. rewrite (proj2 V5), Rabs_pos_eq by (apply Rmult_le_pos; [lra|apply bpow_ge_0]). apply Rle_trans with (bpow radix2 52 * bpow radix2 (-56))%R; [apply Rmult_le_compat_r; [apply bpow_ge_0|]|rewrite <- bpow_plus; change 1%R with (bpow radix2 0); apply bpow_le; lia].
    change (bpow radix2 52) with (IZR (2 ^ 52)). apply IZR_le. vm_compute. discriminate. }
  assert (X : forall a, sw_cal a = US_FEDERAL_HOLIDAYS -> calculate_annualized_rate a (exact_rate (fun _ => Ok five_percent)) s e = Ok (B2R five_percent)).
  { intros a Ca. unfold calculate_annualized_rate. rewrite Ca, G. cbn [bind pairwise]. unfold exact_rate. cbn [compound bind]. destruct (act360_ok s e ltac:(vm_compute; discriminate)) as (q & A & Vq). rewrite A. cbn [bind fst snd].
    assert (Q1 : Q2R q = (1 / 360)%R) by (rewrite Vq; reflexivity). assert (Qn : Qeq_bool (0 + q) 0 = false).
    { destruct (Qeq_bool (0 + q) 0) eqn:Z0; [|reflexivity]. apply Qeq_bool_eq, Qeq_eqR in Z0. rewrite Q2R_plus, Q1 in Z0. unfold Q2R in Z0. cbn in Z0. lra. }
    rewrite Qn. f_equal. rewrite Q2R_plus, Q1. unfold Q2R. cbn. field. }
  set (ta := SwapArgs Overnight PAYER_FIXED 0 0 s T_PLUS_ZERO_BUSINESS (Years 1) ANNUAL ANNUAL ACT360 ACT360 US_FEDERAL_HOLIDAYS T_PLUS_ZERO_BUSINESS T_PLUS_ZERO_BUSINESS FOLLOWING).
  assert (Pd : ordinary_period (sw_cal ta) s e) by (apply C109_us_periods; [vm_compute; split; discriminate|vm_compute; split; discriminate|vm_compute; discriminate]).
  destruct (C109_accuracy ta (fun _ => Ok five_percent) s e (B2R five_percent) Pd) as (ds & x & _ & Fx & Fin & _); [intros ds Gd; change (sw_cal ta) with US_FEDERAL_HOLIDAYS in Gd; rewrite G in Gd; injection Gd as <-; exact M5|apply X; reflexivity|].
  exists s, e, x. split; [vm_compute; reflexivity|]. split; [vm_compute; reflexivity|]. split; [exact G|]. split; [exact Fx|]. split; [exact Fin|]. split; [|exact X].
  assert (N : match f_calculate_annualized_rate US_FEDERAL_HOLIDAYS (fun _ => Ok five_percent) s e with Ok y => feq y five_percent | Err _ => true end = false) by (vm_compute; reflexivity).
  change (sw_cal ta) with US_FEDERAL_HOLIDAYS in Fx. rewrite Fx in N. intros Eq. assert (Vx : val x (B2R x)) by (split; auto). rewrite Eq in Vx. assert (V5' : val five_percent (B2R five_percent)) by (split; [apply V5|reflexivity]).
  rewrite (proj2 (feq_val _ _ _ _ Vx V5') eq_refl) in N. discriminate.
Qed.
Print Assumptions C109_one_day_refuted.

(** ---- legs ---- *)
(** The arguments of a swap: finite doubles, [fs_terms] the same swap over exact numbers; notional and fixed rate are 0 or between
    2^-100 and 2^100 in size. *)
Definition plain_swap (a : f_swap_args) : Prop :=
  (is_finite (fs_rate a) = true /\ B2R (fs_rate a) = sw_rate (fs_terms a) /\ sized 100 (sw_rate (fs_terms a))) /\
  (is_finite (fs_notional a) = true /\ B2R (fs_notional a) = sw_notional (fs_terms a) /\ sized 100 (sw_notional (fs_terms a))) /\
  date_ok (sw_purchase (fs_terms a)).
Inductive Forall3 {A B C} (P : A -> B -> C -> Prop) : list A -> list B -> list C -> Prop :=
| Forall3_nil : Forall3 P [] [] []
| Forall3_cons x y z l l' l'' : P x y z -> Forall3 P l l' l'' -> Forall3 P (x :: l) (y :: l') (z :: l'').

Definition sched_close (p : swap_accrual) (q : f_accrual) : Prop :=
  fa_start q = start_accrual p /\ fa_end q = end_accrual p /\ exists v, val (fa_factor q) v /\ near 4 (Q2R (accrual_factor p)) v /\ sized 50 (Q2R (accrual_factor p)).
Lemma mapM_match {A A' B C} (f : A -> res B) (g : A' -> res C) (P : A -> A' -> Prop) (Q : A -> B -> C -> Prop) la la' : Forall2 P la la' ->
  (forall a a', In a la -> P a a' -> match f a with Ok b => exists c, g a' = Ok c /\ Q a b c | Err e => g a' = Err e end) ->
  match mapM f la with Ok bs => exists cs, mapM g la' = Ok cs /\ Forall3 Q la bs cs | Err e => mapM g la' = Err e end.
Proof.
  induction 1 as [|a a' la la' Pa Fl IH]; intros H; cbn [mapM]; [exists []; split; [reflexivity|constructor]|].
  pose proof (H a a' (or_introl eq_refl) Pa) as Ha. destruct (f a) as [b|e]; cbn [bind]; [|rewrite Ha; reflexivity]. destruct Ha as (c & -> & Qc). cbn [bind].
  assert (H' : forall x x', In x la -> P x x' -> match f x with Ok b => exists c, g x' = Ok c /\ Q x b c | Err e => g x' = Err e end) by (intros x x' I; apply H; right; exact I).
  specialize (IH H'). destruct (mapM f la) as [bs|e]; cbn [bind]; [|rewrite IH; reflexivity]. destruct IH as (cs & -> & F3). cbn [bind]. exists (c :: cs). split; [reflexivity|constructor; assumption].
Qed.
Lemma pairwise_in {A} (l : list A) p : In p (pairwise l) -> In (fst p) l /\ In (snd p) l.
Proof. destruct p as [x y]. intros I. apply In_nth_error in I. destruct I as [i I]. apply pairwise_nth in I. destruct I as [X Y]. split; eapply nth_error_In; eassumption. Qed.
Lemma accrual_dates_ok t s m ds : date_ok (sw_purchase t) -> new_swap t = Ok s -> accrual_dates s m = Ok ds -> forall d, In d ds -> date_ok d.
Proof.
  intros O N E d I. destruct (new_swap_inv t s O N) as (T & _ & Ea & _ & _ & _ & Oe & _). unfold accrual_dates in E.
  destruct (generate_dates_by_increments (sw_end s) (sw_start s) (Relativedelta (- m) 0) 1000) as [l|] eqn:G; cbn [bind] in E; [|discriminate].
  unfold generate_dates_by_increments in G. destruct (positive_increment _ _) as [up|]; cbn [bind] in G; [|discriminate]. apply P_BondYield.grid_dates_ok in G; [|exact Oe]. rewrite Forall_forall in G.
  apply mapM_Forall2 in E. assert (Ex : exists x, In x (rev l) /\ sw_adjustment (sw s) x = Ok d). { clear - E I. induction E as [|x0 y0 l0 l1 H F IH]; [contradiction|]. destruct I as [<-|I]; [exists x0; split; [left; reflexivity|exact H]|]. destruct (IH I) as (z & Iz & Hz). exists z. split; [right; exact Iz|exact Hz]. }
  destruct Ex as (x & Ix & Hx). apply in_rev in Ix. apply (sw_adjust_isbd _ _ _ (G x Ix) Hx).
Qed.
Lemma schedule_match t s f c : date_ok (sw_purchase t) -> new_swap t = Ok s ->
  match accrual_schedule s f c with Ok accs => exists fs, f_accrual_schedule s f c = Ok fs /\ Forall2 sched_close accs fs | Err e => f_accrual_schedule s f c = Err e end.
Proof.
  intros O N. unfold accrual_schedule, f_accrual_schedule. destruct (swap_step f) as [m|]; cbn [bind]; [|reflexivity]. destruct (accrual_dates s m) as [ds|] eqn:D; cbn [bind]; [|reflexivity].
  pose proof (accrual_dates_ok t s m ds O N D) as Od.
  assert (Fr : Forall2 (fun x y : date * date => x = y /\ In x (pairwise ds)) (pairwise ds) (pairwise ds)).
  { assert (H : forall l, (forall x, In x l -> In x (pairwise ds)) -> Forall2 (fun x y : date * date => x = y /\ In x (pairwise ds)) l l). { induction l as [|x l IH]; intros H; constructor; [split; [reflexivity|apply H; left; reflexivity]|apply IH; intros y I; apply H; right; exact I]. } apply H. auto. }
  pose proof (mapM_match (fun p => do q <- acc c (fst p) (snd p); Ok (SwapAccrual (fst p) (snd p) q)) (fun p => do x <- f_compute_accrual_length (Day (fst p)) (Day (snd p)) c; Ok (FAccrual (fst p) (snd p) x))
    _ (fun _ p q => sched_close p q) _ _ Fr) as M.
  match type of M with ?A -> _ => assert (Hyp : A) end.
  { intros p p' I [<- _]. destruct (pairwise_in _ _ I) as [I1 I2]. destruct (acc c (fst p) (snd p)) as [q|e] eqn:A; cbn [bind]; [|apply acc_err in A; rewrite A; reflexivity].
    destruct (acc_near _ _ _ _ (Od _ I1) (Od _ I2) A) as (x & v & Fx & Vx & Nx & Sx). rewrite Fx. cbn [bind]. eexists. split; [reflexivity|]. split; [reflexivity|]. split; [reflexivity|]. exists v. auto. }
  specialize (M Hyp). destruct (mapM _ (pairwise ds)) as [accs|]; [|exact M]. destruct M as (fs & E & F3). exists fs. split; [exact E|]. clear - F3. induction F3; constructor; auto.
Qed.
(** amounts *)
Lemma amount_near x n r q v N rho w kr : val x v -> near 4 q v -> sized 50 q -> is_finite n = true -> B2R n = N -> sized 100 N -> val r w -> near kr rho w -> (0 <= kr <= 80)%R -> sized 200 rho ->
  exists z, val (f_amount x n r) z /\ near (8 + kr) (q * N * rho) z.
Proof.
  intros Vx Nx Sx Fn En Sn Vr Nr Kr Sr. assert (Vn : val n N) by (split; assumption).
  destruct (near_mul x n q v N N 4 0 ltac:(lra) ltac:(lra) Nx (near_refl N) Vx Vn (sized_mid (50 + 100) _ ltac:(lia) (sized_mul _ _ _ _ Sx Sn))) as (v1 & V1 & N1).
  destruct (near_mul _ r (q * N) v1 rho w (4 + 0 + 2) kr ltac:(lra) ltac:(lra) N1 Nr V1 Vr (sized_mid (50 + 100 + 200) _ ltac:(lia) (sized_mul _ _ _ _ (sized_mul _ _ _ _ Sx Sn) Sr))) as (v2 & V2 & N2).
  exists v2. split; [exact V2|]. apply near_weak with (2 := N2). lra.
Qed.
(** the same date, and an amount within 8 units of 2^-53 *)
Definition pay_close (p : payment) (q : f_payment) : Prop :=
  fp_date q = payment_date p /\ exists A X, Cashflow.amount p = Some A /\ fp_amount q = Some X /\ is_finite X = true /\ (Rabs (B2R X - A) <= 8 * / 2 ^ 53 * Rabs A)%R.
Lemma sort_match {A B} (ka : A -> Z) (kb : B -> Z) (P : A -> B -> Prop) la lb : (forall a b, P a b -> kb b = ka a) -> Forall2 P la lb -> Forall2 P (sort_by ka la) (sort_by kb lb).
Proof.
  intros K F. unfold sort_by. assert (I : forall x y l l', P x y -> Forall2 P l l' -> Forall2 P (insort ka x l) (insort kb y l')).
  { intros x y l l' Pxy Fl. induction Fl as [|a b l l' Pab Fl IH]; cbn [insort]; [constructor; [exact Pxy|constructor]|]. rewrite (K _ _ Pab), (K _ _ Pxy). destruct (ka a <=? ka x); constructor; auto. }
  assert (G : forall acc acc', Forall2 P acc acc' -> Forall2 P (fold_left (fun acc x => insort ka x acc) la acc) (fold_left (fun acc x => insort kb x acc) lb acc')).
  { induction F as [|a b la lb Pab F IH]; intros acc acc' Fa; cbn [fold_left]; [exact Fa|]. apply IH. apply I; assumption. }
  apply G. constructor.
Qed.
(** C109: the fixed leg, and the floating leg of a term swap: the same errors, the same payment dates in the same order, every amount
    within 8 units of 2^-53. *)
Theorem C109_fixed_leg : forall a s set, plain_swap a -> new_swap (fs_terms a) = Ok s ->
  match snd (generate_fixed_leg_cashflow s set) with Ok c => exists fc, f_fixed_leg a s = Ok fc /\ Forall2 pay_close c fc | Err e => f_fixed_leg a s = Err e end.
Proof.
  intros a s set ((Fr & Er & Sr) & (Fn & En & Sn) & O) N. destruct (new_swap_inv _ s O N) as (T & _ & Ea & _). unfold generate_fixed_leg_cashflow, f_fixed_leg, generate_fixed_leg_accrual_schedule. rewrite Ea.
  pose proof (schedule_match (fs_terms a) s (sw_fixed_freq (fs_terms a)) (sw_fixed_dcc (fs_terms a)) O N) as M. destruct (accrual_schedule s _ _) as [accs|]; cbn [bind snd]; [|rewrite M; reflexivity]. destruct M as (fs & -> & Fs). cbn [bind].
  pose proof (mapM_match (fixed_payment (fs_terms a) (sw_rate (fs_terms a))) (f_fixed_payment a) _ (fun _ => pay_close) _ _ Fs) as M. match type of M with ?A -> _ => assert (Hyp : A) end.
  { intros p q _ (E1 & E2 & v & Vx & Nx & Sx). unfold fixed_payment, f_fixed_payment. rewrite E2. destruct (calculate_settlement_date _ _ _) as [d|]; cbn [bind]; [|reflexivity].
    assert (Vr : val (fs_rate a) (sw_rate (fs_terms a))) by (split; assumption). assert (S2 : sized 200 (sw_rate (fs_terms a))) by (destruct Sr as [-> | [A B]]; [left; reflexivity|right; split; [apply Rle_trans with (2 := A); apply bpow_le; lia|apply Rle_trans with (1 := B); apply bpow_le; lia]]).
    destruct (amount_near (fa_factor q) (fs_notional a) (fs_rate a) _ _ _ _ _ 0 Vx Nx Sx Fn En Sn Vr (near_refl _) ltac:(lra) S2) as (z & Vz & Nz). eexists. split; [reflexivity|]. split; [reflexivity|].
    eexists. eexists. split; [reflexivity|]. split; [reflexivity|]. split; [apply Vz|]. rewrite (proj2 Vz), u_53. apply near_abs. apply near_weak with (2 := Nz). lra. }
  specialize (M Hyp). destruct (mapM (fixed_payment _ _) accs) as [ps|]; cbn [snd bind]; [|rewrite M; reflexivity]. destruct M as (fps & -> & F3). cbn [bind]. exists (sort_by fp_date fps). split; [reflexivity|].
  apply sort_match; [intros p q [E _]; exact E|]. clear - F3. induction F3; constructor; auto.
Qed.
Print Assumptions C109_fixed_leg.
Theorem C109_term_leg : forall a s rate set, plain_swap a -> new_swap (fs_terms a) = Ok s -> sw_class (fs_terms a) = Term ->
  (forall d r, rate d = Ok r -> is_finite r = true /\ sized 100 (B2R r)) ->
  match snd (generate_floating_leg_cashflow s (exact_rate rate) set) with Ok c => exists fc, f_floating_leg a s rate = Ok fc /\ Forall2 pay_close c fc | Err e => f_floating_leg a s rate = Err e end.
Proof.
  intros a s rate set ((Fr & Er & Sr) & (Fn & En & Sn) & O) N Tm Hr. destruct (new_swap_inv _ s O N) as (T & _ & Ea & _). unfold generate_floating_leg_cashflow, f_floating_leg, generate_floating_leg_accrual_schedule. rewrite Ea, Tm.
  pose proof (schedule_match (fs_terms a) s (sw_float_freq (fs_terms a)) (sw_float_dcc (fs_terms a)) O N) as M. destruct (accrual_schedule s _ _) as [accs|]; cbn [bind snd]; [|rewrite M; reflexivity]. destruct M as (fs & -> & Fs). cbn [bind].
  pose proof (mapM_match (term_payment (fs_terms a) (exact_rate rate)) (f_term_payment a rate) _ (fun _ => pay_close) _ _ Fs) as M. match type of M with ?A -> _ => assert (Hyp : A) end.
  { intros p q _ (E1 & E2 & v & Vx & Nx & Sx). unfold term_payment, f_term_payment, exact_rate. rewrite E1, E2. destruct (calculate_settlement_date (start_accrual p) _ _) as [fx|]; cbn [bind]; [|reflexivity]. destruct (rate fx) as [r|] eqn:R0; cbn [bind]; [|reflexivity].
    destruct (calculate_settlement_date (end_accrual p) _ _) as [d|]; cbn [bind]; [|reflexivity]. destruct (Hr fx r R0) as [Fr' Sr'].
    assert (Vr : val r (B2R r)) by (split; auto). assert (S2 : sized 200 (B2R r)) by (destruct Sr' as [Z0 | [A B]]; [left; exact Z0|right; split; [apply Rle_trans with (2 := A); apply bpow_le; lia|apply Rle_trans with (1 := B); apply bpow_le; lia]]).
    destruct (amount_near (fa_factor q) (fs_notional a) r _ _ _ _ _ 0 Vx Nx Sx Fn En Sn Vr (near_refl _) ltac:(lra) S2) as (z & Vz & Nz). eexists. split; [reflexivity|]. split; [reflexivity|].
    eexists. eexists. split; [reflexivity|]. split; [reflexivity|]. split; [apply Vz|]. rewrite (proj2 Vz), u_53. apply near_abs. apply near_weak with (2 := Nz). lra. }
  specialize (M Hyp). destruct (mapM (term_payment _ _) accs) as [ps|]; cbn [snd bind]; [|rewrite M; reflexivity]. destruct M as (fps & -> & F3). cbn [bind]. exists (sort_by fp_date fps). split; [reflexivity|].
  apply sort_match; [intros p q [E _]; exact E|]. clear - F3. induction F3; constructor; auto.
Qed.
Print Assumptions C109_term_leg.

Lemma ois_amount x n r q v N w R0 T L : val x v -> near 4 q v -> sized 50 q -> is_finite n = true -> B2R n = N -> sized 100 N -> val r w -> (1 / 360 <= T <= 102)%R -> (1 <= L <= 40001)%R ->
  (Rabs (w - R0) <= 16 * L * u * (1 / T + 2 * Rabs R0))%R -> (Rabs R0 <= bpow radix2 420)%R ->
  exists z, val (f_amount x n r) z /\ (Rabs (z - q * N * R0) <= 21 * L * u * Rabs (q * N) * (1 / T + 2 * Rabs R0))%R.
Proof.
  intros Vx Nx Sx Fn En Sn Vr BT BL Ew BR. assert (Vn : val n N) by (split; assumption). pose proof u_tiny as Us. pose proof small_u as Su.
  destruct (near_mul x n q v N N 4 0 ltac:(lra) ltac:(lra) Nx (near_refl N) Vx Vn (sized_mid (50 + 100) _ ltac:(lia) (sized_mul _ _ _ _ Sx Sn))) as (y & Vy & Ny).
  set (K := Rabs (q * N)). set (W := (1 / T + 2 * Rabs R0)%R) in *. pose proof (Rabs_pos R0) as R1. pose proof (Rabs_pos (q * N)) as K0. fold K in K0.
  assert (It : (1 / 102 <= 1 / T <= 360)%R). { unfold Rdiv. rewrite !Rmult_1_l. split; [apply Rinv_le; lra|]. apply Rle_trans with (/ (1 / 360))%R; [apply Rinv_le; lra|replace (/ (1 / 360))%R with 360%R by field; lra]. }
  assert (W0 : (1 / 102 <= W)%R) by (unfold W; lra). assert (RW : (Rabs R0 <= W / 2)%R) by (unfold W; lra).
  assert (Lu : (0 <= 16 * L * u <= 1 / 1000000)%R) by (split; [apply Rmult_le_pos; lra|]; apply Rle_trans with (16 * 40001 * u)%R; [apply Rmult_le_compat_r; lra|lra]).
  assert (LW : (16 * L * u * W <= 1 / 1000000 * W)%R) by (apply Rmult_le_compat_r; lra).
  assert (Aw : (Rabs w <= W)%R) by (replace w with (R0 + (w - R0))%R by ring; apply Rle_trans with (1 := Rabs_triang _ _); lra).
  pose proof (near_abs _ _ _ Ny) as Ey. fold K in Ey. assert (E6 : ((4 + 0 + 2) * u * K <= 1 / 1000000 * K)%R) by (apply Rmult_le_compat_r; lra).
  assert (Ay : (Rabs y <= 1000001 / 1000000 * K)%R) by (replace y with (q * N + (y - q * N))%R by ring; apply Rle_trans with (1 := Rabs_triang _ _); fold K; lra).
  assert (Ayw : (Rabs (y * w) <= 1000001 / 1000000 * K * W)%R) by (rewrite Rabs_mult; apply Rmult_le_compat; try apply Rabs_pos; lra).
  assert (B420 : (512 <= bpow radix2 420)%R) by (change 512%R with (bpow radix2 9); apply bpow_le; lia).
  assert (Wb : (W <= 4 * bpow radix2 420)%R) by (unfold W; lra).
  assert (Kb : (K <= bpow radix2 150)%R) by (destruct (sized_mul _ _ _ _ Sx Sn) as [Z0 | [_ B]]; [unfold K; rewrite Z0, Rabs_R0; apply bpow_ge_0|exact B]).
  assert (Bg : (Rabs (y * w) <= big)%R).
  { apply Rle_trans with (1 := Ayw). apply Rle_trans with (2 * bpow radix2 150 * (4 * bpow radix2 420))%R; [apply Rmult_le_compat; lra|]. change 2%R with (bpow radix2 1). change 4%R with (bpow radix2 2). rewrite <- !bpow_plus. apply bpow_le. lia. }
  pose proof (fmul_val _ _ _ _ Vy Vr Bg) as Vz. exists (rn (y * w)). split; [exact Vz|].
  destruct (Req_dec (q * N) 0) as [Z0|Nz].
  - assert (y = 0%R) by (rewrite Z0 in Ny; destruct Ny as (d & _ & ->); ring). subst y. rewrite Rmult_0_l, rn_0, Z0, Rmult_0_l, Rminus_0_r, Rabs_R0. unfold K. rewrite Z0, Rabs_R0. lra.
  - assert (Kl : (bpow radix2 (-150) <= K)%R) by (destruct (sized_mul _ _ _ _ Sx Sn) as [Z0 | [B _]]; [contradiction|exact B]).
    assert (Sm : (2 * small <= u * (K * W) * (1 / 1000000))%R).
    { assert (S1 : (2 * small <= u * bpow radix2 (-200))%R) by (change 2%R with (bpow radix2 1); unfold small, u; rewrite <- !bpow_plus; apply bpow_le; lia).
      assert (S2 : (bpow radix2 (-200) <= K * W * (1 / 1000000))%R).
      { apply Rle_trans with (bpow radix2 (-150) * (1 / 102) * (1 / 1000000))%R; [|apply Rmult_le_compat_r; [lra|]; apply Rmult_le_compat; try lra; apply bpow_ge_0].
        apply Rle_trans with (bpow radix2 (-150) * bpow radix2 (-27))%R; [rewrite <- bpow_plus; apply bpow_le; lia|]. rewrite Rmult_assoc. apply Rmult_le_compat_l; [apply bpow_ge_0|]. change (bpow radix2 (-27)) with (/ 134217728)%R. lra. }
      apply Rle_trans with (1 := S1). replace (u * (K * W) * (1 / 1000000))%R with (u * (K * W * (1 / 1000000)))%R by ring. apply Rmult_le_compat_l; lra. }
    pose proof (rn_abs (y * w)) as Er. assert (Er2 : (u * Rabs (y * w) <= u * (1000001 / 1000000 * K * W))%R) by (apply Rmult_le_compat_l; lra).
    assert (M1 : (Rabs (y * (w - R0)) <= 1000001 / 1000000 * K * (16 * L * u * W))%R) by (rewrite Rabs_mult; apply Rmult_le_compat; try apply Rabs_pos; lra).
    assert (M2 : (Rabs ((y - q * N) * R0) <= (4 + 0 + 2) * u * K * (W / 2))%R) by (rewrite Rabs_mult; apply Rmult_le_compat; try apply Rabs_pos; lra).
    replace (rn (y * w) - q * N * R0)%R with ((rn (y * w) - y * w) + (y * (w - R0) + (y - q * N) * R0))%R by ring. apply Rle_trans with (1 := Rabs_triang _ _). pose proof (Rabs_triang (y * (w - R0)) ((y - q * N) * R0)) as Tr.
    assert (uKW : (0 <= u * (K * W))%R) by (apply Rmult_le_pos; [lra|apply Rmult_le_pos; lra]). assert (LuKW : (u * (K * W) <= L * (u * (K * W)))%R) by (rewrite <- (Rmult_1_l (u * (K * W))) at 1; apply Rmult_le_compat_r; lra).
    replace (21 * L * u * K * W)%R with (21 * (L * (u * (K * W))))%R by ring. replace (1000001 / 1000000 * K * (16 * L * u * W))%R with (16000016 / 1000000 * (L * (u * (K * W))))%R in M1 by field. replace ((4 + 0 + 2) * u * K * (W / 2))%R with (3 * (u * (K * W)))%R in M2 by field.
    replace (u * (1000001 / 1000000 * K * W))%R with (1000001 / 1000000 * (u * (K * W)))%R in Er2 by field. lra.
Qed.
(** the payment of an overnight swap for one accrual period: within 21 n 2^-53 (1/T + 2|rate|) of accrual x notional, n business
    days spanning T years *)
Definition ois_close (a : swap_args) (rate : date -> res f64) (p : swap_accrual) (q : payment) (f : f_payment) : Prop :=
  fp_date f = payment_date q /\ exists ds v X, generate_business_days (start_accrual p) (end_accrual p) (sw_cal a) = Ok ds /\ calculate_annualized_rate a (exact_rate rate) (start_accrual p) (end_accrual p) = Ok v /\
    Cashflow.amount q = Some (Q2R (accrual_factor p) * sw_notional a * v)%R /\ fp_amount f = Some X /\ is_finite X = true /\
    forall d T, T = (IZR (last ds d - hd d ds) / 360)%R ->
      (Rabs (B2R X - Q2R (accrual_factor p) * sw_notional a * v) <= 21 * INR (List.length ds) * / 2 ^ 53 * Rabs (Q2R (accrual_factor p) * sw_notional a) * (1 / T + 2 * Rabs v))%R.
Theorem C109_overnight_leg : forall a s rate set, plain_swap a -> new_swap (fs_terms a) = Ok s -> sw_class (fs_terms a) = Overnight ->
  (forall d r, rate d = Ok r -> is_finite r = true /\ (Rabs (B2R r) <= 1)%R) ->
  (forall accs p, generate_floating_leg_accrual_schedule s = Ok accs -> In p accs -> ordinary_period (sw_cal (fs_terms a)) (start_accrual p) (end_accrual p)) ->
  match snd (generate_floating_leg_cashflow s (exact_rate rate) set) with
  | Ok c => exists accs ps fps, generate_floating_leg_accrual_schedule s = Ok accs /\ c = new_cashflow ps /\ f_floating_leg a s rate = Ok (sort_by fp_date fps) /\ Forall3 (ois_close (fs_terms a) rate) accs ps fps
  | Err e => f_floating_leg a s rate = Err e end.
Proof.
  intros a s rate set ((Fr & Er & Sr) & (Fn & En & Sn) & O) N Tm Hr Op. destruct (new_swap_inv _ s O N) as (T & _ & Ea & _). unfold generate_floating_leg_cashflow, f_floating_leg, generate_floating_leg_accrual_schedule in *. rewrite Ea, Tm in *.
  pose proof (schedule_match (fs_terms a) s (sw_float_freq (fs_terms a)) (sw_float_dcc (fs_terms a)) O N) as M. destruct (accrual_schedule s _ _) as [accs|] eqn:As; cbn [bind snd]; [|rewrite M; reflexivity]. destruct M as (fs & -> & Fs). cbn [bind].
  pose proof (mapM_match (ois_payment (fs_terms a) (exact_rate rate)) (f_ois_payment a rate) _ (ois_close (fs_terms a) rate) _ _ Fs) as M. match type of M with ?A -> _ => assert (Hyp : A) end.
  { intros p q Ip (E1 & E2 & v & Vx & Nx & Sx). unfold ois_payment, f_ois_payment. rewrite E1, E2. destruct (calculate_settlement_date (end_accrual p) _ _) as [d|]; cbn [bind]; [|reflexivity].
    pose proof (rate_near (fs_terms a) rate (start_accrual p) (end_accrual p) (Op accs p eq_refl Ip)) as Rn. match type of Rn with ?A -> _ => assert (HA : A) end; [intros ds _ d0 r _ Er0; exact (Hr d0 r Er0)|]. specialize (Rn HA).
    destruct (calculate_annualized_rate (fs_terms a) (exact_rate rate) (start_accrual p) (end_accrual p)) as [R0|] eqn:ER; cbn [bind]; [|rewrite Rn; reflexivity].
    destruct Rn as (ds & x & T' & G & Fx & ET & BT & _ & Vr & Eb & BR & BT' & BL). rewrite Fx. cbn [bind]. eexists. split; [reflexivity|].
    rewrite (proj2 Vr) in Eb. destruct (ois_amount (fa_factor q) (fs_notional a) x _ _ _ _ R0 T' _ Vx Nx Sx Fn En Sn Vr (conj BT BT') BL Eb BR) as (z & Vz & Ez).
    split; [reflexivity|]. exists ds, R0, (f_amount (fa_factor q) (fs_notional a) x). split; [exact G|]. split; [exact ER|]. split; [reflexivity|]. split; [reflexivity|]. split; [apply Vz|].
    intros d0 T0 ->. rewrite <- years_telescope, <- ET, u_53, (proj2 Vz). exact Ez. }
  specialize (M Hyp). destruct (mapM (ois_payment _ _) accs) as [ps|]; cbn [snd bind]; [|rewrite M; reflexivity]. destruct M as (fps & -> & F3). cbn [bind]. exists accs, ps, fps. split; [reflexivity|]. split; [reflexivity|]. split; [reflexivity|exact F3].
Qed.
Print Assumptions C109_overnight_leg.

(** every period of a swap on the US calendar is ordinary, whatever its tenor *)
Theorem C109_us_legs : forall a s f c accs p, date_ok (sw_purchase a) -> sw_cal a = US_FEDERAL_HOLIDAYS -> new_swap a = Ok s -> accrual_schedule s f c = Ok accs -> In p accs ->
  ordinary_period (sw_cal a) (start_accrual p) (end_accrual p).
Proof.
  intros a s f c accs p O C N E I. destruct (new_swap_inv a s O N) as (T & _ & Ea & _ & _ & _ & Oe & _). destruct (accruals_inv _ _ _ _ E) as [h].
  apply In_nth_error in I. destruct I as [i I]. assert (Li : (i < List.length accs)%nat) by (apply nth_error_Some; congruence).
  destruct (accs_nth _ _ _ _ h i p I) as (u0 & v0 & U & V & Au & Av & _). rewrite Ea in Au, Av.
  pose proof (us_ok _ _ _ _ h Oe) as Ok_us. rewrite Forall_forall in Ok_us. pose proof (Ok_us u0 (nth_error_In _ _ U)) as Ou. pose proof (Ok_us v0 (nth_error_In _ _ V)) as Ov.
  pose proof (sw_adjust_isbd _ _ _ Ou Au) as [Bu _]. pose proof (sw_adjust_isbd _ _ _ Ov Av) as [Bv _].
  apply (sw_adjust_us _ _ _ C Ou) in Au. apply (sw_adjust_us _ _ _ C Ov) in Av.
  destruct (us_chain _ _ _ _ h) as [_ H]. replace (List.length accs - i)%nat with (S (List.length accs - 1 - i)) in U by lia. specialize (H _ _ _ V U).
  destruct (add_months_parts _ _ _ H) as (_ & Mi & _). destruct (swap_step_bounds _ _ (ac_step _ _ _ _ h)) as [M1 M2].
  pose proof (span_days u0 v0) as G. unfold span in G. destruct (date_parts u0) as (Mu & _). destruct (date_parts v0) as (Mv & _). rewrite C. apply C109_us_periods; [exact Bu|exact Bv|]. lia.
Qed.
Print Assumptions C109_us_legs.

Lemma over_inf (z : f64) m s : B2SF z = binary_overflow 53 1024 m s -> m = mode_NE -> is_finite z = false /\ B2R z = 0%R.
Proof. intros H ->. destruct z; cbn in H; try discriminate; split; reflexivity. Qed.
Lemma sub_opposite (x y : f64) : is_finite (fsub x y) = is_finite (fsub y x) /\ B2R (fsub x y) = (- B2R (fsub y x))%R.
Proof.
  destruct (is_finite x) eqn:Fx; [destruct (is_finite y) eqn:Fy|].
  - pose proof (Bminus_correct 53 1024 prec_gt prec_lt mode_NE x y Fx Fy) as C1. pose proof (Bminus_correct 53 1024 prec_gt prec_lt mode_NE y x Fy Fx) as C2.
    change (round radix2 _ (round_mode mode_NE) ?x) with (rn x) in C1, C2. assert (E : rn (B2R y - B2R x) = (- rn (B2R x - B2R y))%R) by (rewrite <- rn_opp; f_equal; ring). rewrite E, Rabs_Ropp in C2.
    unfold fsub. destruct (Rlt_bool _ _).
    + destruct C1 as (V1 & F1 & _), C2 as (V2 & F2 & _). rewrite V1, F1, V2, F2. split; [reflexivity|ring].
    + destruct C1 as [C1 _], C2 as [C2 _]. destruct (over_inf _ _ _ C1 eq_refl) as [F1 V1]. destruct (over_inf _ _ _ C2 eq_refl) as [F2 V2]. rewrite F1, F2, V1, V2. split; [reflexivity|ring].
  - unfold fsub. destruct x as [sx|sx| |sx mx ex Hx], y as [sy|sy| |sy my ey Hy]; try discriminate; destruct sx; try destruct sy; cbn; split; try reflexivity; ring.
  - unfold fsub. destruct x as [sx|sx| |sx mx ex Hx]; try discriminate; destruct y as [sy|sy| |sy my ey Hy]; try (destruct sx); try (destruct sy); cbn; split; try reflexivity; ring.
Qed.
(** the two sides of a swap: exactly opposite values, in doubles too *)
Theorem C109_opposite : forall total fixed float dc x y, f_sw_present_value total PAYER_FIXED fixed float dc = Ok x -> f_sw_present_value total RECEIVER_FIXED fixed float dc = Ok y ->
  (is_finite x = true <-> is_finite y = true) /\ B2R x = (- B2R y)%R.
Proof.
  intros total fixed float dc x y. unfold f_sw_present_value. destruct (f_cf_present_value total float dc) as [a|]; cbn [bind]; [|discriminate]. destruct (f_cf_present_value total fixed dc) as [b|]; cbn [bind]; [|discriminate].
  intros [= <-] [= <-]. destruct (sub_opposite a b) as [F V]. rewrite F, V. split; [split; auto|reflexivity].
Qed.
Print Assumptions C109_opposite.

(** Non-vacuity: the one year swap of P_Swap.v, semi-annual floating leg, with overnight rates of 5%. *)
Definition f_swap_2023 : f_swap_args := FSwapArgs (swap_2023 Overnight) (of_int 1) (of_int 100).
Definition f_ois_2023 : list f_payment := match f_floating_leg f_swap_2023 (swap_2023_built Overnight) (fun _ => Ok five_percent) with Ok l => l | Err _ => [] end.
Lemma f_ois_2023_amounts : List.map (fun p => (fp_date p, match fp_amount p with Some x => flt (of_int 2) x && flt x (of_int 3) | None => false end)) f_ois_2023 = [(ymd2ord 2023 9 7, true); (ymd2ord 2024 3 6, true)].
Proof. vm_compute. reflexivity. Qed.
Example C109_case : plain_swap f_swap_2023 /\ new_swap (fs_terms f_swap_2023) = Ok (swap_2023_built Overnight) /\ sw_class (fs_terms f_swap_2023) = Overnight /\
  (forall d r, (fun _ : date => @Ok f64 five_percent) d = Ok r -> is_finite r = true /\ (Rabs (B2R r) <= 1)%R) /\
  (forall accs p, generate_floating_leg_accrual_schedule (swap_2023_built Overnight) = Ok accs -> In p accs -> ordinary_period (sw_cal (fs_terms f_swap_2023)) (start_accrual p) (end_accrual p)) /\
  exists accs, generate_floating_leg_accrual_schedule (swap_2023_built Overnight) = Ok accs /\ List.length accs = 2%nat.
Proof.
  pose proof (of_int_val 1 ltac:(lia)) as [F1 V1]. pose proof (of_int_val 100 ltac:(lia)) as [F2 V2].
  split; [|split; [apply swap_2023_ok|split; [reflexivity|split; [|split]]]].
  - unfold plain_swap, f_swap_2023. cbn [fs_rate fs_notional fs_terms]. change (sw_rate (swap_2023 Overnight)) with 1%R. change (sw_notional (swap_2023 Overnight)) with 100%R.
    split; [split; [exact F1|split; [exact V1|apply (sized_int 1); [lia|vm_compute; discriminate]]]|]. split; [split; [exact F2|split; [exact V2|apply (sized_int 100); [lia|vm_compute; discriminate]]]|]. apply swap_2023_date.
  - intros d r [= <-]. assert (V5 : val five_percent (3602879701896397 * bpow radix2 (-56))%R) by (apply flit_val; lia). split; [apply V5|]. rewrite (proj2 V5), Rabs_pos_eq by (apply Rmult_le_pos; [lra|apply bpow_ge_0]). apply Rle_trans with (bpow radix2 52 * bpow radix2 (-56))%R; [apply Rmult_le_compat_r; [apply bpow_ge_0|]|rewrite <- bpow_plus; change 1%R with (bpow radix2 0); apply bpow_le; lia].
    change (bpow radix2 52) with (IZR (2 ^ 52)). apply IZR_le. vm_compute. discriminate.
  - intros accs p A I. rewrite floating_2023_ok in A. injection A as <-. change (sw_cal (fs_terms f_swap_2023)) with US_FEDERAL_HOLIDAYS. destruct I as [<- |[<- |[]]]; apply C109_us_periods; solve [vm_compute; split; discriminate|vm_compute; discriminate].
  - exists floating_2023. split; [apply floating_2023_ok|reflexivity].
Qed.
