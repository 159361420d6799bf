(** Bond prices at a fixed rate in double precision: C112. *)
From Verif Require Import Base PyDate PyDateFacts DayCount DayCountFacts Scheduler SchedulerFacts ModFollFacts KeyRate KeyRateFacts Curve Bond BondFacts P_DayCount P_Bond P_BondYield Float FloatFacts FloatDayCount P_FloatDayCount FloatBond P_FloatBond P_FloatLoan P_FloatSwap FloatYield.
From Coq Require Import Lra Reals Rpower Qreals.
From Flocq Require Import Core BinarySingleNaN.
Open Scope Z_scope.


(** ---- specification ---- *)
(** the C library's pow: bases between 1/2 and 2, exponents up to 512 in size, within one unit in the last place *)
Definition libm_pow (pow : f64 -> f64 -> res f64) : Prop := forall x y, is_finite x = true -> is_finite y = true -> (1 / 2 <= B2R x <= 2)%R -> (Rabs (B2R y) <= 512)%R ->
  exists z, pow x y = Ok z /\ is_finite z = true /\ (Rabs (B2R z - Rpower (B2R x) (B2R y)) <= / 2 ^ 52 * Rpower (B2R x) (B2R y))%R.

(** ---- relative errors up to 10^5 units ---- *)
Lemma u2 k : (0 <= k <= 100000)%R -> (0 <= k * u <= / 100000)%R.
Proof. intros K. pose proof u_tiny as Us. split; [apply Rmult_le_pos; lra|]. apply Rle_trans with (100000 * (1 / 1000000000000))%R; [apply Rmult_le_compat; lra|lra]. Qed.
Lemma rel_trans j k x y z : (0 <= j <= 100000)%R -> (0 <= k <= 100000)%R -> near j x y -> near k y z -> near (j + k + 1) x z.
Proof.
  intros J K (d & D & ->) (e & E & ->). pose proof (u2 j J) as [J0 J1]. pose proof (u2 k K) as [K0 K1]. pose proof u_tiny as Us. exists (d + e + d * e)%R. split; [|ring].
  assert (M : (Rabs (d * e) <= u)%R).
  { rewrite Rabs_mult. apply Rle_trans with ((j * u) * (k * u))%R; [apply Rmult_le_compat; [apply Rabs_pos|apply Rabs_pos|exact D|exact E]|].
    apply Rle_trans with ((100000 * u) * (/ 100000))%R; [apply Rmult_le_compat; [lra|lra|apply Rmult_le_compat_r; lra|lra]|lra]. }
  apply Rabs_le_inv in D, E, M. apply Rabs_le. lra.
Qed.
Lemma rel_mul j k a a' b b' : (0 <= j <= 100000)%R -> (0 <= k <= 100000)%R -> near j a a' -> near k b b' -> near (j + k + 1) (a * b) (a' * b').
Proof.
  intros J K N M. apply rel_trans with (a' * b)%R; auto; [destruct N as (d & D & ->)|destruct M as (d & D & ->)]; exists d; (split; [exact D|ring]).
Qed.
Lemma rel_inv k x y : (0 <= k <= 100000)%R -> x <> 0%R -> near k x y -> near (k + 1) (/ x) (/ y).
Proof.
  intros K Nz (d & D & ->). pose proof (u2 k K) as [K0 K1]. pose proof u_tiny as Us. apply Rabs_le_inv in D. exists (/ (1 + d) - 1)%R. split; [|field; lra].
  replace (/ (1 + d) - 1)%R with (- d * / (1 + d))%R by (field; lra). rewrite Rabs_mult, Rabs_Ropp, (Rabs_pos_eq (/ (1 + d))) by (apply Rlt_le, Rinv_0_lt_compat; lra).
  assert (I : (/ (1 + d) <= 1 + 2 * (k * u))%R). { apply Rmult_le_reg_l with (1 + d)%R; [lra|]. rewrite Rinv_r by lra. assert ((k * u) * (k * u) <= (k * u) * (/ 100000))%R by (apply Rmult_le_compat_l; lra). assert (- (k * u) * (1 + 2 * (k * u)) <= d * (1 + 2 * (k * u)))%R by (apply Rmult_le_compat_r; lra). lra. }
  apply Rle_trans with ((k * u) * (1 + 2 * (k * u)))%R; [apply Rmult_le_compat; [apply Rabs_pos|apply Rlt_le, Rinv_0_lt_compat; lra|apply Rabs_le; lra|exact I]|].
  assert ((k * u) * (2 * (k * u)) <= u)%R; [|lra]. apply Rle_trans with ((100000 * u) * (2 * / 100000 * (1 / 2)))%R; [|lra].
  apply Rmult_le_compat; [lra|lra|apply Rmult_le_compat_r; lra|]. assert (k * u <= 100000 * (1 / 1000000000000))%R by (apply Rmult_le_compat; lra). lra.
Qed.
Lemma rel_round k x y : (0 <= k <= 100000)%R -> mid x -> near k x y -> (Rabs y <= big)%R /\ near (k + 2) x (rn y).
Proof.
  intros K M N. pose proof (u2 k K) as [K0 K1]. assert (N' := N). destruct N' as (d & D & Ey). destruct (mid_range x d M ltac:(lra)) as [Sm Bg]. rewrite <- Ey in Sm, Bg. split; [exact Bg|].
  replace (k + 2)%R with (k + 1 + 1)%R by ring. apply rel_trans with y; [lra|lra|exact N|]. apply near_of_abs; [lra|]. rewrite Rmult_1_l. apply rn_err. exact Sm.
Qed.
Lemma rel_pos k x y : (0 <= k <= 100000)%R -> (0 <= x)%R -> near k x y -> (0 <= y <= 2 * x)%R.
Proof. intros K X (d & D & ->). pose proof (u2 k K) as [K0 K1]. apply Rabs_le_inv in D. split; [apply Rmult_le_pos; lra|]. rewrite (Rmult_comm 2). apply Rmult_le_compat_l; lra. Qed.
Lemma rel_add k a a' b b' : (0 <= a)%R -> (0 <= b)%R -> (0 <= k)%R -> near k a a' -> near k b b' -> near k (a + b) (a' + b').
Proof.
  intros A B K N M. pose proof (near_abs _ _ _ N) as E1. pose proof (near_abs _ _ _ M) as E2. apply near_of_abs; [exact K|]. rewrite (Rabs_pos_eq a A) in E1. rewrite (Rabs_pos_eq b B) in E2. rewrite (Rabs_pos_eq (a + b)) by lra.
  replace (a' + b' - (a + b))%R with ((a' - a) + (b' - b))%R by ring. apply Rle_trans with (1 := Rabs_triang _ _). lra.
Qed.

(** ---- powers ---- *)
Lemma ln_le x : (0 < x -> ln x <= x - 1)%R.
Proof. intros X. destruct (Req_dec (ln x) 0) as [Z0|Nz]; [|pose proof (exp_ineq1 (ln x) Nz) as E; rewrite exp_ln in E by exact X; lra]. rewrite Z0. apply exp_ln in X. rewrite Z0, exp_0 in X. lra. Qed.
Lemma ln_ge x : (0 < x -> 1 - / x <= ln x)%R.
Proof. intros X. assert (X' : (0 < / x)%R) by (apply Rinv_0_lt_compat; exact X). pose proof (ln_le _ X') as L. rewrite ln_Rinv in L by exact X. lra. Qed.
Lemma exp_near d : (Rabs d <= / 1000)%R -> (Rabs (exp d - 1) <= Rabs d * (1 + 2 * Rabs d))%R.
Proof.
  intros D. assert (L : (1 + d <= exp d)%R) by (destruct (Req_dec d 0) as [-> | N]; [rewrite exp_0; lra|apply Rlt_le, exp_ineq1; exact N]).
  assert (G : (1 - d <= exp (- d))%R) by (destruct (Req_dec d 0) as [-> | N]; [rewrite Ropp_0, exp_0; lra|pose proof (exp_ineq1 (- d) ltac:(lra)); lra]).
  assert (H : (exp d <= / (1 - d))%R). { apply Rabs_le_inv in D. rewrite <- (Ropp_involutive d) at 1. rewrite exp_Ropp. apply Rinv_le_contravar; lra. }
  assert (H2 : (/ (1 - d) <= 1 + d + 2 * (d * d))%R).
  { apply Rabs_le_inv in D. apply Rmult_le_reg_l with (1 - d)%R; [lra|]. rewrite Rinv_r by lra. replace ((1 - d) * (1 + d + 2 * (d * d)))%R with (1 + d * d * (1 - 2 * d))%R by ring. assert (0 <= d * d * (1 - 2 * d))%R by (apply Rmult_le_pos; [apply Rle_0_sqr|lra]). lra. }
  assert (Q : (Rabs d * Rabs d = d * d)%R) by (rewrite <- Rabs_mult; apply Rabs_pos_eq, Rle_0_sqr). assert (Q0 : (0 <= d * d)%R) by apply Rle_0_sqr.
  rewrite Rmult_plus_distr_l, Rmult_1_r. replace (Rabs d * (2 * Rabs d))%R with (2 * (Rabs d * Rabs d))%R by ring. rewrite Q. pose proof (Rle_abs d). pose proof (Rle_abs (- d)) as A2. rewrite Rabs_Ropp in A2. apply Rabs_le. lra.
Qed.
Lemma ln_small B : (1 / 2 <= B <= 2 -> Rabs (ln B) <= 1)%R.
Proof. intros HB. pose proof (ln_le B ltac:(lra)) as L. pose proof (ln_ge B ltac:(lra)) as G. assert (/ B <= 2)%R by (rewrite <- (Rinv_inv 2); apply Rinv_le_contravar; lra). apply Rabs_le. lra. Qed.
(** (B (1+d))^(t (1+e)) against B^t *)
Lemma pow_near B t d e j : (1 / 2 <= B <= 2)%R -> (1 / 2 <= B * (1 + d) <= 2)%R -> (Rabs t <= 500)%R -> (0 <= j <= 30)%R -> (Rabs d <= j * u)%R -> (Rabs e <= 6 * u)%R ->
  near ((j + 8) * Rabs t) (Rpower B t) (Rpower (B * (1 + d)) (t * (1 + e))).
Proof.
  intros HB HB' T J D E. pose proof u_tiny as Us. assert (JU : (j * u <= 30 * u)%R) by (apply Rmult_le_compat_r; lra). assert (Dv := Rabs_le_inv _ _ D). assert (P1 : (0 < 1 + d)%R) by lra.
  set (D0 := (t * ln (1 + d) + t * e * ln (B * (1 + d)))%R).
  assert (Eq : Rpower (B * (1 + d)) (t * (1 + e)) = (Rpower B t * exp D0)%R).
  { unfold Rpower, D0. rewrite <- exp_plus. f_equal. rewrite ln_mult by lra. ring. }
  assert (L1 : (Rabs (ln (1 + d)) <= (j + 1 / 2) * u)%R).
  { pose proof (ln_le _ P1) as A1. pose proof (ln_ge _ P1) as A2. assert (A3 : (1 - / (1 + d) = d - d * d * / (1 + d))%R) by (field; lra).
    assert (A4 : (/ (1 + d) <= 2)%R) by (rewrite <- (Rinv_inv 2); apply Rinv_le_contravar; lra). assert (A5 : (d * d <= (30 * u) * (30 * u))%R). { replace (d * d)%R with (Rabs d * Rabs d)%R by (rewrite <- Rabs_mult; apply Rabs_pos_eq, Rle_0_sqr). apply Rmult_le_compat; try apply Rabs_pos; lra. }
    assert (A6 : (d * d * / (1 + d) <= (30 * u) * (30 * u) * 2)%R) by (apply Rmult_le_compat; [apply Rle_0_sqr|apply Rlt_le, Rinv_0_lt_compat; lra|exact A5|exact A4]).
    assert (A7 : ((30 * u) * (30 * u) * 2 <= u / 4)%R). { replace ((30 * u) * (30 * u) * 2)%R with (u * (1800 * u))%R by ring. replace (u / 4)%R with (u * / 4)%R by lra. apply Rmult_le_compat_l; lra. }
    apply Rabs_le. lra. }
  pose proof (ln_small _ HB') as L2. assert (T0 := Rabs_pos t).
  assert (DB : (Rabs D0 <= (j + 7) * (Rabs t * u))%R).
  { unfold D0. apply Rle_trans with (1 := Rabs_triang _ _). rewrite !Rabs_mult. assert (Rabs t * Rabs (ln (1 + d)) <= Rabs t * ((j + 1 / 2) * u))%R by (apply Rmult_le_compat_l; lra).
    assert (Rabs t * Rabs e * Rabs (ln (B * (1 + d))) <= Rabs t * (6 * u) * 1)%R by (apply Rmult_le_compat; [apply Rmult_le_pos; apply Rabs_pos|apply Rabs_pos|apply Rmult_le_compat_l; lra|exact L2]). assert (0 <= Rabs t * u)%R by (apply Rmult_le_pos; lra). lra. }
  assert (TU : (0 <= Rabs t * u <= 500 * u)%R) by (split; [apply Rmult_le_pos; lra|apply Rmult_le_compat_r; lra]). set (tu := (Rabs t * u)%R) in *.
  assert (JT : ((j + 7) * tu <= 37 * tu)%R) by (apply Rmult_le_compat_r; lra).
  rewrite Eq. exists (exp D0 - 1)%R. split; [|ring]. apply Rle_trans with (1 := exp_near D0 ltac:(lra)). replace ((j + 8) * Rabs t * u)%R with ((j + 8) * tu)%R by (unfold tu; ring).
  apply Rle_trans with ((j + 7) * tu * (1 + 2 * (37 * tu)))%R.
  - apply Rmult_le_compat; [apply Rabs_pos|pose proof (Rabs_pos D0); lra|exact DB|lra].
  - assert ((j + 7) * tu * (2 * (37 * tu)) <= tu * (1 / 2))%R; [|lra]. replace ((j + 7) * tu * (2 * (37 * tu)))%R with (tu * (2 * 37 * ((j + 7) * tu)))%R by ring. apply Rmult_le_compat_l; lra.
Qed.
Lemma pow_sized j B t : (1 / 2 <= B <= 2)%R -> (Rabs t <= IZR j)%R -> (bpow radix2 (- j) <= Rpower B t <= bpow radix2 j)%R.
Proof.
  intros HB T. assert (L2 : (0 < ln 2)%R) by (rewrite <- ln_1; apply ln_increasing; lra).
  assert (LB : (Rabs (ln B) <= ln 2)%R).
  { apply Rabs_le. split; [rewrite <- ln_Rinv by lra; destruct (Req_dec (/ 2) B) as [<- | N]; [lra|apply Rlt_le, ln_increasing; lra]|destruct (Req_dec B 2) as [-> | N]; [lra|apply Rlt_le, ln_increasing; lra]]. }
  assert (M : (Rabs (t * ln B) <= IZR j * ln 2)%R) by (rewrite Rabs_mult; apply Rmult_le_compat; try apply Rabs_pos; assumption). apply Rabs_le_inv in M.
  unfold Rpower. rewrite !bpow_exp, opp_IZR. change (IZR radix2) with 2%R.
  assert (Mo : forall a b, (a <= b -> exp a <= exp b)%R) by (intros a b [L|L]; [apply Rlt_le, exp_increasing; exact L|right; f_equal; exact L]). split; apply Mo; lra.
Qed.
Definition pow_size B t := pow_sized 500 B t.


Lemma df_near pow n rf r' r a av q e : libm_pow pow -> 1 <= n <= 12 -> val rf r' -> (0 <= e <= 4)%R -> (Rabs (r' - r) <= e * u * IZR n)%R -> (- (2 / 5) <= r / IZR n <= 9 / 10)%R ->
  val a av -> near 4 (Q2R q) av -> sized 50 (Q2R q) -> (Rabs (Q2R q * IZR n) <= 500)%R ->
  exists z v, f_fixed_df pow n rf a = Ok z /\ val z v /\ fixed_df n r q = Ok (1 / Rpower (1 + r / IZR n) (Q2R q * IZR n))%R /\
    near ((2 * e + 14) * Rabs (Q2R q * IZR n) + 6) (1 / Rpower (1 + r / IZR n) (Q2R q * IZR n)) v /\ sized 500 (1 / Rpower (1 + r / IZR n) (Q2R q * IZR n))%R /\ (0 < 1 / Rpower (1 + r / IZR n) (Q2R q * IZR n))%R.
Proof.
  intros Lp Hn Vr He Er Hr Va Na Sa Ht. pose proof u_tiny as Us. assert (N1 : (1 <= IZR n <= 12)%R) by (split; apply IZR_le; lia). pose proof (of_int_val n ltac:(lia)) as Vn. set (nn := IZR n) in *.
  assert (Fd : fixed_df n r q = Ok (1 / Rpower (1 + r / nn) (Q2R q * nn))%R).
  { unfold fixed_df. destruct (Z.eqb_spec n 0) as [Z0|_]; [lia|]. fold nn. destruct (Rlt_dec 0 (1 + r / nn)) as [_|H]; [|exfalso; apply H; lra]. rewrite Q2R_mult. unfold inject_Z at 1, nn. f_equal. f_equal. f_equal. unfold Q2R at 2. cbn [Qnum Qden]. rewrite Rinv_1, Rmult_1_r. reflexivity. }
  rewrite Fd. set (t := (Q2R q * nn)%R) in *. set (B := (1 + r / nn)%R) in *. assert (HB : (1 / 2 <= B <= 2)%R) by (unfold B; lra).
  assert (St : sized (50 + 4) t) by (apply sized_mul; [exact Sa|apply sized_int; [lia|lia]]).
  destruct (near_mul _ _ _ _ _ _ 4 0 ltac:(lra) ltac:(lra) Na (near_refl nn) Va Vn (sized_mid (50 + 4) _ ltac:(lia) St)) as (te & Vt & Nt). replace (4 + 0 + 2)%R with 6%R in Nt by ring.
  (* the base *)
  assert (Rn : (Rabs (r' / nn - r / nn) <= e * u)%R).
  { replace (r' / nn - r / nn)%R with ((r' - r) / nn)%R by (field; lra). unfold Rdiv. rewrite Rabs_mult, (Rabs_pos_eq (/ nn)) by (apply Rlt_le, Rinv_0_lt_compat; lra). apply Rmult_le_reg_r with nn; [lra|]. rewrite Rmult_assoc, Rinv_l by lra. lra. }
  assert (eu : (e * u <= 4 * u)%R) by (apply Rmult_le_compat_r; lra). assert (eu0 : (0 <= e * u)%R) by (apply Rmult_le_pos; lra). apply Rabs_le_inv in Rn.
  assert (Rb : (Rabs (r' / nn) <= 91 / 100)%R) by (apply Rabs_le; lra).
  assert (B1 : (1 <= big)%R) by (change 1%R with (bpow radix2 0); apply bpow_le; lia). assert (B8 : (8 <= big)%R) by (change 8%R with (bpow radix2 3); apply bpow_le; lia).
  destruct (fdiv_val _ _ _ _ Vr Vn ltac:(lra) ltac:(lra)) as (x & Ex & Vx). pose proof (rn_abs (r' / nn)) as E1. pose proof small_u as Su.
  assert (uuu : (u * u * u <= u / 1000)%R). { assert (u * u <= 1 * (1 / 1000))%R by (apply Rmult_le_compat; lra). assert (u * u * u <= 1 / 1000 * u)%R by (apply Rmult_le_compat_r; lra). lra. }
  assert (u * Rabs (r' / nn) <= u * (91 / 100))%R by (apply Rmult_le_compat_l; lra). assert (E1' : (Rabs (rn (r' / nn) - r' / nn) <= 92 / 100 * u)%R) by lra. apply Rabs_le_inv in E1'. set (xf := rn (r' / nn)) in *.
  assert (V1 := of_int_val 1 ltac:(lia)). change (IZR 1) with 1%R in V1. pose proof (fadd_val _ _ _ _ V1 Vx ltac:(apply Rle_trans with 8%R; [apply Rabs_le; lra|exact B8])) as Vb.
  pose proof (rn_plus_err _ _ _ _ V1 Vx) as E2. rewrite (Rabs_pos_eq (1 + xf)) in E2 by lra. assert (u * (1 + xf) <= u * (192 / 100))%R by (apply Rmult_le_compat_l; lra).
  assert (Eb : (Rabs (rn (1 + xf) - B) <= (e + 3) * u)%R) by (apply Rabs_le_inv in E2; unfold B; apply Rabs_le; lra). set (bf := rn (1 + xf)) in *.
  assert (Nb : near (2 * e + 6) B bf). { apply near_of_abs; [lra|]. apply Rle_trans with (1 := Eb). rewrite (Rabs_pos_eq B) by lra. assert ((2 * e + 6) * u * (6 / 10) <= (2 * e + 6) * u * B)%R by (apply Rmult_le_compat_l; [lra|unfold B; lra]). lra. }
  apply Rabs_le_inv in Eb. assert (HBf : (1 / 2 <= bf <= 2)%R) by (unfold B in Eb; lra).
  destruct Nb as (d & Dd & Ebf). destruct Nt as (d2 & Dd2 & Ete).
  pose proof (pow_near B t d d2 (2 * e + 6) HB ltac:(rewrite <- Ebf; exact HBf) Ht ltac:(lra) Dd Dd2) as Np. rewrite <- Ebf in Np. fold t in Ete. rewrite <- Ete in Np.
  assert (T5 : (Rabs te <= 512)%R). { rewrite Ete, Rabs_mult. apply Rle_trans with (500 * (1 + 6 * u))%R; [|lra]. apply Rmult_le_compat; [apply Rabs_pos|apply Rabs_pos|exact Ht|]. apply Rle_trans with (1 := Rabs_triang _ _). rewrite Rabs_R1. lra. }
  destruct Vb as [Fb Vb], Vt as [Ft Vt]. destruct (Lp (fadd (of_int 1) x) (fmul a (of_int n)) Fb Ft ltac:(rewrite Vb; exact HBf) ltac:(rewrite Vt; exact T5)) as (z & Ez & Fz & Ezz). rewrite Vb, Vt in Ezz.
  set (W' := Rpower bf te) in *. set (W := Rpower B t) in *. assert (W0' : (0 < W')%R) by apply exp_pos. assert (W0 : (0 < W)%R) by apply exp_pos.
  assert (U2 : (/ 2 ^ 52 = 2 * u)%R) by (unfold u; change (bpow radix2 (-53)) with (/ 9007199254740992)%R; lra). rewrite U2 in Ezz.
  assert (N2 : near 2 W' (B2R z)) by (apply near_of_abs; [lra|]; rewrite (Rabs_pos_eq W') by lra; exact Ezz).
  assert (T0 := Rabs_pos t). assert (Kb : (0 <= (2 * e + 6 + 8) * Rabs t <= 11000)%R) by (split; [apply Rmult_le_pos; lra|apply Rle_trans with (22 * 500)%R; [apply Rmult_le_compat; lra|lra]]).
  set (K := ((2 * e + 6 + 8) * Rabs t)%R) in *. pose proof (rel_trans K 2 _ _ _ ltac:(lra) ltac:(lra) Np N2) as N3. pose proof (rel_inv (K + 2 + 1) W _ ltac:(lra) ltac:(lra) N3) as N4.
  pose proof (pow_size B t HB Ht) as [Ps1 Ps2]. fold W in Ps1, Ps2.
  assert (Sz : sized 500 W) by (right; rewrite Rabs_pos_eq by lra; split; [exact Ps1|exact Ps2]). assert (Sw : sized 500 (1 / W)%R) by (replace (1 / W)%R with (/ W)%R by (field; lra); apply sized_inv; [lra|exact Sz]).
  replace (/ W)%R with (1 / W)%R in N4 by (field; lra). replace (/ B2R z)%R with (1 / B2R z)%R in N4.
  2: { unfold Rdiv. rewrite Rmult_1_l. reflexivity. }
  destruct (rel_round (K + 2 + 1 + 1) _ _ ltac:(lra) (sized_mid 500 _ ltac:(lia) Sw) N4) as [Bg N5].
  assert (Nz : B2R z <> 0%R). { destruct (rel_pos 2 W' _ ltac:(lra) ltac:(lra) N2) as [Z1 _]. apply Rabs_le_inv in Ezz. assert (2 * u * W' <= 1 / 2 * W')%R by (apply Rmult_le_compat_r; lra). lra. }
  destruct (fdiv_val _ _ _ _ V1 (conj Fz eq_refl) Nz Bg) as (y & Ey & Vy).
  exists y, (rn (1 / B2R z)). split; [unfold f_fixed_df; cbv zeta; rewrite Ex; cbn [bind]; rewrite Ez; cbn [bind]; exact Ey|]. split; [exact Vy|]. split; [reflexivity|].
  split; [|split; [exact Sw|apply Rdiv_lt_0_compat; lra]]. apply near_weak with (2 := N5). unfold K. right. ring.
Qed.


(** a payment as a double and exactly *)
Definition pays (x : date * date * f64) (p : bond_payment) : Prop :=
  fst (fst x) = bp_date p /\ snd (fst x) = bp_unadjusted p /\ date_ok (bp_date p) /\ (0 <= bp_amount p)%R /\ sized 211 (bp_amount p) /\ exists v, val (snd x) v /\ near 4 (bp_amount p) v.
Definition M715 : R := bpow radix2 715.

Section Loop.
  Variables (pow : f64 -> f64 -> res f64) (b : bond) (rate : f64) (r' r e T : R) (ref : date).
  Hypothesis Lp : libm_pow pow.
  Hypothesis Vr : val rate r'.
  Hypothesis He : (0 <= e <= 4)%R.
  Let n := per_year (freq (args b)).
  Hypothesis Er : (Rabs (r' - r) <= e * u * IZR n)%R.
  Hypothesis Hr : freq (args b) <> ZERO_COUPON -> (- (2 / 5) <= r / IZR n <= 9 / 10)%R.
  Hypothesis Or : date_ok ref.
  Hypothesis HT : (0 <= T <= 500)%R.
  Let K0 : R := ((2 * e + 14) * T + 13)%R.
  Lemma K0_range : (13 <= K0 <= 11013)%R.
  Proof. unfold K0. assert (0 <= (2 * e + 14) * T)%R by (apply Rmult_le_pos; lra). assert ((2 * e + 14) * T <= 22 * 500)%R by (apply Rmult_le_compat; lra). lra. Qed.
  Lemma M715_pos : (0 < M715)%R. Proof. apply bpow_gt_0. Qed.

  Lemma loop : forall l fl, Forall2 pays fl l -> (forall p q, In p l -> acc (b_dcc (args b)) ref (bp_date p) = Ok q -> (Rabs (Q2R q * IZR n) <= T)%R) ->
    forall (m : nat) s sf s', (m + List.length l <= 1010)%nat -> val sf s' -> near (K0 + 2 * INR m) s s' -> (0 <= s <= INR m * M715)%R ->
    match add_discounted b r ref l s with
    | Err er => f_add_discounted pow (args b) rate ref fl sf = Err er
    | Ok v => exists z w, f_add_discounted pow (args b) rate ref fl sf = Ok z /\ val z w /\ near (K0 + 2 * INR (m + List.length l)) v w /\ (0 <= v <= INR (m + List.length l) * M715)%R
    end.
  Proof.
    pose proof K0_range as KR. pose proof M715_pos as MP. induction 1 as [|[[d un] x] p fl l Pp Rest IH]; intros Ht m s sf s' Lm Vs Ns Bs; cbn [add_discounted f_add_discounted].
    - exists sf, s'. rewrite Nat.add_0_r. auto.
    - destruct Pp as (D1 & D2 & Od & A0 & Sa & v & Vx & Nx). cbn [fst snd] in D1, D2, Vx. subst d un. cbn [List.length] in Lm.
      assert (IH' := IH (fun p0 q0 I => Ht p0 q0 (or_intror I))). clear IH. specialize (Ht p).
      unfold is_payment_received, f_is_payment_received. destruct (add_business_days ref 1 (b_cal (args b))) as [sd|er]; cbn [bind]; [|reflexivity]. destruct (sd <=? bp_unadjusted p).
      + destruct (acc (b_dcc (args b)) ref (bp_date p)) as [q|er] eqn:A; cbn [bind]; [|rewrite (acc_err _ _ _ _ A); reflexivity].
        destruct (acc_near _ _ _ _ Or Od A) as (a & av & Fa & Va & Na & Sq). rewrite Fa. cbn [bind]. specialize (Ht q (or_introl eq_refl) eq_refl). fold n.
        assert (Hn : n = 0 \/ 1 <= n <= 12) by (unfold n; destruct (freq (args b)); cbn; lia). destruct Hn as [Z0|Hn].
        { rewrite Z0. unfold fixed_df, f_fixed_df. cbn [Z.eqb bind]. rewrite fdiv_zero; [reflexivity|]. apply (of_int_val 0 ltac:(lia)). }
        assert (Nzc : freq (args b) <> ZERO_COUPON) by (intros Z0; unfold n in Hn; rewrite Z0 in Hn; cbn in Hn; lia). specialize (Hr Nzc).
        destruct (df_near pow n rate r' r a av q e Lp Hn Vr He Er Hr Va Na Sq ltac:(lra)) as (df & dv & Fdf & Vdf & Edf & Ndf & Sdf & Pdf). rewrite Edf, Fdf. cbn [bind].
        set (D := (1 / Rpower (1 + r / IZR n) (Q2R q * IZR n))%R) in *.
        assert (Kq : ((2 * e + 14) * Rabs (Q2R q * IZR n) + 6 <= K0 - 7)%R) by (unfold K0; assert ((2 * e + 14) * Rabs (Q2R q * IZR n) <= (2 * e + 14) * T)%R by (apply Rmult_le_compat_l; lra); lra).
        apply (near_weak _ _ _ _ Kq) in Ndf. pose proof (rel_mul (K0 - 7) 4 _ _ _ _ ltac:(lra) ltac:(lra) Ndf Nx) as Nm.
        pose proof (sized_mul _ _ _ _ Sdf Sa) as Sm. destruct (rel_round (K0 - 7 + 4 + 1) _ _ ltac:(lra) (sized_mid (500 + 211) _ ltac:(lia) Sm) Nm) as [Bm Nr].
        pose proof (fmul_val _ _ _ _ Vdf Vx Bm) as Vm. replace (K0 - 7 + 4 + 1 + 2)%R with K0 in Nr by ring.
        assert (T0 : (0 <= D * bp_amount p <= M715)%R).
        { split; [apply Rmult_le_pos; lra|]. destruct Sm as [-> | [_ Sm]]; [lra|]. rewrite Rabs_pos_eq in Sm by (apply Rmult_le_pos; lra). apply Rle_trans with (1 := Sm). apply bpow_le. lia. }
        assert (Im : (0 <= INR m <= 1010)%R) by (split; [apply pos_INR|rewrite INR_IZR_INZ; apply IZR_le; lia]).
        assert (Nr' : near (K0 + 2 * INR m) (D * bp_amount p) (rn (dv * v))) by (apply near_weak with (2 := Nr); lra).
        pose proof (rel_add (K0 + 2 * INR m) _ _ _ _ (proj1 Bs) (proj1 T0) ltac:(lra) Ns Nr') as Na2.
        assert (Ss : (0 <= s + D * bp_amount p <= INR (S m) * M715)%R) by (rewrite S_INR; lra).
        destruct (rel_pos (K0 + 2 * INR m) _ _ ltac:(lra) (proj1 Ss) Na2) as [P1 P2].
        assert (Bg : (Rabs (s' + rn (dv * v)) <= big)%R).
        { rewrite Rabs_pos_eq by exact P1. apply Rle_trans with (1 := P2). apply Rle_trans with (bpow radix2 12 * M715)%R; [|unfold M715; rewrite <- bpow_plus; apply bpow_le; lia].
          change (bpow radix2 12) with 4096%R. assert (INR (S m) * M715 <= 1011 * M715)%R by (apply Rmult_le_compat_r; [lra|rewrite S_INR; lra]). lra. }
        pose proof (fadd_val _ _ _ _ Vs Vm Bg) as Va2. pose proof (rn_plus_err _ _ _ _ Vs Vm) as Ea.
        assert (N1 : near 1 (s' + rn (dv * v)) (rn (s' + rn (dv * v)))) by (apply near_of_abs; [lra|]; rewrite Rmult_1_l; exact Ea).
        pose proof (rel_trans (K0 + 2 * INR m) 1 _ _ _ ltac:(lra) ltac:(lra) Na2 N1) as Nf. replace (K0 + 2 * INR m + 1 + 1)%R with (K0 + 2 * INR (S m))%R in Nf by (rewrite S_INR; ring).
        specialize (IH' (S m) _ _ _ ltac:(lia) Va2 Nf Ss). replace (m + List.length (p :: l))%nat with (S m + List.length l)%nat by (cbn [List.length]; lia). exact IH'.
      + assert (W : (INR m <= INR (m + 1))%R) by (apply le_INR; lia).
        assert (Ns' : near (K0 + 2 * INR (S m)) s s') by (apply near_weak with (2 := Ns); rewrite S_INR; lra). assert (Bs' : (0 <= s <= INR (S m) * M715)%R) by (rewrite S_INR; lra).
        specialize (IH' (S m) _ _ _ ltac:(lia) Vs Ns' Bs'). replace (m + List.length (p :: l))%nat with (S m + List.length l)%nat by (cbn [List.length]; lia). exact IH'.
  Qed.
End Loop.

Lemma grid_length n : forall up d e i l, grid_loop n up d e i = Ok l -> (List.length l <= n)%nat.
Proof.
  induction n as [|n IH]; intros up d e i l; cbn [grid_loop]; [intros [= <-]; cbn; lia|]. destruct (if up then d <=? e else e <=? d); [|intros [= <-]; cbn; lia].
  destruct (add_increment d i) as [d'|]; cbn [bind]; [|discriminate]. destruct (grid_loop n up d' e i) as [r|] eqn:G; cbn [bind]; [|discriminate]. intros [= <-]. apply IH in G. cbn. lia.
Qed.
Lemma coupons_few a dd cs : create_coupon_payments_cashflow a dd = Ok cs -> (List.length cs <= 1001)%nat.
Proof.
  intros E. apply coupons_spec in E. destruct (coupon_step (freq a)) as [[m|]|]; [|subst; cbn; lia|contradiction]. destruct E as (l & G & _ & Pm & _). apply Permutation.Permutation_length in Pm. rewrite map_length in Pm. rewrite Pm.
  unfold generate_dates_by_increments in G. destruct (positive_increment _ _) as [up|]; cbn [bind] in G; [|discriminate]. apply grid_length in G. exact G.
Qed.

(** the reference date of a valuation *)
Definition valued (t : bond_args) (ref : option date) : date := match ref with Some d => d | None => purchase_date t end.
(** every payment counted by the day count lies at most T coupon periods ahead *)
Definition within (b : bond) (ref : date) (T : R) : Prop :=
  forall p q, In p (coupons b ++ redemption b) -> acc (b_dcc (args b)) ref (bp_date p) = Ok q -> (Rabs (Q2R q * IZR (per_year (freq (args b)))) <= T)%R.

Lemma pays_of a b fb : plain_bond a -> new_bond (fb_terms a) = Ok b -> f_new_bond a = Ok fb -> (0 <= principal (fb_terms a))%R -> (0 <= coupon_rate (fb_terms a))%R ->
  Forall2 pays (fb_coupons fb) (coupons b) /\ exists pr, f_redemption a = Ok pr /\ Forall2 pays pr (redemption b).
Proof.
  intros Pl B F P0 C0. destruct (new_bond_inv _ _ B) as (_ & _ & Edd & Ecs & Epr & _ & _ & _ & _). destruct (coupon_near a Pl) as (cp & vc & Ec & Vc & Nc & Sc). pose proof Pl as (_ & _ & (Fp & Vp & Sp) & Om & Op).
  destruct (new_dates_ok _ _ _ Om Edd Ecs) as [_ Oc]. unfold f_new_bond in F. rewrite Ec in F. cbn [bind] in F. rewrite Edd in F. cbn [bind] in F. rewrite Ecs in F. cbn [bind] in F. rewrite Epr in F. cbn [bind] in F.
  destruct (calculate_settlement_date _ _ _) as [sd|]; cbn [bind] in F; [|discriminate]. destruct (f_calculate_accrued_interest _ _ _ _ _) as [ai|]; cbn [bind] in F; [|discriminate]. destruct (f_get_full_price a ai) as [fp|]; cbn [bind] in F; [|discriminate].
  injection F as <-. cbn [fb_coupons]. split.
  - assert (Cs : forall p, In p (coupons b) -> adjustment_function (fb_terms a) (bp_unadjusted p) = Ok (bp_date p) /\ bp_amount p = calculate_coupon_payment (fb_terms a)).
    { intros p I. pose proof (coupons_spec _ _ _ Ecs) as S0. destruct (coupon_step (freq (fb_terms a))) as [[m|]|]; [|rewrite S0 in I; destruct I|contradiction]. destruct S0 as (l & _ & _ & _ & _ & S0). apply S0, I. }
    revert Cs Oc. generalize (coupons b). intros l Cs Oc. induction l as [|p l IH]; constructor; [|apply IH; intros q I; [apply Cs|apply Oc]; right; exact I].
    destruct (Cs p (or_introl eq_refl)) as [Aj Am]. unfold pays. cbn [fst snd]. rewrite Am. split; [reflexivity|]. split; [reflexivity|].
    split; [apply (adjust_isbd _ _ _ (Oc p (or_introl eq_refl)) Aj)|]. split; [apply coupon_pos; assumption|]. split; [exact Sc|]. exists vc. auto.
  - unfold f_redemption. rewrite Epr. cbn [bind]. eexists. split; [reflexivity|]. destruct (redemption_is _ _ B) as (d & Aj & ->). cbn [List.map]. constructor; [|constructor]. unfold pays. cbn [fst snd bp_date bp_unadjusted bp_amount].
    split; [reflexivity|]. split; [reflexivity|]. split; [apply (adjust_isbd _ _ _ Om Aj)|]. split; [exact P0|]. split.
    + destruct Sp as [-> | [S1 S2]]; [left; reflexivity|right]. split; [apply Rle_trans with (2 := S1); apply bpow_le; lia|apply Rle_trans with (1 := S2); apply bpow_le; lia].
    + exists (principal (fb_terms a)). split; [split; assumption|]. apply near_weak with (2 := near_refl _). lra.
Qed.

Lemma price_match pow a b fb rate r ref e T : libm_pow pow -> plain_bond a -> new_bond (fb_terms a) = Ok b -> f_new_bond a = Ok fb -> (0 <= principal (fb_terms a))%R -> (0 <= coupon_rate (fb_terms a))%R ->
  is_finite rate = true -> (0 <= e <= 4)%R -> (Rabs (B2R rate - r) <= e * u * IZR (per_year (freq (fb_terms a))))%R -> (freq (fb_terms a) <> ZERO_COUPON -> - (2 / 5) <= r / IZR (per_year (freq (fb_terms a))) <= 9 / 10)%R ->
  date_ok (valued (fb_terms a) ref) -> (0 <= T <= 500)%R -> within b (valued (fb_terms a) ref) T ->
  match discount_cashflows_by_fixed_rate b r ref with
  | Err er => f_discount_cashflows_by_fixed_rate pow a fb rate ref = Err er
  | Ok v => exists x w, f_discount_cashflows_by_fixed_rate pow a fb rate ref = Ok x /\ val x w /\ near ((2 * e + 14) * T + 2 * INR (List.length (coupons b)) + 15) v w /\ (0 <= v <= bpow radix2 730)%R
  end.
Proof.
  intros Lp Pl B F P0 C0 Fr He Er Hr Or HT Wt. destruct (pays_of a b fb Pl B F P0 C0) as [Pc (pr & Epr & Pp)]. destruct (new_bond_inv _ _ B) as (Ar & _ & _ & Ecs & _).
  unfold f_discount_cashflows_by_fixed_rate, discount_cashflows_by_fixed_rate. rewrite Epr. cbn [bind]. rewrite Ar. change (match ref with Some d => d | None => purchase_date (fb_terms a) end) with (valued (fb_terms a) ref).
  assert (Hr' : freq (args b) <> ZERO_COUPON -> (- (2 / 5) <= r / IZR (per_year (freq (args b))) <= 9 / 10)%R) by (rewrite Ar; exact Hr). assert (Er' : (Rabs (B2R rate - r) <= e * u * IZR (per_year (freq (args b))))%R) by (rewrite Ar; exact Er).
  pose proof (coupons_few _ _ _ Ecs) as Few. pose proof (of_int_val 0 ltac:(lia)) as V0. change (IZR 0) with 0%R in V0.
  assert (R1 : redemption b <> [] -> List.length (redemption b) = 1%nat) by (destruct (redemption_is _ _ B) as (d & _ & ->); reflexivity).
  assert (Lr : List.length (redemption b) = 1%nat) by (destruct (redemption_is _ _ B) as (d & _ & ->); reflexivity).
  assert (Ht1 : forall p q, In p (coupons b) -> acc (b_dcc (args b)) (valued (fb_terms a) ref) (bp_date p) = Ok q -> (Rabs (Q2R q * IZR (per_year (freq (args b)))) <= T)%R) by (intros p q I; apply Wt; apply in_or_app; left; exact I).
  assert (Ht2 : forall p q, In p (redemption b) -> acc (b_dcc (args b)) (valued (fb_terms a) ref) (bp_date p) = Ok q -> (Rabs (Q2R q * IZR (per_year (freq (args b)))) <= T)%R) by (intros p q I; apply Wt; apply in_or_app; right; exact I).
  pose proof (K0_range e T He HT) as KR.
  pose proof (loop pow b rate (B2R rate) r e T (valued (fb_terms a) ref) Lp (conj Fr eq_refl) He Er' Hr' Or HT (coupons b) (fb_coupons fb) Pc Ht1 0%nat 0%R (of_int 0) 0%R ltac:(lia) V0) as L1.
  rewrite Ar in L1. specialize (L1 ltac:(apply near_weak with (2 := near_refl 0%R); cbn [INR]; lra) ltac:(cbn [INR]; lra)).
  destruct (add_discounted b r (valued (fb_terms a) ref) (coupons b) 0) as [s|er]; cbn [bind]; [|rewrite L1; reflexivity]. destruct L1 as (z & w & E1 & V1 & N1 & B1). rewrite E1. cbn [bind].
  pose proof (loop pow b rate (B2R rate) r e T (valued (fb_terms a) ref) Lp (conj Fr eq_refl) He Er' Hr' Or HT (redemption b) pr Pp Ht2 (0 + List.length (coupons b))%nat s z w ltac:(lia) V1 N1 B1) as L2. rewrite Ar in L2.
  destruct (add_discounted b r (valued (fb_terms a) ref) (redemption b) s) as [v|er]; [|exact L2]. destruct L2 as (z2 & w2 & E2 & V2 & N2 & B2). exists z2, w2. split; [exact E2|]. split; [exact V2|].
  rewrite Lr, plus_INR in N2. split; [apply near_weak with (2 := N2); rewrite Nat.add_0_l; cbn [INR]; lra|]. split; [apply B2|]. apply Rle_trans with (1 := proj2 B2). rewrite Lr.
  apply Rle_trans with (bpow radix2 12 * M715)%R; [|unfold M715; rewrite <- bpow_plus; apply bpow_le; lia]. apply Rmult_le_compat_r; [apply Rlt_le, M715_pos|]. change (bpow radix2 12) with (IZR 4096). rewrite INR_IZR_INZ. apply IZR_le. lia.
Qed.


(** C112: at a yield between -40% and 90% a period, for payments at most T <= 500 coupon periods ahead, the price the program
    computes is the exact price of the exact bond up to 14 T + 2 N + 15 units of 2^-53, N the number of coupons; it raises exactly
    when the exact computation does. *)
Theorem C112_price : forall pow a b rate ref T, libm_pow pow -> plain_bond a -> new_bond (fb_terms a) = Ok b -> (0 <= principal (fb_terms a))%R -> (0 <= coupon_rate (fb_terms a))%R ->
  is_finite rate = true -> (freq (fb_terms a) <> ZERO_COUPON -> - (2 / 5) <= B2R rate / IZR (per_year (freq (fb_terms a))) <= 9 / 10)%R ->
  date_ok (valued (fb_terms a) ref) -> (0 <= T <= 500)%R -> within b (valued (fb_terms a) ref) T ->
  exists fb, f_new_bond a = Ok fb /\
  (forall er, f_discount_cashflows_by_fixed_rate pow a fb rate ref = Err er <-> discount_cashflows_by_fixed_rate b (B2R rate) ref = Err er) /\
  (forall v, discount_cashflows_by_fixed_rate b (B2R rate) ref = Ok v -> exists x, f_discount_cashflows_by_fixed_rate pow a fb rate ref = Ok x /\ is_finite x = true /\
     (Rabs (B2R x - v) <= (14 * T + 2 * INR (List.length (coupons b)) + 15) * / 2 ^ 53 * v)%R).
Proof.
  intros pow a b rate ref T Lp Pl B P0 C0 Fr Hr Or HT Wt. destruct (C108_accuracy a b Pl B) as (fb & F & _). exists fb. split; [exact F|].
  assert (U : (/ 2 ^ 53 = u)%R) by (unfold u; change (bpow radix2 (-53)) with (/ 9007199254740992)%R; lra). rewrite U.
  assert (Er : (Rabs (B2R rate - B2R rate) <= 0 * u * IZR (per_year (freq (fb_terms a))))%R) by (rewrite Rminus_diag_eq, Rabs_R0 by reflexivity; lra).
  pose proof (price_match pow a b fb rate (B2R rate) ref 0 T Lp Pl B F P0 C0 Fr ltac:(lra) Er Hr Or HT Wt) as M.
  destruct (discount_cashflows_by_fixed_rate b (B2R rate) ref) as [v|er].
  - destruct M as (x & w & E & [Fx Vx] & N & V0). rewrite E. split; [split; discriminate|]. intros v' [= <-]. exists x. split; [reflexivity|]. split; [exact Fx|]. rewrite Vx. pose proof (near_abs _ _ _ N) as A. rewrite (Rabs_pos_eq v) in A by apply V0.
    replace ((2 * 0 + 14) * T)%R with (14 * T)%R in A by ring. exact A.
  - rewrite M. split; [split; intros [= ->]; reflexivity|discriminate].
Qed.
Print Assumptions C112_price.

Lemma accrued_sized a b : plain_bond a -> new_bond (fb_terms a) = Ok b -> sized 311 (accrued_interest b).
Proof.
  intros Pl B. destruct (new_bond_inv _ _ B) as (_ & Ecp & Edd & Ecs & _ & Esd & Eai & _ & _). destruct (coupon_near a Pl) as (cp & vc & Ec & Vc & Nc & Sc). pose proof Pl as (_ & _ & _ & Om & Op).
  destruct (new_dates_ok _ _ _ Om Edd Ecs) as [Od Oc]. assert (Os : date_ok (settlement_date b)) by apply (settle_isbd _ _ _ _ Op Esd). rewrite Ecp in Eai.
  pose proof (accrued_near a cp vc _ _ _ _ Od Os Oc Vc Nc Sc) as Ac. rewrite Eai in Ac. destruct Ac as (x & w & _ & _ & _ & S). exact S.
Qed.
Lemma full_bounded a b : plain_bond a -> new_bond (fb_terms a) = Ok b -> (Rabs (price (fb_terms a)) + Rabs (full_price b - price (fb_terms a)) <= bpow radix2 420)%R.
Proof.
  intros Pl B. pose proof (accrued_sized a b Pl B) as S. destruct (new_bond_inv _ _ B) as (_ & _ & _ & _ & _ & _ & _ & Ef & Np). destruct Pl as ((_ & _ & Bq) & _ & (_ & _ & Sp) & _).
  rewrite Ef. replace (price (fb_terms a) + accrued_interest b / principal (fb_terms a) * 100 - price (fb_terms a))%R with (accrued_interest b / principal (fb_terms a) * 100)%R by ring.
  assert (S1 : sized (311 + 100 + 7) (accrued_interest b / principal (fb_terms a) * 100)%R). { apply sized_mul; [apply sized_div; assumption|]. apply (sized_int 100 7); lia. }
  assert (L1 : (Rabs (accrued_interest b / principal (fb_terms a) * 100) <= bpow radix2 419)%R).
  { destruct S1 as [-> | [_ H]]; [rewrite Rabs_R0; apply bpow_ge_0|]. apply Rle_trans with (1 := H). apply bpow_le. lia. }
  assert (L2 : (bpow radix2 100 <= bpow radix2 419)%R) by (apply bpow_le; lia). assert (D : (bpow radix2 420 = 2 * bpow radix2 419)%R) by (change 420 with (1 + 419); rewrite bpow_plus; reflexivity). lra.
Qed.
Lemma pow_big k : k <= 1000 -> (bpow radix2 k <= big)%R.
Proof. intros L. pose proof (bpow_ge_0 radix2 k). rewrite <- (Rabs_pos_eq (bpow radix2 k)) by assumption. apply (big_of _ k L). lra. Qed.
Lemma target_near f p ff P fp A : val f ff -> val p P -> (bpow radix2 (-100) <= P <= bpow radix2 100)%R -> (bpow radix2 (-100) <= A <= bpow radix2 420)%R -> (Rabs fp <= A)%R -> (Rabs (ff - fp) <= 22 * u * A)%R ->
  exists z w, fdiv (fmul f p) (of_int 100) = Ok z /\ val z w /\ (Rabs (w - fp * P / 100) <= 25 * u * (P / 100 * A))%R /\ (Rabs w <= 11 / 10 * (P / 100 * A))%R /\ (P / 100 * A <= bpow radix2 520)%R.
Proof.
  intros Vf Vp HP HA Hf Hd. pose proof u_tiny as Us. pose proof (bpow_gt_0 radix2 (-100)) as Pp. set (B := (P / 100 * A)%R).
  assert (PA : (P * A = 100 * B)%R) by (unfold B; field).
  assert (Blo : (bpow radix2 (-207) <= B)%R).
  { assert (bpow radix2 (-100) * bpow radix2 (-100) <= P * A)%R by (apply Rmult_le_compat; lra). rewrite <- bpow_plus in H. assert (E : bpow radix2 (-100 + -100) = (128 * bpow radix2 (-207))%R) by (change (-100 + -100) with (7 + -207); rewrite bpow_plus; reflexivity).
    pose proof (bpow_gt_0 radix2 (-207)). lra. }
  assert (Bhi : (B <= bpow radix2 520)%R).
  { assert (P * A <= bpow radix2 100 * bpow radix2 420)%R by (apply Rmult_le_compat; lra). rewrite <- bpow_plus in H. change (100 + 420) with 520 in H. pose proof (bpow_gt_0 radix2 520). lra. }
  assert (B0 : (0 < B)%R) by (pose proof (bpow_gt_0 radix2 (-207)); lra).
  assert (Sm : (2 * small <= / 1000 * (u * B))%R).
  { apply Rle_trans with (bpow radix2 (-10) * (bpow radix2 (-53) * bpow radix2 (-207)))%R.
    - change 2%R with (bpow radix2 1). unfold small. rewrite <- !bpow_plus. apply bpow_le. lia.
    - fold u. assert (0 <= u * bpow radix2 (-207))%R by (apply Rmult_le_pos; [lra|apply bpow_ge_0]). assert (u * bpow radix2 (-207) <= u * B)%R by (apply Rmult_le_compat_l; lra).
      assert (bpow radix2 (-10) <= / 1000)%R by (change (bpow radix2 (-10)) with (/ 1024)%R; lra). pose proof (bpow_gt_0 radix2 (-10)). apply Rmult_le_compat; lra. }
  assert (Bg : (1000 * bpow radix2 520 <= big)%R). { apply Rle_trans with (bpow radix2 10 * bpow radix2 520)%R; [apply Rmult_le_compat_r; [apply bpow_ge_0|change (bpow radix2 10) with 1024%R; lra]|]. rewrite <- bpow_plus. apply pow_big. lia. }
  assert (P0 : (0 < P)%R) by lra.
  assert (Dm : (Rabs (ff * P - fp * P) <= 2200 * (u * B))%R). { replace (ff * P - fp * P)%R with ((ff - fp) * P)%R by ring. rewrite Rabs_mult, (Rabs_pos_eq P) by lra. apply Rle_trans with (22 * u * A * P)%R; [apply Rmult_le_compat_r; lra|]. replace (22 * u * A * P)%R with (22 * u * (P * A))%R by ring. rewrite PA. lra. }
  assert (Fm : (Rabs (fp * P) <= 100 * B)%R). { rewrite Rabs_mult, (Rabs_pos_eq P) by lra. rewrite <- PA, (Rmult_comm P). apply Rmult_le_compat_r; lra. }
  assert (uB : (u * B <= 1 / 1000000000000 * B)%R) by (apply Rmult_le_compat_r; lra). assert (uB0 : (0 < u * B)%R) by (apply Rmult_lt_0_compat; lra).
  set (m := (ff * P)%R) in *. set (m0 := (fp * P)%R) in *.
  assert (Am : (Rabs m <= 101 * B)%R). { replace m with (m0 + (m - m0))%R by ring. apply Rle_trans with (1 := Rabs_triang _ _). lra. }
  pose proof (fmul_val f p ff P Vf Vp ltac:(fold m; lra)) as V1. fold m in V1. pose proof (rn_abs m) as E1. assert (u * Rabs m <= u * (101 * B))%R by (apply Rmult_le_compat_l; lra).
  assert (A1 : (Rabs (rn m) <= 102 * B)%R). { replace (rn m) with (m + (rn m - m))%R by ring. apply Rle_trans with (1 := Rabs_triang _ _). lra. }
  assert (Dv : forall y, Rabs (y / 100) = (Rabs y / 100)%R) by (intros y; unfold Rdiv; rewrite Rabs_mult, (Rabs_pos_eq (/ 100)) by lra; reflexivity).
  assert (A2 : (Rabs (rn m / 100) <= 102 / 100 * B)%R) by (rewrite Dv; lra).
  destruct (fdiv_val (fmul f p) (of_int 100) (rn m) 100%R V1 (of_int_val 100 ltac:(lia)) ltac:(lra) ltac:(lra)) as (z & Ez & Vz). exists z, (rn (rn m / 100)). split; [exact Ez|]. split; [exact Vz|].
  pose proof (rn_abs (rn m / 100)) as E2. assert (u * Rabs (rn m / 100) <= u * (102 / 100 * B))%R by (apply Rmult_le_compat_l; lra).
  assert (Fin : (Rabs (rn (rn m / 100) - m0 / 100) <= 25 * u * B)%R).
  { replace (rn (rn m / 100) - m0 / 100)%R with ((rn (rn m / 100) - rn m / 100) + ((rn m - m) / 100 + (m - m0) / 100))%R by field. apply Rle_trans with (1 := Rabs_triang _ _). pose proof (Rabs_triang ((rn m - m) / 100) ((m - m0) / 100)) as Tr. rewrite !Dv in Tr. lra. }
  split; [exact Fin|]. split; [|exact Bhi]. replace (rn (rn m / 100)) with (m0 / 100 + (rn (rn m / 100) - m0 / 100))%R by ring. apply Rle_trans with (1 := Rabs_triang _ _). rewrite Dv. lra.
Qed.
(** the residual handed to the root finder is the exact one up to such roundings of the price and 28 of the target: a solver that
    stops at a small residual stops at a yield that reprices the bond *)
Theorem C112_residual : forall pow a b rate ref T v, libm_pow pow -> plain_bond a -> new_bond (fb_terms a) = Ok b -> (0 <= principal (fb_terms a))%R -> (0 <= coupon_rate (fb_terms a))%R ->
  is_finite rate = true -> (freq (fb_terms a) <> ZERO_COUPON -> - (2 / 5) <= B2R rate / IZR (per_year (freq (fb_terms a))) <= 9 / 10)%R ->
  date_ok (valued (fb_terms a) ref) -> (0 <= T <= 500)%R -> within b (valued (fb_terms a) ref) T -> (bpow radix2 (-100) <= price (fb_terms a))%R ->
  discount_cashflows_by_fixed_rate b (B2R rate) ref = Ok v ->
  exists fb z R0, f_new_bond a = Ok fb /\ f_ytm_residual pow a fb ref rate = Ok z /\ is_finite z = true /\ ytm_residual b ref (B2R rate) = Ok R0 /\
    (Rabs (B2R z - R0) <= / 2 ^ 53 * ((14 * T + 2 * INR (List.length (coupons b)) + 17) * v + 28 * (principal (fb_terms a) / 100 * (price (fb_terms a) + Rabs (full_price b - price (fb_terms a))))))%R.
Proof.
  intros pow a b rate ref T v Lp Pl B P0 C0 Fr Hr Or HT Wt Pr D. destruct (C108_accuracy a b Pl B) as (fb & F & Cl). 
  assert (U : (/ 2 ^ 53 = u)%R) by (unfold u; change (bpow radix2 (-53)) with (/ 9007199254740992)%R; lra). rewrite U.
  assert (Er : (Rabs (B2R rate - B2R rate) <= 0 * u * IZR (per_year (freq (fb_terms a))))%R) by (rewrite Rminus_diag_eq, Rabs_R0 by reflexivity; lra).
  pose proof (price_match pow a b fb rate (B2R rate) ref 0 T Lp Pl B F P0 C0 Fr ltac:(lra) Er Hr Or HT Wt) as M. rewrite D in M. destruct M as (x & w & E & Vx & N & V0).
  destruct Cl as (_ & _ & _ & _ & _ & _ & Ff & _ & _ & Ep). rewrite U in Ep. destruct (new_bond_inv _ _ B) as (Ar & _ & _ & _ & _ & _ & _ & _ & Np). rewrite Ar in *. set (t := fb_terms a) in *.
  pose proof Pl as Pl0. destruct Pl as ((_ & _ & Bq) & _ & (Fp & Vp & Sp) & _). fold t in Bq, Vp, Sp. set (P := principal t) in *. set (q := price t) in *. set (fp := full_price b) in *. set (ff := B2R (fb_full_price fb)) in *.
  pose proof u_tiny as Us. pose proof (bpow_gt_0 radix2 (-100)) as Pp. rewrite (Rabs_pos_eq q) in * by lra. set (A := (q + Rabs (fp - q))%R) in *. assert (Aq : (q <= A)%R) by (unfold A; pose proof (Rabs_pos (fp - q)); lra).
  assert (Af : (Rabs fp <= A)%R). { replace fp with (q + (fp - q))%R by ring. apply Rle_trans with (1 := Rabs_triang _ _). rewrite (Rabs_pos_eq q) by lra. unfold A. lra. }
  assert (PS : (bpow radix2 (-100) <= P <= bpow radix2 100)%R). { destruct Sp as [Z0|S1]; [contradiction|]. rewrite Rabs_pos_eq in S1 by exact P0. exact S1. }
  pose proof (full_bounded a b Pl0 B) as Hb. fold t q fp in Hb. rewrite (Rabs_pos_eq q) in Hb by lra. fold A in Hb.
  destruct (target_near (fb_full_price fb) (fb_principal a) ff P fp A (conj Ff eq_refl) (conj Fp Vp) PS ltac:(lra) Af Ep) as (z & wz & Ez & Vz & Nz & Bz & Bhi).
  exists fb, (fsub z x), (fp * P / 100 - v)%R. split; [exact F|]. unfold f_ytm_residual. rewrite Ez. cbn [bind]. rewrite E. cbn [bind]. split; [reflexivity|].
  set (G := (P / 100 * A)%R) in *. assert (G0 : (0 <= G)%R) by (unfold G; apply Rmult_le_pos; lra).
  assert (N15 : (INR (List.length (coupons b)) <= 1001)%R). { destruct (new_bond_inv _ _ B) as (_ & _ & Edd & Ecs & _). pose proof (coupons_few _ _ _ Ecs) as Cf. apply le_INR in Cf. replace (INR 1001) with 1001%R in Cf by (rewrite INR_IZR_INZ; reflexivity). exact Cf. }
  pose proof (near_abs _ _ _ N) as Nx. rewrite (Rabs_pos_eq v) in Nx by apply V0. replace ((2 * 0 + 14) * T)%R with (14 * T)%R in Nx by ring. set (K := (14 * T + 2 * INR (List.length (coupons b)) + 15)%R) in *.
  pose proof (pos_INR (List.length (coupons b))) as In0. assert (Ku : (K * u <= 1 / 10)%R). { apply Rle_trans with (10000 * u)%R; [apply Rmult_le_compat_r; unfold K; lra|lra]. }
  assert (Kv : (K * u * v <= 1 / 10 * v)%R) by (apply Rmult_le_compat_r; [apply V0|lra]). destruct V0 as [V0 V1].
  assert (Bw : (Rabs w <= 11 / 10 * v)%R). { replace w with (v + (w - v))%R by ring. apply Rle_trans with (1 := Rabs_triang _ _). rewrite (Rabs_pos_eq v) by exact V0. lra. }
  assert (Bd : (Rabs (wz - w) <= 11 / 10 * G + 11 / 10 * v)%R). { apply Rle_trans with (1 := Rabs_triang _ _). rewrite Rabs_Ropp. lra. }
  assert (Bb : (11 / 10 * bpow radix2 520 + 11 / 10 * bpow radix2 730 <= big)%R).
  { assert (bpow radix2 520 <= bpow radix2 730)%R by (apply bpow_le; lia). apply Rle_trans with (bpow radix2 2 * bpow radix2 730)%R; [change (bpow radix2 2) with 4%R; pose proof (bpow_gt_0 radix2 730); lra|]. rewrite <- bpow_plus. apply pow_big. lia. }
  pose proof (fsub_val z x wz w Vz Vx ltac:(lra)) as [Fz Hz]. split; [exact Fz|]. split; [unfold ytm_residual; rewrite D; cbn [bind]; rewrite Ar; reflexivity|]. rewrite Hz.
  pose proof (rn_minus_err z x wz w Vz Vx) as Er2. assert (u * Rabs (wz - w) <= u * (11 / 10 * G + 11 / 10 * v))%R by (apply Rmult_le_compat_l; lra).
  replace (rn (wz - w) - (fp * P / 100 - v))%R with ((rn (wz - w) - (wz - w)) + ((wz - fp * P / 100) + (v - w)))%R by ring.
  apply Rle_trans with (1 := Rabs_triang _ _). pose proof (Rabs_triang (wz - fp * P / 100) (v - w)) as Tr. rewrite (Rabs_minus_sym v w) in Tr.
  assert (0 <= u * G)%R by (apply Rmult_le_pos; lra). assert (0 <= u * v)%R by (apply Rmult_le_pos; lra).
  replace (u * ((14 * T + 2 * INR (List.length (coupons b)) + 17) * v + 28 * G))%R with (K * u * v + 2 * (u * v) + 28 * (u * G))%R by (unfold K; ring). lra.
Qed.
Print Assumptions C112_residual.


(** the double nearest to one basis point, and its half *)
Definition h0 : R := (7378697629483821 / 73786976294838206464)%R.
Lemma bp_val : val f_one_bp h0.
Proof.
  unfold f_one_bp, h0. assert (E : bpow radix2 (-66) = (/ 73786976294838206464)%R) by reflexivity. pose proof (flit_val 7378697629483821 (-66) ltac:(vm_compute; discriminate) ltac:(lia)) as H. rewrite E in H. exact H.
Qed.
Lemma bp_half : exists z, fdiv f_one_bp (of_int 2) = Ok z /\ val z (h0 / 2).
Proof.
  destruct (fdiv_val _ _ _ _ bp_val (of_int_val 2 ltac:(lia)) ltac:(lra)) as (z & Ez & Vz).
  - unfold h0. rewrite Rabs_pos_eq by lra. apply Rle_trans with (bpow radix2 0); [change (bpow radix2 0) with 1%R; lra|apply bpow_le; lia].
  - exists z. split; [exact Ez|]. assert (F : rn (h0 / 2) = (h0 / 2)%R); [|rewrite F in Vz; exact Vz].
    apply (val_format (flit 7378697629483821 (-67))). assert (E : bpow radix2 (-67) = (/ 147573952589676412928)%R) by reflexivity.
    pose proof (flit_val 7378697629483821 (-67) ltac:(vm_compute; discriminate) ltac:(lia)) as H. rewrite E in H. replace (h0 / 2)%R with (7378697629483821 * / 147573952589676412928)%R by (unfold h0; lra). exact H.
Qed.
Lemma u_num : u = (/ 9007199254740992)%R. Proof. reflexivity. Qed.
Lemma h0_near : (Rabs (h0 - one_bp) <= u * one_bp /\ 1 / 20000 <= h0 <= 1 / 5000)%R.
Proof. rewrite u_num. unfold h0, one_bp. split; [|lra]. apply Rabs_le. lra. Qed.

(** the two bumped yields *)
Lemma bump y (s : bool) half ytm n : val ytm y -> val half (h0 / 2) -> (1 <= n <= 12)%R -> (- (39 / 100) <= y / n <= 89 / 100)%R ->
  let r := (if s then y + 0 + one_bp / 2 else y + 0 - one_bp / 2)%R in let rate := if s then fadd (fadd ytm (of_int 0)) half else fsub (fadd ytm (of_int 0)) half in
  is_finite rate = true /\ (Rabs (B2R rate - r) <= 1 * u * n)%R /\ (- (2 / 5) <= r / n <= 9 / 10)%R.
Proof.
  intros Vy Vh Hn Hy r rate. pose proof u_tiny as Us. pose proof h0_near as [H1 H2]. unfold one_bp in *. assert (H3 : (Rabs (h0 - 1 / 10000) <= / 10000000)%R) by lra. apply Rabs_le_inv in H3.
  assert (Yn : (- (39 / 100) * n <= y <= 89 / 100 * n)%R). { replace y with (y / n * n)%R by (field; lra). split; apply Rmult_le_compat_r; lra. }
  assert (Bg : (20 <= big)%R) by (apply Rle_trans with (bpow radix2 5); [change (bpow radix2 5) with 32%R; lra|apply bpow_le; lia]).
  assert (V1 : val (fadd ytm (of_int 0)) y). { pose proof (fadd_val _ _ _ _ Vy (of_int_val 0 ltac:(lia)) ltac:(rewrite Rplus_0_r; apply Rle_trans with 20%R; [apply Rabs_le; lra|exact Bg])) as V. rewrite Rplus_0_r, (val_format ytm y Vy) in V. exact V. }
  assert (Rn : (- (2 / 5) <= r / n <= 9 / 10)%R).
  { assert (S : (Rabs (r / n - y / n) <= 1 / 20000)%R).
    { replace (r / n - y / n)%R with ((r - y) * / n)%R by (field; lra). rewrite Rabs_mult, (Rabs_pos_eq (/ n)) by (apply Rlt_le, Rinv_0_lt_compat; lra). assert (/ n <= 1)%R by (rewrite <- Rinv_1; apply Rinv_le_contravar; lra).
      assert (0 < / n)%R by (apply Rinv_0_lt_compat; lra). assert (Rabs (r - y) <= 1 / 20000)%R by (unfold r; destruct s; apply Rabs_le; lra). rewrite <- (Rmult_1_r (1 / 20000)). apply Rmult_le_compat; try lra. apply Rabs_pos. }
    apply Rabs_le_inv in S. lra. }
  assert (Hh : (Rabs (h0 / 2 - 1 / 20000) <= u * (1 / 20000))%R). { replace (h0 / 2 - 1 / 20000)%R with ((h0 - 1 / 10000) / 2)%R by field. unfold Rdiv at 1. rewrite Rabs_mult, (Rabs_pos_eq (/ 2)) by lra. lra. }
  assert (Main : exists v e, val rate (rn v) /\ (Rabs (rn v - v) <= u * Rabs v)%R /\ v = (r + e)%R /\ (Rabs e <= u * (1 / 20000))%R /\ (Rabs v <= 9 / 10 * n)%R).
  { destruct s; unfold rate, r in *.
    - exists (y + h0 / 2)%R, (h0 / 2 - 1 / 20000)%R. split; [apply fadd_val; auto; apply Rle_trans with 20%R; [apply Rabs_le; lra|exact Bg]|]. split; [apply (rn_plus_err _ _ _ _ V1 Vh)|]. split; [field|]. split; [exact Hh|]. apply Rabs_le. lra.
    - exists (y - h0 / 2)%R, (- (h0 / 2 - 1 / 20000))%R. split; [apply fsub_val; auto; apply Rle_trans with 20%R; [apply Rabs_le; lra|exact Bg]|]. split; [apply (rn_minus_err _ _ _ _ V1 Vh)|]. split; [field|]. split; [rewrite Rabs_Ropp; exact Hh|]. apply Rabs_le. lra. }
  destruct Main as (v & e & [Fv Vv] & Er & Ev & He & Bv). split; [exact Fv|]. split; [|exact Rn]. rewrite Vv. replace (rn v - r)%R with ((rn v - v) + e)%R by (rewrite Ev; ring). apply Rle_trans with (1 := Rabs_triang _ _).
  assert (u * Rabs v <= u * (9 / 10 * n))%R by (apply Rmult_le_compat_l; lra). assert (u * (1 / 20000) <= u * (1 / 10 * n))%R by (apply Rmult_le_compat_l; lra). lra.
Qed.

Lemma two_pow (k : positive) : (/ 2 ^ Pos.to_nat k = bpow radix2 (Zneg k))%R.
Proof. change (Zneg k) with (- Zpos k). rewrite bpow_opp. f_equal. rewrite <- (IZR_Zpower radix2 (Zpos k)) by lia. change (Zpower radix2 (Zpos k)) with (2 ^ Zpos k). rewrite <- (positive_nat_Z k), <- pow_IZR. reflexivity. Qed.
Lemma tiny_1000 : (2 * small <= / 2 ^ 1000)%R.
Proof.
  assert (E : (/ 2 ^ 1000 = bpow radix2 (-1000))%R) by apply (two_pow 1000).
  rewrite E. change 2%R with (bpow radix2 1). unfold small. rewrite <- bpow_plus. apply bpow_le. lia.
Qed.

(** dividing a difference of two prices by the basis point *)
Lemma quotient_near K x1 x2 w1 w2 v1 v2 : (0 <= K <= 20000)%R -> val x1 w1 -> val x2 w2 -> near K v1 w1 -> near K v2 w2 -> (0 <= v1 <= bpow radix2 730)%R -> (0 <= v2 <= bpow radix2 730)%R ->
  exists z w, fdiv (fsub x1 x2) f_one_bp = Ok z /\ val z w /\ (Rabs (w - (v1 - v2) / one_bp) <= 10000 * ((K + 5) * u * (v1 + v2)) + 2 * small)%R.
Proof.
  intros HK V1 V2 N1 N2 B1 B2. pose proof u_tiny as Us. apply near_abs in N1. apply near_abs in N2. rewrite (Rabs_pos_eq v1) in N1 by lra. rewrite (Rabs_pos_eq v2) in N2 by lra. set (S := (v1 + v2)%R).
  assert (Ku : (0 <= K * u <= 1 / 1000000)%R). { split; [apply Rmult_le_pos; lra|]. apply Rle_trans with (20000 * (1 / 1000000000000))%R; [apply Rmult_le_compat; lra|lra]. }
  assert (S0 : (0 <= S)%R) by (unfold S; lra). assert (uS : (0 <= u * S)%R) by (apply Rmult_le_pos; lra). assert (KS : (K * u * S <= 1 / 1000000 * S)%R) by (apply Rmult_le_compat_r; lra).
  assert (KS0 : (0 <= K * u * S)%R) by (apply Rmult_le_pos; lra). assert (Es : (K * u * S = K * u * v1 + K * u * v2)%R) by (unfold S; ring).
  assert (D : (Rabs ((w1 - w2) - (v1 - v2)) <= K * u * S)%R). { replace (w1 - w2 - (v1 - v2))%R with ((w1 - v1) + - (w2 - v2))%R by ring. apply Rle_trans with (1 := Rabs_triang _ _). rewrite Rabs_Ropp. lra. }
  assert (Dv : (Rabs (v1 - v2) <= S)%R) by (apply Rabs_le; unfold S; lra).
  assert (Dw : (Rabs (w1 - w2) <= 101 / 100 * S)%R). { replace (w1 - w2)%R with ((v1 - v2) + (w1 - w2 - (v1 - v2)))%R by ring. apply Rle_trans with (1 := Rabs_triang _ _). lra. }
  assert (Sb : (S <= bpow radix2 731)%R). { change 731 with (1 + 730). rewrite bpow_plus. change (bpow radix2 1) with 2%R. unfold S. lra. }
  assert (Bb : (100000 * bpow radix2 731 <= big)%R). { apply Rle_trans with (bpow radix2 17 * bpow radix2 731)%R; [apply Rmult_le_compat_r; [apply bpow_ge_0|change (bpow radix2 17) with 131072%R; lra]|]. rewrite <- bpow_plus. apply pow_big. lia. }
  pose proof (fsub_val x1 x2 w1 w2 V1 V2 ltac:(lra)) as V3. pose proof (rn_minus_err x1 x2 w1 w2 V1 V2) as E3. set (dx := rn (w1 - w2)) in *. assert (u * Rabs (w1 - w2) <= u * (101 / 100 * S))%R by (apply Rmult_le_compat_l; lra).
  assert (Ex : (Rabs (dx - (v1 - v2)) <= (K + 101 / 100) * u * S)%R). { replace (dx - (v1 - v2))%R with ((dx - (w1 - w2)) + (w1 - w2 - (v1 - v2)))%R by ring. apply Rle_trans with (1 := Rabs_triang _ _). lra. }
  assert (Bx : (Rabs dx <= 102 / 100 * S)%R). { replace dx with ((w1 - w2) + (dx - (w1 - w2)))%R by ring. apply Rle_trans with (1 := Rabs_triang _ _). assert (u * (101 / 100 * S) <= 1 / 1000000000000 * (101 / 100 * S))%R by (apply Rmult_le_compat_r; lra). lra. }
  pose proof h0_near as [H1 H2]. assert (Hp : (0 < h0)%R) by lra. unfold one_bp in *.
  (* the quotient by the double and by the basis point *)
  assert (Ih : (Rabs (/ h0 - 10000) <= 10000 * (11 / 10 * u))%R).
  { replace (/ h0 - 10000)%R with ((1 / 10000 - h0) * (10000 * / h0))%R by (field; lra). rewrite Rabs_mult, (Rabs_minus_sym (1 / 10000) h0), (Rabs_pos_eq (10000 * / h0)) by (apply Rmult_le_pos; [lra|apply Rlt_le, Rinv_0_lt_compat, Hp]).
    assert (L : (/ h0 <= 11000)%R). { apply Rmult_le_reg_l with h0; [exact Hp|]. rewrite Rinv_r by lra. unfold h0. lra. }
    assert (0 < / h0)%R by (apply Rinv_0_lt_compat, Hp). apply Rle_trans with (u * (1 / 10000) * (10000 * 11000))%R; [|lra]. apply Rmult_le_compat; try lra. apply Rabs_pos. }
  assert (Q1 : (Rabs (dx / h0 - dx * 10000) <= 10000 * (113 / 100 * (u * S)))%R).
  { replace (dx / h0 - dx * 10000)%R with (dx * (/ h0 - 10000))%R by (unfold Rdiv; ring). rewrite Rabs_mult. apply Rle_trans with (102 / 100 * S * (10000 * (11 / 10 * u)))%R; [apply Rmult_le_compat; try apply Rabs_pos; lra|]. replace (102 / 100 * S * (10000 * (11 / 10 * u)))%R with (10000 * (1122 / 1000 * (u * S)))%R by field. lra. }
  assert (Q2 : (Rabs (dx * 10000 - (v1 - v2) / (1 / 10000)) <= 10000 * ((K + 101 / 100) * u * S))%R).
  { replace (dx * 10000 - (v1 - v2) / (1 / 10000))%R with (10000 * (dx - (v1 - v2)))%R by field. rewrite Rabs_mult, (Rabs_pos_eq 10000) by lra. lra. }
  assert (Bq : (Rabs (dx / h0) <= 10400 * S)%R).
  { replace (dx / h0)%R with (10000 * dx + (dx / h0 - dx * 10000))%R by ring. apply Rle_trans with (1 := Rabs_triang _ _). rewrite Rabs_mult, (Rabs_pos_eq 10000) by lra. assert (u * S <= 1 / 1000000000000 * S)%R by (apply Rmult_le_compat_r; lra). lra. }
  destruct (fdiv_val _ _ _ _ V3 bp_val ltac:(lra) ltac:(lra)) as (z & Ez & Vz). exists z, (rn (dx / h0)). split; [exact Ez|]. split; [exact Vz|].
  pose proof (rn_abs (dx / h0)) as E4. assert (u * Rabs (dx / h0) <= u * (10400 * S))%R by (apply Rmult_le_compat_l; lra).
  replace (rn (dx / h0) - (v1 - v2) / (1 / 10000))%R with ((rn (dx / h0) - dx / h0) + ((dx / h0 - dx * 10000) + (dx * 10000 - (v1 - v2) / (1 / 10000))))%R by ring.
  apply Rle_trans with (1 := Rabs_triang _ _). pose proof (Rabs_triang (dx / h0 - dx * 10000) (dx * 10000 - (v1 - v2) / (1 / 10000))) as Tr. replace ((K + 5) * u * S)%R with (K * u * S + 5 * (u * S))%R by ring. replace ((K + 101 / 100) * u * S)%R with (K * u * S + 101 / 100 * (u * S))%R in Q2 by ring. lra.
Qed.

Lemma deriv_match pow a b fb ytm T : libm_pow pow -> plain_bond a -> new_bond (fb_terms a) = Ok b -> f_new_bond a = Ok fb -> (0 <= principal (fb_terms a))%R -> (0 <= coupon_rate (fb_terms a))%R ->
  is_finite ytm = true -> freq (fb_terms a) <> ZERO_COUPON -> (- (39 / 100) <= B2R ytm / IZR (per_year (freq (fb_terms a))) <= 89 / 100)%R -> (0 <= T <= 500)%R -> within b (purchase_date (fb_terms a)) T ->
  match pv_deriv b 0 (B2R ytm) with
  | Err e => f_pv_deriv pow a fb ytm = Err e
  | Ok d => exists up down z w, discount_cashflows_by_fixed_rate b (B2R ytm + 0 + one_bp / 2) None = Ok up /\ discount_cashflows_by_fixed_rate b (B2R ytm + 0 - one_bp / 2) None = Ok down /\ d = ((up - down) / one_bp)%R /\
      (0 <= up <= bpow radix2 730)%R /\ (0 <= down <= bpow radix2 730)%R /\
      f_pv_deriv pow a fb ytm = Ok z /\ val z w /\ (Rabs (w - d) <= 10000 * ((16 * T + 2 * INR (List.length (coupons b)) + 20) * u * (up + down)) + 2 * small)%R
  end.
Proof.
  intros Lp Pl B F P0 C0 Fy Nz Hy HT Wt. set (n := IZR (per_year (freq (fb_terms a)))) in *. assert (Hn : (1 <= n <= 12)%R) by (unfold n; destruct (freq (fb_terms a)); [contradiction|split; apply IZR_le; cbn; lia..]).
  destruct bp_half as (half & Eh & Vh). pose proof Pl as (_ & _ & _ & _ & Op).
  pose proof (bump (B2R ytm) true half ytm n (conj Fy eq_refl) Vh Hn Hy) as U1. pose proof (bump (B2R ytm) false half ytm n (conj Fy eq_refl) Vh Hn Hy) as U2. cbv zeta in U1, U2. destruct U1 as (F1 & E1 & R1). destruct U2 as (F2 & E2 & R2).
  pose proof (price_match pow a b fb _ _ None 1 T Lp Pl B F P0 C0 F1 ltac:(lra) E1 (fun _ => R1) Op HT Wt) as M1. pose proof (price_match pow a b fb _ _ None 1 T Lp Pl B F P0 C0 F2 ltac:(lra) E2 (fun _ => R2) Op HT Wt) as M2.
  unfold pv_deriv, f_pv_deriv. rewrite Eh. cbn [bind].
  destruct (discount_cashflows_by_fixed_rate b (B2R ytm + 0 + one_bp / 2) None) as [up|]; cbn [bind]; [|rewrite M1; reflexivity]. destruct M1 as (x1 & w1 & X1 & V1 & N1 & B1). rewrite X1. cbn [bind].
  destruct (discount_cashflows_by_fixed_rate b (B2R ytm + 0 - one_bp / 2) None) as [down|]; cbn [bind]; [|rewrite M2; reflexivity]. destruct M2 as (x2 & w2 & X2 & V2 & N2 & B2). rewrite X2. cbn [bind].
  assert (N15 : (0 <= INR (List.length (coupons b)) <= 1001)%R). { split; [apply pos_INR|]. destruct (new_bond_inv _ _ B) as (_ & _ & Edd & Ecs & _). pose proof (coupons_few _ _ _ Ecs) as Cf. apply le_INR in Cf. replace (INR 1001) with 1001%R in Cf by (rewrite INR_IZR_INZ; reflexivity). exact Cf. }
  destruct (quotient_near ((2 * 1 + 14) * T + 2 * INR (List.length (coupons b)) + 15)%R x1 x2 w1 w2 up down ltac:(lra) V1 V2 N1 N2 B1 B2) as (z & w & Ez & Vz & Nz').
  exists up, down, z, w. split; [reflexivity|]. split; [reflexivity|]. split; [reflexivity|]. split; [exact B1|]. split; [exact B2|]. split; [exact Ez|]. split; [exact Vz|]. replace (16 * T + 2 * INR (List.length (coupons b)) + 20)%R with ((2 * 1 + 14) * T + 2 * INR (List.length (coupons b)) + 15 + 5)%R by ring. exact Nz'.
Qed.

(** C112: the numerical derivative of the price in the yield: the roundings of the two prices are magnified by the division by a
    basis point *)
Theorem C112_pv_deriv : forall pow a b ytm T, libm_pow pow -> plain_bond a -> new_bond (fb_terms a) = Ok b -> (0 <= principal (fb_terms a))%R -> (0 <= coupon_rate (fb_terms a))%R ->
  is_finite ytm = true -> freq (fb_terms a) <> ZERO_COUPON -> (- (39 / 100) <= B2R ytm / IZR (per_year (freq (fb_terms a))) <= 89 / 100)%R -> (0 <= T <= 500)%R -> within b (purchase_date (fb_terms a)) T ->
  exists fb, f_new_bond a = Ok fb /\
  (forall e, f_pv_deriv pow a fb ytm = Err e <-> pv_deriv b 0 (B2R ytm) = Err e) /\
  (forall d, pv_deriv b 0 (B2R ytm) = Ok d -> exists up down z, discount_cashflows_by_fixed_rate b (B2R ytm + 1 / 20000) None = Ok up /\ discount_cashflows_by_fixed_rate b (B2R ytm - 1 / 20000) None = Ok down /\
     f_pv_deriv pow a fb ytm = Ok z /\ is_finite z = true /\ (Rabs (B2R z - d) <= 10000 * ((16 * T + 2 * INR (List.length (coupons b)) + 20) * / 2 ^ 53 * (up + down)) + / 2 ^ 1000)%R).
Proof.
  intros pow a b ytm T Lp Pl B P0 C0 Fy Nz Hy HT Wt. destruct (C108_accuracy a b Pl B) as (fb & F & _). exists fb. split; [exact F|]. rewrite u_value.
  pose proof (deriv_match pow a b fb ytm T Lp Pl B F P0 C0 Fy Nz Hy HT Wt) as M. destruct (pv_deriv b 0 (B2R ytm)) as [d|e].
  - destruct M as (up & down & z & w & U1 & U2 & _ & _ & _ & Ez & [Fz Vz] & Nd). rewrite Ez. split; [split; discriminate|]. intros d' [= <-]. exists up, down, z.
    split; [rewrite <- U1; f_equal; unfold one_bp; field|]. split; [rewrite <- U2; f_equal; unfold one_bp; field|]. split; [reflexivity|]. split; [exact Fz|]. rewrite Vz. pose proof tiny_1000. lra.
  - rewrite M. split; [split; intros [= ->]; reflexivity|discriminate].
Qed.
Print Assumptions C112_pv_deriv.

(** and of the duration, for a bond whose accrued interest is not negative *)
Theorem C112_duration : forall pow a b ytm T D, libm_pow pow -> plain_bond a -> new_bond (fb_terms a) = Ok b -> (0 <= principal (fb_terms a))%R -> (0 <= coupon_rate (fb_terms a))%R ->
  is_finite ytm = true -> freq (fb_terms a) <> ZERO_COUPON -> (- (39 / 100) <= B2R ytm / IZR (per_year (freq (fb_terms a))) <= 89 / 100)%R -> (0 <= T <= 500)%R -> within b (purchase_date (fb_terms a)) T ->
  (/ 2 ^ 100 <= price (fb_terms a) <= full_price b)%R -> duration b (B2R ytm) = Ok D ->
  exists fb up down z, f_new_bond a = Ok fb /\ discount_cashflows_by_fixed_rate b (B2R ytm + 1 / 20000) None = Ok up /\ discount_cashflows_by_fixed_rate b (B2R ytm - 1 / 20000) None = Ok down /\
     f_duration pow a fb ytm = Ok z /\ is_finite z = true /\ (Rabs (B2R z - D) <= 10000 * ((16 * T + 2 * INR (List.length (coupons b)) + 50) * / 2 ^ 53 * ((up + down) / full_price b)) + / 2 ^ 800)%R.
Proof.
  intros pow a b ytm T D Lp Pl B P0 C0 Fy Nz Hy HT Wt Hp HD. destruct (C108_accuracy a b Pl B) as (fb & F & Cl). rewrite u_value.
  pose proof (deriv_match pow a b fb ytm T Lp Pl B F P0 C0 Fy Nz Hy HT Wt) as M. unfold duration in HD. destruct (pv_deriv b 0 (B2R ytm)) as [d|e]; cbn [bind] in HD; [|discriminate].
  destruct M as (up & down & z & w & U1 & U2 & Ed & B1 & B2 & Ez & Vz & Nd).
  destruct (Req_EM_T (full_price b) 0) as [|Nf]; [discriminate|]. injection HD as <-.
  pose proof (full_bounded a b Pl B) as Hb. destruct Cl as (_ & _ & _ & _ & _ & _ & Ff & _ & _ & Ep). rewrite u_value in Ep. destruct (new_bond_inv _ _ B) as (Ar & Edd & _ & Ecs & _). rewrite Ar in Ep.
  set (q := price (fb_terms a)) in *. set (fp := full_price b) in *. set (ff := B2R (fb_full_price fb)) in *.
  assert (E100 : (/ 2 ^ 100 = bpow radix2 (-100))%R) by apply (two_pow 100). rewrite E100 in Hp.
  pose proof (bpow_gt_0 radix2 (-100)) as Pp. rewrite (Rabs_pos_eq q), (Rabs_pos_eq (fp - q)) in * by lra. replace (q + (fp - q))%R with fp in * by ring.
  pose proof u_tiny as Us. assert (uf : (0 < u * fp <= 1 / 1000000000000 * fp)%R) by (split; [apply Rmult_lt_0_compat; lra|apply Rmult_le_compat_r; lra]). apply Rabs_le_inv in Ep. assert (Fp : (0 < ff)%R) by lra.
  assert (N15 : (0 <= INR (List.length (coupons b)) <= 1001)%R). { split; [apply pos_INR|]. pose proof (coupons_few _ _ _ Ecs) as Cf. apply le_INR in Cf. replace (INR 1001) with 1001%R in Cf by (rewrite INR_IZR_INZ; reflexivity). exact Cf. }
  set (K := (16 * T + 2 * INR (List.length (coupons b)) + 20)%R) in *. assert (HK : (20 <= K <= 20000)%R) by (unfold K; lra).
  set (S := (up + down)%R) in *. assert (S0 : (0 <= S)%R) by (unfold S; lra). assert (Sb : (S <= bpow radix2 731)%R). { change 731 with (1 + 730). rewrite bpow_plus. change (bpow radix2 1) with 2%R. unfold S. lra. }
  assert (Ku : (0 <= K * u <= 1 / 1000000)%R). { split; [apply Rmult_le_pos; lra|]. apply Rle_trans with (20000 * (1 / 1000000000000))%R; [apply Rmult_le_compat; lra|lra]. }
  assert (Bd : (Rabs d <= 10000 * S)%R). { rewrite Ed. unfold one_bp. replace ((up - down) / (1 / 10000))%R with (10000 * (up - down))%R by field. rewrite Rabs_mult, (Rabs_pos_eq 10000) by lra. apply Rmult_le_compat_l; [lra|]. apply Rabs_le. unfold S. lra. }
  set (G := (S / fp)%R). assert (I0 : (0 < / fp)%R) by (apply Rinv_0_lt_compat; lra). assert (G0 : (0 <= G)%R) by (apply Rmult_le_pos; lra).
  assert (Ib : (/ fp <= bpow radix2 100)%R) by (replace (bpow radix2 100) with (/ bpow radix2 (-100))%R by (rewrite <- bpow_opp; reflexivity); apply Rinv_le_contravar; lra).
  assert (Gb : (G <= bpow radix2 831)%R). { unfold G, Rdiv. change 831 with (731 + 100). rewrite bpow_plus. apply Rmult_le_compat; lra. }
  set (K1 := (K * u)%R) in *. assert (KS : (K1 * S <= 1 / 1000000 * S)%R) by (apply Rmult_le_compat_r; lra). assert (KG : (0 <= K1 * G <= 1 / 1000000 * G)%R) by (split; [apply Rmult_le_pos; lra|apply Rmult_le_compat_r; lra]).
  assert (uG : (0 <= u * G <= 1 / 1000000000000 * G)%R) by (split; [apply Rmult_le_pos; lra|apply Rmult_le_compat_r; lra]).
  set (t := (2 * small)%R) in *. assert (t0 : (0 <= t)%R) by (unfold t; pose proof (bpow_ge_0 radix2 (-1022)); unfold small; lra).
  set (tf := (t * / fp)%R). assert (tb : (0 <= tf <= bpow radix2 (-921))%R). { unfold tf. split; [apply Rmult_le_pos; lra|]. change (-921) with (-1021 + 100). rewrite bpow_plus. apply Rmult_le_compat; try lra. unfold t, small. change 2%R with (bpow radix2 1). rewrite <- bpow_plus. apply bpow_le. lia. }
  (* 1/ff against 1/fp *)
  assert (If : (Rabs (/ ff - / fp) <= 23 * u * / fp)%R).
  { replace (/ ff - / fp)%R with ((fp - ff) * / ff * / fp)%R by (field; lra). rewrite !Rabs_mult, (Rabs_pos_eq (/ fp)), (Rabs_pos_eq (/ ff)) by (apply Rlt_le, Rinv_0_lt_compat; lra). apply Rmult_le_compat_r; [lra|].
    apply Rmult_le_reg_r with ff; [exact Fp|]. rewrite Rmult_assoc, Rinv_l by lra. rewrite Rmult_1_r. apply Rabs_le.
    assert (u * (fp - 22 * u * fp) <= u * ff)%R by (apply Rmult_le_compat_l; lra). assert (u * (u * fp) <= 1 / 1000000000000 * (u * fp))%R by (apply Rmult_le_compat_r; lra). lra. }
  set (dI := (/ ff - / fp)%R) in *. 
  assert (Bw : (Rabs w <= 10001 * S + t)%R). { replace w with (d + (w - d))%R by ring. apply Rle_trans with (1 := Rabs_triang _ _). lra. }
  assert (Q1 : (Rabs (- w / ff - - w / fp) <= 10001 * 23 * (u * G) + 23 * u * tf)%R).
  { replace (- w / ff - - w / fp)%R with (- w * dI)%R by (unfold dI, Rdiv; ring). rewrite Rabs_mult, Rabs_Ropp. apply Rle_trans with ((10001 * S + t) * (23 * u * / fp))%R; [apply Rmult_le_compat; try apply Rabs_pos; lra|]. unfold G, tf, Rdiv. right. ring. }
  assert (Q2 : (Rabs (- w / fp - - d / fp) <= 10000 * (K1 * G) + tf)%R).
  { replace (- w / fp - - d / fp)%R with (- (w - d) * / fp)%R by (unfold Rdiv; ring). rewrite Rabs_mult, Rabs_Ropp, (Rabs_pos_eq (/ fp)) by lra. apply Rle_trans with ((10000 * (K1 * S) + t) * / fp)%R; [apply Rmult_le_compat_r; lra|]. unfold G, tf, Rdiv. right. ring. }
  assert (Bdf : (Rabs (- d / fp) <= 10000 * G)%R).
  { replace (- d / fp)%R with (- d * / fp)%R by reflexivity. rewrite Rabs_mult, Rabs_Ropp, (Rabs_pos_eq (/ fp)) by lra. apply Rle_trans with (10000 * S * / fp)%R; [apply Rmult_le_compat_r; lra|]. unfold G, Rdiv. right. ring. }
  assert (utf : (0 <= u * tf <= 1 / 1000000000000 * tf)%R) by (split; [apply Rmult_le_pos; lra|apply Rmult_le_compat_r; lra]).
  assert (Bq : (Rabs (- w / ff) <= 10002 * G + 2 * tf)%R).
  { replace (- w / ff)%R with (- d / fp + ((- w / ff - - w / fp) + (- w / fp - - d / fp)))%R by ring. apply Rle_trans with (1 := Rabs_triang _ _). pose proof (Rabs_triang (- w / ff - - w / fp) (- w / fp - - d / fp)) as Tr. lra. }
  assert (Vo : val (Bopp z) (- w)) by (destruct Vz as [Fz Ew]; split; [rewrite is_finite_Bopp; exact Fz|rewrite B2R_Bopp, Ew; reflexivity]).
  assert (Bb : (Rabs (- w / ff) <= big)%R).
  { apply Rle_trans with (1 := Bq). apply Rle_trans with (bpow radix2 15 * bpow radix2 831)%R; [|rewrite <- bpow_plus; apply pow_big; lia]. change (bpow radix2 15) with 32768%R. assert (bpow radix2 (-921) <= bpow radix2 831)%R by (apply bpow_le; lia). lra. }
  destruct (fdiv_val (Bopp z) (fb_full_price fb) (- w)%R ff Vo (conj Ff eq_refl) ltac:(lra) Bb) as (x & Ex & [Fx Vx]).
  exists fb, up, down, x. split; [exact F|]. split; [rewrite <- U1; f_equal; unfold one_bp; field|]. split; [rewrite <- U2; f_equal; unfold one_bp; field|].
  unfold f_duration. rewrite Ez. cbn [bind]. split; [exact Ex|]. split; [exact Fx|]. rewrite Vx.
  pose proof (rn_abs (- w / ff)) as E4. fold t in E4. assert (u * Rabs (- w / ff) <= u * (10002 * G + 2 * tf))%R by (apply Rmult_le_compat_l; lra).
  replace (rn (- w / ff) - - d / fp)%R with ((rn (- w / ff) - - w / ff) + ((- w / ff - - w / fp) + (- w / fp - - d / fp)))%R by ring. apply Rle_trans with (1 := Rabs_triang _ _). pose proof (Rabs_triang (- w / ff - - w / fp) (- w / fp - - d / fp)) as Tr.
  assert (Ti : (t + 4 * tf <= / 2 ^ 800)%R).
  { assert (E : (/ 2 ^ 800 = bpow radix2 (-800))%R) by apply (two_pow 800). rewrite E.
    assert (t <= bpow radix2 (-803))%R by (unfold t, small; change 2%R with (bpow radix2 1); rewrite <- bpow_plus; apply bpow_le; lia). assert (bpow radix2 (-921) <= bpow radix2 (-803))%R by (apply bpow_le; lia). change (-800) with (3 + -803). rewrite bpow_plus. change (bpow radix2 3) with 8%R. lra. }
  change (up + down)%R with S. change (full_price b) with fp. replace ((16 * T + 2 * INR (List.length (coupons b)) + 50) * u * (S / fp))%R with (K1 * G + 30 * (u * G))%R by (unfold K1, K, G; ring). lra.
Qed.
Print Assumptions C112_duration.


(** Non-vacuity: a correctly rounded power function meets the contract, *)
Definition nearest_f64 (x : R) : f64 := binary_normalize 53 1024 prec_gt prec_lt mode_NE (Ztrunc (scaled_mantissa radix2 FloatFacts.fe (rn x))) (cexp radix2 FloatFacts.fe (rn x)) false.
Lemma nearest_f64_val x : (Rabs x <= big)%R -> val (nearest_f64 x) (rn x).
Proof.
  intros L. unfold nearest_f64.
  pose proof (@binary_normalize_correct 53 1024 prec_gt prec_lt mode_NE (Ztrunc (scaled_mantissa radix2 FloatFacts.fe (rn x))) (cexp radix2 FloatFacts.fe (rn x)) false) as BC.
  assert (Fm : generic_format radix2 FloatFacts.fe (rn x)) by (apply generic_format_round; typeclasses eauto).
  assert (EqF : F2R (Float radix2 (Ztrunc (scaled_mantissa radix2 FloatFacts.fe (rn x))) (cexp radix2 FloatFacts.fe (rn x))) = rn x) by (symmetry; exact Fm).
  rewrite EqF in BC. cbv zeta in BC. change (SpecFloat.fexp 53 1024) with FloatFacts.fe in BC. change (round radix2 FloatFacts.fe (round_mode mode_NE) (rn x)) with (rn (rn x)) in BC. rewrite (rn_format _ Fm) in BC.
  rewrite Rlt_bool_true in BC; [split; apply BC|]. pose proof (big_max x L) as H. exact H.
Qed.
Definition rounded_pow (x y : f64) : res f64 := Ok (nearest_f64 (Rpower (B2R x) (B2R y))).
Lemma rounded_pow_ok : libm_pow rounded_pow.
Proof.
  intros x y Fx Fy Hx Hy. exists (nearest_f64 (Rpower (B2R x) (B2R y))). split; [reflexivity|]. pose proof (pow_sized 512 _ _ Hx Hy) as [P1 P2]. set (p := Rpower (B2R x) (B2R y)) in *. pose proof (bpow_gt_0 radix2 (- (512))) as Pp.
  assert (Bp : (Rabs p <= big)%R) by (rewrite Rabs_pos_eq by lra; apply Rle_trans with (1 := P2); apply pow_big; lia). destruct (nearest_f64_val p Bp) as [Fz Vz]. split; [exact Fz|]. rewrite Vz.
  assert (E : (/ 2 ^ 52 = 2 * u)%R) by (change (/ 2 ^ 52)%R with (/ 2 ^ Pos.to_nat 52)%R; rewrite two_pow, u_num; change (bpow radix2 (-52)) with (/ 4503599627370496)%R; lra). rewrite E.
  assert (S : (small <= Rabs p)%R) by (rewrite Rabs_pos_eq by lra; apply Rle_trans with (2 := P1); apply bpow_le; lia). pose proof (rn_err p (or_intror S)) as Er. rewrite (Rabs_pos_eq p) in Er by lra. pose proof u_tiny as Us. assert (0 <= u * p)%R by (apply Rmult_le_pos; lra). lra.
Qed.

(** and a 2 year note at 99 bought on 1 September 2023, valued at 3.90625%, meets the hypotheses of every theorem above. *)
Lemma note_periods : forall b, new_bond (fb_terms f_note) = Ok b ->
  forallb (fun p => match acc ACTACT 738764 (bp_date p) with Ok q => Qle_bool (-4 # 1) (q * inject_Z 2) && Qle_bool (q * inject_Z 2) (4 # 1) | Err _ => true end) (coupons b ++ redemption b) = true.
Proof.
  assert (H : exists b, new_bond (fb_terms f_note) = Ok b /\ forallb (fun p => match acc ACTACT 738764 (bp_date p) with Ok q => Qle_bool (-4 # 1) (q * inject_Z 2) && Qle_bool (q * inject_Z 2) (4 # 1) | Err _ => true end) (coupons b ++ redemption b) = true).
  { eexists. split; [unfold f_note; cbn [fb_terms]; build_bond|]. cbn [coupons redemption]. vm_compute. reflexivity. }
  destruct H as (b & B & H). intros b' B'. rewrite B in B'. injection B' as <-. exact H.
Qed.
Lemma note_within b : new_bond (fb_terms f_note) = Ok b -> within b (purchase_date (fb_terms f_note)) 4.
Proof.
  intros B. pose proof (note_periods b B) as H. rewrite forallb_forall in H. destruct (new_bond_inv _ _ B) as (Ar & _). intros p q I A. rewrite Ar in *. specialize (H p I). cbv beta in H.
  change (b_dcc (fb_terms f_note)) with ACTACT in A. change (purchase_date (fb_terms f_note)) with 738764 in A. rewrite A in H. apply andb_prop in H. destruct H as [H1 H2]. apply Qle_bool_iff in H1, H2. apply Qle_Rle in H1, H2. rewrite Q2R_mult in H1, H2.
  change (per_year (freq (fb_terms f_note))) with 2. assert (E : Q2R (inject_Z 2) = 2%R) by (unfold Q2R; cbn; lra). assert (E4 : Q2R (4 # 1) = 4%R) by (unfold Q2R; cbn; lra). assert (E5 : Q2R (-4 # 1) = (-4)%R) by (unfold Q2R; cbn; lra). rewrite E, ?E4, ?E5 in *. apply Rabs_le. lra.
Qed.
Local Opaque f_new_bond new_bond.
Example C112_case : libm_pow rounded_pow /\ plain_bond f_note /\ exists b (ytm : f64) v R0 d D, new_bond (fb_terms f_note) = Ok b /\ List.length (coupons b) = 4%nat /\ is_finite ytm = true /\ B2R ytm = (5 / 128)%R /\
  (- (39 / 100) <= B2R ytm / IZR (per_year (freq (fb_terms f_note))) <= 89 / 100)%R /\ freq (fb_terms f_note) <> ZERO_COUPON /\ date_ok (valued (fb_terms f_note) None) /\ within b (valued (fb_terms f_note) None) 4 /\
  (/ 2 ^ 100 <= price (fb_terms f_note) <= full_price b)%R /\ discount_cashflows_by_fixed_rate b (B2R ytm) None = Ok v /\ ytm_residual b None (B2R ytm) = Ok R0 /\ pv_deriv b 0 (B2R ytm) = Ok d /\ duration b (B2R ytm) = Ok D.
Proof.
  split; [exact rounded_pow_ok|]. split; [exact f_note_plain|]. destruct f_note_exact as (b & B & Lc). 
  destruct C39_case as (mat & purch & b' & Em & Epu & Or & Fp & S & _). assert (mat = 739297) by (vm_compute in Em; congruence). assert (purch = 738764) by (vm_compute in Epu; congruence). subst mat purch.
  pose proof Or as (B' & _). change (fb_terms f_note) with (note UsTreasury 739297 738764 2) in *. assert (b' = b) by congruence. subst b'.
  pose proof (flit_val 5 (-7) ltac:(vm_compute; discriminate) ltac:(lia)) as [Fy Vy]. change (bpow radix2 (-7)) with (/ 128)%R in Vy. assert (Y : B2R (flit 5 (-7)) = (5 / 128)%R) by (rewrite Vy; lra).
  set (a := note UsTreasury 739297 738764 2) in *. assert (Df : forall r, (0 < 1 + r / IZR (per_year (freq a)))%R -> exists v, discount_cashflows_by_fixed_rate b r None = Ok v).
  { intros r Hr. destruct (C39_defined a b 738764 _ r Or S Hr) as (v & E). exists v. rewrite <- E. unfold discount_cashflows_by_fixed_rate. destruct (new_bond_inv _ _ B) as (Ar & _). rewrite Ar. reflexivity. }
  change (per_year (freq a)) with 2 in *. destruct (Df (5 / 128)%R ltac:(lra)) as (v & Ev). destruct (Df (5 / 128 + 0 + one_bp / 2)%R ltac:(unfold one_bp; lra)) as (up & Eu). destruct (Df (5 / 128 + 0 - one_bp / 2)%R ltac:(unfold one_bp; lra)) as (dn & Ed).
  assert (Ep : pv_deriv b 0 (5 / 128) = Ok ((up - dn) / one_bp)%R) by (unfold pv_deriv; rewrite Eu; cbn [bind]; rewrite Ed; reflexivity).
  exists b, (flit 5 (-7)), v, (full_price b * principal (args b) / 100 - v)%R, ((up - dn) / one_bp)%R, (- ((up - dn) / one_bp) / full_price b)%R. rewrite Y.
  split; [exact B|]. split; [exact Lc|]. split; [exact Fy|]. split; [reflexivity|]. split; [lra|]. split; [discriminate|]. split; [vm_compute; split; discriminate|]. split; [apply (note_within b B)|].
  split.
  { destruct (C108_accuracy f_note b f_note_plain B) as (fb & F & Cl). destruct (new_bond_inv _ _ B) as (_ & _ & _ & _ & _ & _ & _ & Ef & _). split; [change (price a) with 99%R; apply Rle_trans with (/ 1)%R; [apply Rinv_le_contravar; [lra|apply pow_R1_Rle; lra]|lra]|].
    rewrite Ef. assert (0 <= accrued_interest b)%R; [|change (principal a) with 100%R; lra].
    destruct Cl as (_ & _ & _ & _ & _ & Fa & _ & _ & Ea & _). pose proof f_note_accrued as G. rewrite F in G. apply andb_prop in G. destruct G as [G1 _]. apply (flt_val _ _ _ _ (of_int_val 0 ltac:(lia)) (conj Fa eq_refl)) in G1. change (IZR 0) with 0%R in G1.
    rewrite u_value in Ea. pose proof u_tiny. apply Rnot_lt_le. intros Ng. rewrite (Rabs_left _ Ng) in Ea. apply Rabs_le_inv in Ea. assert (16 * u * - accrued_interest b <= 1 / 2 * - accrued_interest b)%R by (apply Rmult_le_compat_r; lra). lra. }
  split; [exact Ev|]. split; [unfold ytm_residual; rewrite Ev; reflexivity|]. split; [exact Ep|]. unfold duration. rewrite Ep. cbn [bind]. destruct (Req_EM_T (full_price b) 0); [lra|reflexivity].
Qed.
