(** Simulated paths in double precision: C118. *)
From Verif Require Import Base PyDate PyDateFacts DayCount DayCountFacts Loan LoanFacts LoopFacts CurveFacts RVec Stochastic StochasticFacts P_Stochastic P_MultiSim Float FloatFacts FloatDayCount P_FloatDayCount P_FloatStamp P_FloatCashflow P_FloatSwap P_FloatYield P_FloatVasicek FloatPath.
From Coq Require Import Lra Reals Qreals.
From Flocq Require Import Core BinarySingleNaN Relative.
Open Scope Z_scope.

(** ---- specification ---- *)
(** the products of the matrix library: every entry within the usual bound, in whatever order its terms are added *)
Definition blas_dot (fdot : nat -> f_vec -> f_vec -> f64) : Prop := forall n (a b : f_vec), Z.of_nat n <= 2 ^ 20 ->
  (forall j, (j < n)%nat -> is_finite (a j) = true /\ is_finite (b j) = true) -> (sumn n (fun j => Rabs (B2R (a j) * B2R (b j))) <= 2 ^ 500)%R ->
  is_finite (fdot n a b) = true /\
  (Rabs (B2R (fdot n a b) - sumn n (fun j => B2R (a j) * B2R (b j))) <= INR n * (/ 2 ^ 52 * sumn n (fun j => Rabs (B2R (a j) * B2R (b j))) + / 2 ^ 1073))%R.
(** row i of the first k columns, as real numbers *)
Definition row (i k : nat) (incs : list f_vec) : list R := List.map (fun w : f_vec => B2R (w i)) (firstn k incs).

(** ---- running sums ---- *)
Lemma pow_val p : (2 ^ Pos.to_nat p)%R = bpow radix2 (Zpos p).
Proof. apply pow_two. Qed.
Lemma two_900 : (2 ^ 900 + 2 ^ 900 + 2 ^ 900 <= big)%R.
Proof.
  change (2 ^ 900)%R with (2 ^ Pos.to_nat 900)%R. rewrite pow_val. apply Rle_trans with (bpow radix2 2 * bpow radix2 900)%R; [change (bpow radix2 2) with 4%R; pose proof (bpow_gt_0 radix2 900); lra|].
  rewrite <- bpow_plus. unfold big. apply bpow_le. lia.
Qed.
Lemma steps_small k : (0 <= k)%Z -> k <= 2 ^ 30 -> (0 <= IZR k * u <= / 1000000)%R.
Proof.
  intros K0 K. pose proof u_num as N. apply IZR_le in K, K0. change (IZR (2 ^ 30)) with 1073741824%R in K. rewrite N. split; [apply Rmult_le_pos; lra|].
  apply Rle_trans with (1073741824 * / 9007199254740992)%R; [apply Rmult_le_compat_r; lra|lra].
Qed.
Lemma sum_abs_pos l : (0 <= sum_abs l)%R.
Proof. induction l as [|a l IH]; [apply Rle_refl|]. change (0 <= Rabs a + sum_abs l)%R. pose proof (Rabs_pos a). lra. Qed.
Lemma sums_near i : forall incs (v : f_vec) s S A k0, val (v i) s -> (Rabs S <= A)%R -> (Rabs (s - S) <= INR k0 * (2 * u * A))%R ->
  Z.of_nat k0 + Z.of_nat (List.length incs) <= 2 ^ 30 -> (forall w, In w incs -> is_finite (w i) = true) ->
  (A + sum_abs (List.map (fun w : f_vec => B2R (w i)) incs) <= 2 ^ 900)%R ->
  forall k w, nth_error (f_cumsum_from v incs) k = Some w ->
    exists t, val (w i) t /\ (Rabs (t - (S + sumR (row i k incs))) <= INR (k0 + k) * (2 * u * (A + sum_abs (row i k incs))))%R.
Proof.
  induction incs as [|d incs IH]; intros v s S A k0 V HS E N F B k w H; cbn [f_cumsum_from] in H.
  - destruct k as [|k]; [|destruct k; discriminate]. injection H as <-. exists s. split; [exact V|]. unfold row, sum_abs. cbn. rewrite !Rplus_0_r, Nat.add_0_r. exact E.
  - destruct k as [|k].
    { injection H as <-. exists s. split; [exact V|]. unfold row, sum_abs. cbn. rewrite !Rplus_0_r, Nat.add_0_r. exact E. }
    cbn [nth_error] in H. cbn [List.length] in N. rewrite Nat2Z.inj_succ in N.
    assert (Vd : val (d i) (B2R (d i))) by (split; [apply F; left; reflexivity|reflexivity]). set (x := B2R (d i)) in *.
    pose proof u_tiny as U. pose proof (Rabs_pos S) as S0. pose proof (Rabs_pos x) as x0.
    assert (TA : (0 <= sum_abs (List.map (fun w : f_vec => B2R (w i)) incs))%R). { apply sum_abs_pos. }
    assert (B' : (A + Rabs x + sum_abs (List.map (fun w : f_vec => B2R (w i)) incs) <= 2 ^ 900)%R) by (change (A + (Rabs x + sum_abs (List.map (fun w : f_vec => B2R (w i)) incs)) <= 2 ^ 900)%R in B; lra).
    pose proof (steps_small (Z.of_nat k0) ltac:(lia) ltac:(lia)) as [K1 K2]. rewrite <- INR_IZR_INZ in K1, K2.
    assert (E' : (Rabs (s - S) <= 2 / 1000000 * A)%R). { apply Rle_trans with (1 := E). replace (INR k0 * (2 * u * A))%R with (2 * (INR k0 * u) * A)%R by ring. apply Rmult_le_compat_r; lra. }
    pose proof (Rabs_triang (S + x) (s - S)) as T1. replace (S + x + (s - S))%R with (s + x)%R in T1 by ring. pose proof (Rabs_triang S x) as T2.
    pose proof two_900 as BB. pose proof (fadd_val _ _ _ _ V Vd ltac:(lra)) as Vs. pose proof (rn_plus_err _ _ _ _ V Vd) as Es. set (s' := rn (s + x)) in *.
    assert (G : (Rabs (s' - (S + x)) <= INR (k0 + 1) * (2 * u * (A + Rabs x)))%R).
    { replace (s' - (S + x))%R with ((s' - (s + x)) + (s - S))%R by ring. apply Rle_trans with (1 := Rabs_triang _ _). rewrite plus_INR. change (INR 1) with 1%R.
      assert (u * Rabs (s + x) <= u * (A + Rabs x + 2 / 1000000 * A))%R by (apply Rmult_le_compat_l; lra).
      assert (0 <= INR k0 * u * Rabs x)%R by (apply Rmult_le_pos; lra). assert (0 <= u * A)%R by (apply Rmult_le_pos; lra). assert (0 <= u * Rabs x)%R by (apply Rmult_le_pos; lra). lra. }
    assert (HS' : (Rabs (S + x) <= A + Rabs x)%R) by lra.
    destruct (IH (fun j => fadd (v j) (d j)) s' (S + x)%R (A + Rabs x)%R (k0 + 1)%nat Vs HS' G ltac:(lia) (fun w W => F w (or_intror W)) B' k w H) as (t & Vt & Et).
    exists t. split; [exact Vt|]. replace (k0 + Datatypes.S k)%nat with (k0 + 1 + k)%nat by lia.
    change (row i (Datatypes.S k) (d :: incs)) with (x :: row i k incs). change (sumR (x :: row i k incs)) with (x + sumR (row i k incs))%R. change (sum_abs (x :: row i k incs)) with (Rabs x + sum_abs (row i k incs))%R.
    rewrite <- !Rplus_assoc.
    exact Et.
Qed.

Lemma zero_val : val (of_int 0) 0.
Proof. apply (of_int_val 0). lia. Qed.
Theorem C118_running_sums : forall incs i, Z.of_nat (List.length incs) <= 2 ^ 30 -> (forall w, In w incs -> is_finite (w i) = true) ->
  (sum_abs (row i (List.length incs) incs) <= 2 ^ 900)%R ->
  List.length (f_cumsum incs) = S (List.length incs) /\
  forall k v, nth_error (f_cumsum incs) k = Some v -> is_finite (v i) = true /\
    (Rabs (B2R (v i) - sumR (row i k incs)) <= INR k * (/ 2 ^ 52 * sum_abs (row i k incs)))%R.
Proof.
  intros incs i N F B. split.
  { assert (L : forall l v, List.length (f_cumsum_from v l) = S (List.length l)) by (induction l as [|a l IH]; intros v; cbn [f_cumsum_from List.length]; [reflexivity|f_equal; apply IH]).
    destruct incs as [|d incs]; cbn [f_cumsum List.length]; [reflexivity|]. f_equal. apply L. }
  intros k v H. destruct k as [|k].
  - injection H as <-. destruct zero_val as [Fz Bz]. split; [exact Fz|]. change (Rabs (B2R (of_int 0) - sumR (row i 0 incs)) <= INR 0 * (/ 2 ^ 52 * sum_abs (row i 0 incs)))%R. rewrite Bz. unfold row, sum_abs. cbn. rewrite Rminus_0_r, Rabs_R0. lra.
  - destruct incs as [|d incs]; [destruct k; discriminate|]. cbn [f_cumsum nth_error] in H. cbn [List.length] in N. unfold row in B. cbn [List.length] in B. rewrite (firstn_all2 (d :: incs)) in B by apply Nat.le_refl. unfold sum_abs in B. cbn [List.map sumR fold_right] in B.
    assert (Vd : val (d i) (B2R (d i))) by (split; [apply F; left; reflexivity|reflexivity]).
    destruct (sums_near i incs d (B2R (d i)) (B2R (d i)) (Rabs (B2R (d i))) 0 Vd (Rle_refl _)) with (k := k) (w := v) as (t & [Ft Bt] & Et).
    + rewrite Rminus_diag_eq, Rabs_R0 by reflexivity. cbn. lra.
    + lia.
    + intros w W. apply F. right. exact W.
    + unfold sum_abs, sumR. exact B.
    + exact H.
    + split; [exact Ft|]. rewrite Bt. set (x := B2R (d i)) in *. change (row i (S k) (d :: incs)) with (x :: row i k incs). change (sumR (x :: row i k incs)) with (x + sumR (row i k incs))%R. change (sum_abs (x :: row i k incs)) with (Rabs x + sum_abs (row i k incs))%R.
      rewrite u_52. apply Rle_trans with (1 := Et). apply Rmult_le_compat.
      * apply pos_INR.
      * pose proof u_tiny. apply Rmult_le_pos; [lra|]. apply Rplus_le_le_0_compat; [apply Rabs_pos|apply sum_abs_pos].
      * apply le_INR. lia.
      * apply Rle_refl.
Qed.
Print Assumptions C118_running_sums.


(** ---- one step of the Vasicek rate ---- *)
Lemma floor_tn B : (/ 2 ^ 900 <= B)%R -> (1000000000 * tn <= u * B)%R.
Proof.
  intros H. change (/ 2 ^ 900)%R with (/ 2 ^ Pos.to_nat 900)%R in H. rewrite two_pow in H. apply Rle_trans with (u * bpow radix2 (Zneg 900))%R; [|apply Rmult_le_compat_l; [apply bpow_ge_0|exact H]].
  unfold u, tn, small. rewrite <- bpow_plus. apply Rle_trans with (bpow radix2 40 * bpow radix2 (-1022))%R.
  - rewrite <- Rmult_assoc. apply Rmult_le_compat_r; [apply bpow_ge_0|]. change (bpow radix2 40) with 1099511627776%R. lra.
  - rewrite <- bpow_plus. apply bpow_le. lia.
Qed.
Lemma ceil_big B : (B <= 2 ^ 400)%R -> (1000000 * (2 ^ 100 * B) <= big)%R.
Proof.
  intros H. apply Rle_trans with (bpow radix2 20 * (bpow radix2 100 * bpow radix2 400))%R.
  - change (2 ^ 100)%R with (2 ^ Pos.to_nat 100)%R. change (2 ^ 400)%R with (2 ^ Pos.to_nat 400)%R in H. rewrite pow_val in *. pose proof (bpow_gt_0 radix2 100). pose proof (bpow_gt_0 radix2 400).
    assert (P : (bpow radix2 100 * B <= bpow radix2 100 * bpow radix2 400)%R) by (apply Rmult_le_compat_l; lra). assert (0 <= bpow radix2 100 * bpow radix2 400)%R by (apply Rmult_le_pos; lra). change (bpow radix2 20) with 1048576%R. change (Zpos 100) with 100 in *. lra.
  - rewrite <- !bpow_plus. unfold big. apply bpow_le. lia.
Qed.
Lemma tiny_1073 : (/ 2 ^ 1073 <= tn)%R.
Proof.
  change (/ 2 ^ 1073)%R with (/ 2 ^ Pos.to_nat 1073)%R. rewrite two_pow. change (bpow radix2 (Zneg 1073)) with (bpow radix2 (-1073)). unfold tn, small. apply Rle_trans with (bpow radix2 (-1022)); [apply bpow_le; lia|]. pose proof (bpow_gt_0 radix2 (-1022)). lra.
Qed.
Lemma one_100 : (1 <= 2 ^ 100)%R. Proof. apply pow_R1_Rle. lra. Qed.
Lemma mul_rn x y a b : val x a -> val y b -> (Rabs (a * b) <= big)%R -> val (fmul x y) (rn (a * b)) /\ (Rabs (rn (a * b) - a * b) <= u * Rabs (a * b) + tn)%R.
Proof. intros Vx Vy H. split; [apply fmul_val; assumption|]. unfold tn. apply rn_abs. Qed.
Lemma blas_one fdot x w a b : blas_dot fdot -> val x a -> val (w 0%nat) b -> (Rabs (a * b) <= 2 ^ 500)%R ->
  exists s, val (fdot 1%nat (fun _ => x) w) s /\ (Rabs (s - a * b) <= 2 * u * Rabs (a * b) + tn)%R.
Proof.
  intros H [Fx Bx] [Fw Bw] L. destruct (H 1%nat (fun _ => x) w ltac:(lia)) as [F E].
  - intros j J. replace j with 0%nat by lia. split; assumption.
  - cbn [sumn]. rewrite Bx, Bw. lra.
  - exists (B2R (fdot 1%nat (fun _ => x) w)). split; [split; [exact F|reflexivity]|]. cbn [sumn] in E. rewrite Bx, Bw, !Rplus_0_l in E. change (INR 1) with 1%R in E. rewrite u_52 in E. pose proof tiny_1073. lra.
Qed.

Lemma step_near fdot level speed vol cur w dt lv k sg c d wv x x' e B : blas_dot fdot -> val level lv -> val speed k -> val vol sg -> val cur c -> val (w 0%nat) wv -> val dt d ->
  (Rabs lv <= B)%R -> (Rabs x <= B)%R -> (Rabs x' <= B)%R -> (Rabs (sg * wv) <= B)%R -> (0 <= k <= 2 ^ 100)%R -> (0 <= d <= 10000)%R -> (k * d <= 1)%R ->
  (/ 2 ^ 900 <= B <= 2 ^ 400)%R -> (Rabs (c - x) <= e)%R -> (e <= B / 1000)%R -> x' = (x + k * (lv - x) * d + sg * wv)%R ->
  exists c', val (f_vasicek_step fdot level speed vol cur w dt) c' /\ (Rabs (c' - x') <= e + 16 * u * B)%R.
Proof.
  intros BD Vl Vk Vs Vc Vw Vd Hl Hx Hx' Hw Hk Hd Hkd HB He He' Ex. unfold f_vasicek_step.
  pose proof u_tiny as U. pose proof tn_range as (T0 & _). pose proof (floor_tn B (proj1 HB)) as TB. pose proof (ceil_big B (proj2 HB)) as CB. pose proof one_100 as O100.
  assert (B0 : (0 < B)%R). { apply Rlt_le_trans with (2 := proj1 HB). apply Rinv_0_lt_compat, pow_lt. lra. }
  assert (PB : (B <= 2 ^ 100 * B)%R) by (rewrite <- (Rmult_1_l B) at 1; apply Rmult_le_compat_r; lra).
  assert (uB : (0 < u * B <= 1 / 1000000000000 * B)%R) by (split; [apply Rmult_lt_0_compat; lra|apply Rmult_le_compat_r; lra]).
  assert (uu : (u * (u * B) <= 1 / 1000000000000 * (u * B))%R) by (apply Rmult_le_compat_r; lra).
  assert (ut : (u * tn <= 1 / 1000000000000 * tn)%R) by (apply Rmult_le_compat_r; lra).
  pose proof (Rabs_pos (c - x)) as e0.
  (* level - current *)
  assert (HD : (Rabs (lv - c) <= 2001 / 1000 * B)%R). { replace (lv - c)%R with (lv + (- x + - (c - x)))%R by ring. apply Rle_trans with (1 := Rabs_triang _ _). pose proof (Rabs_triang (- x) (- (c - x))) as T. rewrite !Rabs_Ropp in T. lra. }
  pose proof (fsub_val _ _ _ _ Vl Vc ltac:(lra)) as V1. pose proof (rn_minus_err _ _ _ _ Vl Vc) as E1. set (d1 := rn (lv - c)) in *.
  assert (uD : (u * Rabs (lv - c) <= u * (2001 / 1000 * B))%R) by (apply Rmult_le_compat_l; lra).
  assert (H1 : (Rabs d1 <= 2002 / 1000 * B)%R). { replace d1 with ((d1 - (lv - c)) + (lv - c))%R by ring. apply Rle_trans with (1 := Rabs_triang _ _). lra. }
  (* times the speed *)
  assert (K1 : (Rabs (k * d1) <= k * (2002 / 1000 * B))%R). { rewrite Rabs_mult, (Rabs_pos_eq k) by lra. apply Rmult_le_compat_l; lra. }
  assert (K2 : (k * (2002 / 1000 * B) <= 2 ^ 100 * (2002 / 1000 * B))%R) by (apply Rmult_le_compat_r; lra).
  destruct (mul_rn _ _ _ _ Vk V1 ltac:(lra)) as [V2 E2]. set (d2 := rn (k * d1)) in *.
  assert (E2' : (Rabs (d2 - k * d1) <= u * (k * (2002 / 1000 * B)) + tn)%R). { apply Rle_trans with (1 := E2). apply Rplus_le_compat_r, Rmult_le_compat_l; lra. }
  (* times the time step *)
  assert (D2 : (Rabs (d2 * d - k * d1 * d) <= u * (2002 / 1000 * B) + 10000 * tn)%R).
  { replace (d2 * d - k * d1 * d)%R with ((d2 - k * d1) * d)%R by ring. rewrite Rabs_mult, (Rabs_pos_eq d) by lra. apply Rle_trans with ((u * (k * (2002 / 1000 * B)) + tn) * d)%R; [apply Rmult_le_compat_r; lra|].
    replace ((u * (k * (2002 / 1000 * B)) + tn) * d)%R with (u * (2002 / 1000 * B) * (k * d) + tn * d)%R by ring. apply Rplus_le_compat.
    - rewrite <- (Rmult_1_r (u * (2002 / 1000 * B))) at 2. apply Rmult_le_compat_l; lra.
    - rewrite (Rmult_comm 10000). apply Rmult_le_compat_l; lra. }
  assert (D3 : (Rabs (k * d1 * d) <= 2002 / 1000 * B)%R). { replace (k * d1 * d)%R with (k * d * d1)%R by ring. assert (0 <= k * d)%R by (apply Rmult_le_pos; lra). rewrite Rabs_mult, (Rabs_pos_eq (k * d)) by assumption. apply Rle_trans with (1 * (2002 / 1000 * B))%R; [apply Rmult_le_compat; auto using Rabs_pos|lra]. }
  assert (D4 : (Rabs (d2 * d) <= 2003 / 1000 * B)%R). { replace (d2 * d)%R with ((d2 * d - k * d1 * d) + k * d1 * d)%R by ring. apply Rle_trans with (1 := Rabs_triang _ _). lra. }
  destruct (mul_rn _ _ _ _ V2 Vd ltac:(lra)) as [V3 E3]. set (d3 := rn (d2 * d)) in *.
  assert (u4 : (u * Rabs (d2 * d) <= u * (2003 / 1000 * B))%R) by (apply Rmult_le_compat_l; lra).
  assert (D1 : (Rabs (k * d1 * d - k * (lv - c) * d) <= u * (2001 / 1000 * B))%R). { replace (k * d1 * d - k * (lv - c) * d)%R with (k * d * (d1 - (lv - c)))%R by ring. assert (0 <= k * d)%R by (apply Rmult_le_pos; lra). rewrite Rabs_mult, (Rabs_pos_eq (k * d)) by assumption. apply Rle_trans with (1 * (u * (2001 / 1000 * B)))%R; [apply Rmult_le_compat; [assumption|apply Rabs_pos|lra|lra]|lra]. }
  assert (N3 : (Rabs (d3 - k * (lv - c) * d) <= 6007 / 1000 * (u * B) + 10001 * tn)%R).
  { replace (d3 - k * (lv - c) * d)%R with ((d3 - d2 * d) + ((d2 * d - k * d1 * d) + (k * d1 * d - k * (lv - c) * d)))%R by ring. apply Rle_trans with (1 := Rabs_triang _ _). pose proof (Rabs_triang (d2 * d - k * d1 * d) (k * d1 * d - k * (lv - c) * d)). lra. }
  (* the shock *)
  destruct (blas_one fdot vol w sg wv BD Vs Vw) as (s & V4 & E4).
  { apply Rle_trans with (1 := Hw). apply Rle_trans with (1 := proj2 HB). apply Rle_pow; [lra|lia]. }
  assert (u5 : (u * Rabs (sg * wv) <= u * B)%R) by (apply Rmult_le_compat_l; lra).
  (* their sum *)
  assert (H3 : (Rabs d3 <= 2004 / 1000 * B)%R). { replace d3 with ((d3 - d2 * d) + d2 * d)%R by ring. apply Rle_trans with (1 := Rabs_triang _ _). lra. }
  assert (H4 : (Rabs s <= 1001 / 1000 * B)%R). { replace s with ((s - sg * wv) + sg * wv)%R by ring. apply Rle_trans with (1 := Rabs_triang _ _). lra. }
  pose proof (Rabs_triang d3 s) as T5. pose proof (fadd_val _ _ _ _ V3 V4 ltac:(lra)) as V5. pose proof (rn_plus_err _ _ _ _ V3 V4) as E5. set (n := rn (d3 + s)) in *.
  assert (u6 : (u * Rabs (d3 + s) <= u * (3005 / 1000 * B))%R) by (apply Rmult_le_compat_l; lra).
  (* the new value, exactly *)
  set (a := (k * d)%R). assert (a0 : (0 <= a <= 1)%R) by (split; [apply Rmult_le_pos; lra|exact Hkd]).
  assert (M : (Rabs (c + n - x') <= e + 11012 / 1000 * (u * B) + 10002 * tn)%R).
  { replace (c + n - x')%R with ((1 - a) * (c - x) + ((n - (d3 + s)) + ((d3 - k * (lv - c) * d) + (s - sg * wv))))%R by (rewrite Ex; unfold a; ring).
    apply Rle_trans with (1 := Rabs_triang _ _). assert (Rabs ((1 - a) * (c - x)) <= e)%R. { rewrite Rabs_mult, (Rabs_pos_eq (1 - a)) by lra. apply Rle_trans with (1 * Rabs (c - x))%R; [apply Rmult_le_compat_r; lra|lra]. }
    pose proof (Rabs_triang (n - (d3 + s)) ((d3 - k * (lv - c) * d) + (s - sg * wv))). pose proof (Rabs_triang (d3 - k * (lv - c) * d) (s - sg * wv)). lra. }
  assert (H6 : (Rabs (c + n) <= 1002 / 1000 * B)%R). { replace (c + n)%R with ((c + n - x') + x')%R by ring. apply Rle_trans with (1 := Rabs_triang _ _). lra. }
  pose proof (fadd_val _ _ _ _ Vc V5 ltac:(lra)) as V6. pose proof (rn_plus_err _ _ _ _ Vc V5) as E6. set (c' := rn (c + n)) in *.
  assert (u7 : (u * Rabs (c + n) <= u * (1002 / 1000 * B))%R) by (apply Rmult_le_compat_l; lra).
  exists c'. split; [exact V6|]. replace (c' - x')%R with ((c' - (c + n)) + (c + n - x'))%R by ring. apply Rle_trans with (1 := Rabs_triang _ _). lra.
Qed.


(** The moves of the rate by its shocks, in all. *)
Definition shocks (vol : R) (incs : list f_vec) : R := sumR (List.map (fun w : f_vec => Rabs (vol * B2R (w 0%nat))) incs).
Lemma u_49 : (/ 2 ^ 49 = 16 * u)%R.
Proof. change (/ 2 ^ 49)%R with (/ 2 ^ Pos.to_nat 49)%R. rewrite two_pow, u_num. change (bpow radix2 (Zneg 49)) with (/ 562949953421312)%R. lra. Qed.
Lemma shocks_pos vol incs : (0 <= shocks vol incs)%R.
Proof. unfold shocks. induction incs as [|w l IH]; [apply Rle_refl|]. change (0 <= Rabs (vol * B2R (w 0%nat)) + sumR (List.map (fun w : f_vec => Rabs (vol * B2R (w 0%nat))) l))%R. pose proof (Rabs_pos (vol * B2R (w 0%nat))). lra. Qed.

Lemma vasicek_near fdot level speed vol lv k sg B : blas_dot fdot -> val level lv -> val speed k -> val vol sg -> (0 <= k <= 2 ^ 100)%R -> (/ 2 ^ 900 <= B <= 2 ^ 400)%R ->
  forall steps cur c (x : nat -> R) k0 Bk, val cur c -> (Rabs (x 0%nat) <= Bk)%R -> (Rabs lv <= Bk)%R -> (Bk + shocks sg (List.map fst steps) <= B)%R ->
  (forall w d, In (w, d) steps -> is_finite (w 0%nat) = true /\ is_finite d = true /\ (0 <= B2R d <= 10000)%R /\ (k * B2R d <= 1)%R) ->
  (forall j w d, nth_error steps j = Some (w, d) -> x (S j) = x j + k * (lv - x j) * B2R d + sg * B2R (w 0%nat))%R ->
  (Rabs (c - x 0%nat) <= INR k0 * (16 * u * B))%R -> Z.of_nat k0 + Z.of_nat (List.length steps) <= 2 ^ 30 ->
  forall j y, nth_error (f_vasicek_loop fdot level speed vol cur steps) j = Some y -> exists v, val y v /\ (Rabs (v - x j) <= INR (k0 + j) * (16 * u * B))%R.
Proof.
  intros BD Vl Vk Vs Hk HB. assert (B0 : (0 < B)%R). { apply Rlt_le_trans with (2 := proj1 HB). apply Rinv_0_lt_compat, pow_lt. lra. }
  induction steps as [|[w d] steps IH]; intros cur c x k0 Bk Vc Hx Hl Hs Hw Rx He N j y Hy; cbn [f_vasicek_loop] in Hy.
  - destruct j as [|j]; [|destruct j; discriminate]. injection Hy as <-. exists c. split; [exact Vc|]. rewrite Nat.add_0_r. exact He.
  - destruct j as [|j]; [injection Hy as <-; exists c; split; [exact Vc|]; rewrite Nat.add_0_r; exact He|]. cbn [nth_error] in Hy. cbn [List.length] in N. rewrite Nat2Z.inj_succ in N.
    destruct (Hw w d (or_introl eq_refl)) as (Fw & Fd & Hd & Hkd). assert (Vw : val (w 0%nat) (B2R (w 0%nat))) by (split; [exact Fw|reflexivity]). assert (Vd : val d (B2R d)) by (split; [exact Fd|reflexivity]).
    pose proof (Rx 0%nat w d eq_refl) as E. set (m := (sg * B2R (w 0%nat))%R) in *.
    change (Bk + (Rabs m + shocks sg (List.map fst steps)) <= B)%R in Hs. pose proof (shocks_pos sg (List.map fst steps)) as SP. pose proof (Rabs_pos m) as M0. pose proof (Rabs_pos lv) as L0.
    assert (Hx1 : (Rabs (x 1%nat) <= Bk + Rabs m)%R).
    { rewrite E. set (a := (k * B2R d)%R) in *. assert (a0 : (0 <= a)%R) by (apply Rmult_le_pos; lra).
      replace (x 0%nat + k * (lv - x 0%nat) * B2R d + m)%R with ((1 - a) * x 0%nat + a * lv + m)%R by (unfold a; ring).
      apply Rle_trans with (1 := Rabs_triang _ _). apply Rplus_le_compat_r. apply Rle_trans with (1 := Rabs_triang _ _). rewrite !Rabs_mult, (Rabs_pos_eq (1 - a)), (Rabs_pos_eq a) by lra.
      apply Rle_trans with ((1 - a) * Bk + a * Bk)%R; [apply Rplus_le_compat; apply Rmult_le_compat_l; lra|lra]. }
    pose proof (steps_small (Z.of_nat k0) ltac:(lia) ltac:(lia)) as [K1 K2]. rewrite <- INR_IZR_INZ in K1, K2.
    assert (He' : (INR k0 * (16 * u * B) <= B / 1000)%R). { replace (INR k0 * (16 * u * B))%R with (16 * B * (INR k0 * u))%R by ring. apply Rle_trans with (16 * B * / 1000000)%R; [apply Rmult_le_compat_l; lra|lra]. }
    destruct (step_near fdot level speed vol cur w d lv k sg c (B2R d) (B2R (w 0%nat)) (x 0%nat) (x 1%nat) (INR k0 * (16 * u * B)) B BD Vl Vk Vs Vc Vw Vd) as (c' & Vc' & Ec'); try assumption; try (fold m; lra).
    destruct (IH (f_vasicek_step fdot level speed vol cur w d) c' (fun i => x (S i)) (k0 + 1)%nat (Bk + Rabs m)%R Vc' Hx1 ltac:(lra) ltac:(lra)) with (j := j) (y := y) as (v & Vv & Ev).
    + intros w' d' I. apply Hw. right. exact I.
    + intros i w' d' I. apply (Rx (S i) w' d' I).
    + rewrite plus_INR. change (INR 1) with 1%R. lra.
    + lia.
    + exact Hy.
    + exists v. split; [exact Vv|]. replace (k0 + S j)%nat with (k0 + 1 + j)%nat by lia. exact Ev.
Qed.

Lemma f_columns_length fdot b draw : forall dts k, List.length (f_columns_from fdot b draw k dts) = List.length dts.
Proof. induction dts as [|d dts IH]; intros k; cbn [f_columns_from List.length]; [reflexivity|]. f_equal. apply IH. Qed.
Lemma f_gen_length fdot b dt draw incs dts : f_generate_increments fdot b dt draw = Ok (incs, dts) -> List.length incs = List.length dts.
Proof.
  unfold f_generate_increments. destruct (generate_datetimes _ _ _ _) as [g|]; cbn [bind]; [|discriminate]. destruct (nth_error g _); [|discriminate]. destruct (mapM _ _); cbn [bind]; [|discriminate]. intros [= <- <-]. apply f_columns_length.
Qed.
Lemma loop_length fdot level speed vol : forall steps cur, List.length (f_vasicek_loop fdot level speed vol cur steps) = S (List.length steps).
Proof. induction steps as [|[w d] steps IH]; intros cur; cbn [f_vasicek_loop List.length]; [reflexivity|]. f_equal. apply IH. Qed.
Lemma map_fst_combine {A B} (l : list A) : forall l' : list B, List.length l = List.length l' -> List.map fst (combine l l') = l.
Proof. induction l as [|a l IH]; intros [|b l'] H; try discriminate H; cbn; [reflexivity|]. f_equal. apply IH. injection H as H. exact H. Qed.

(** The simulated rate stays within [k / 2^49] of the exact Euler path, relative to a bound on that path: rounding errors
    do not build up faster than the number of steps. *)
Theorem C118_vasicek : forall fdot level speed vol b dt start draw p incs dts, blas_dot fdot ->
  f_vasicek_path fdot level speed vol b dt start draw = Ok p -> f_generate_increments fdot b dt draw = Ok (incs, dts) ->
  is_finite level = true -> is_finite speed = true -> is_finite vol = true -> is_finite start = true ->
  (0 <= B2R speed <= 2 ^ 100)%R -> Z.of_nat (List.length dts) <= 2 ^ 30 ->
  (forall d, In d dts -> is_finite d = true /\ (0 <= B2R d <= 10000)%R /\ (B2R speed * B2R d <= 1)%R) -> (forall w, In w incs -> is_finite (w 0%nat) = true) ->
  List.length p = S (List.length dts) /\
  forall (x : nat -> R) B, (/ 2 ^ 900 <= B <= 2 ^ 400)%R -> (Rmax (Rabs (B2R start)) (Rabs (B2R level)) + shocks (B2R vol) incs <= B)%R ->
    x 0%nat = B2R start ->
    (forall k w d, nth_error incs k = Some w -> nth_error dts k = Some d -> x (S k) = x k + B2R speed * (B2R level - x k) * B2R d + B2R vol * B2R (w 0%nat))%R ->
    forall k y, nth_error p k = Some y -> is_finite y = true /\ (Rabs (B2R y - x k) <= INR k * (/ 2 ^ 49 * B))%R.
Proof.
  intros fdot level speed vol b dt start draw p incs dts BD Hp Hg Fl Fs Fv F0 Hk N Hd Hw. unfold f_vasicek_path in Hp. rewrite Hg in Hp. cbn [bind fst snd] in Hp. injection Hp as <-.
  pose proof (f_gen_length _ _ _ _ _ _ Hg) as L. split.
  - rewrite loop_length, combine_length, L, Nat.min_id. reflexivity.
  - intros x B HB Hs X0 Rx k y Hy. rewrite u_49.
    destruct (vasicek_near fdot level speed vol (B2R level) (B2R speed) (B2R vol) B BD (conj Fl eq_refl) (conj Fs eq_refl) (conj Fv eq_refl) Hk HB (combine incs dts) start (B2R start) x 0 (Rmax (Rabs (B2R start)) (Rabs (B2R level))) (conj F0 eq_refl)) with (j := k) (y := y) as (v & [Fy By] & Ey).
    + rewrite X0. apply Rmax_l.
    + apply Rmax_r.
    + rewrite map_fst_combine by exact L. exact Hs.
    + intros w d I. pose proof (in_combine_l _ _ _ _ I) as I1. pose proof (in_combine_r _ _ _ _ I) as I2. destruct (Hd d I2) as (A1 & A2 & A3). split; [apply Hw; exact I1|]. split; [exact A1|]. split; [exact A2|exact A3].
    + intros j w d I. apply combine_nth_error in I. destruct I as [I1 I2]. apply (Rx j w d I1 I2).
    + rewrite X0, Rminus_diag_eq, Rabs_R0 by reflexivity. cbn. lra.
    + rewrite combine_length, L, Nat.min_id. lia.
    + exact Hy.
    + split; [exact Fy|]. rewrite By. exact Ey.
Qed.
Print Assumptions C118_vasicek.


(** ---- geometric Brownian motion ---- *)
Lemma u_50 : (/ 2 ^ 50 = 8 * u)%R.
Proof. change (/ 2 ^ 50)%R with (/ 2 ^ Pos.to_nat 50)%R. rewrite two_pow, u_num. change (bpow radix2 (Zneg 50)) with (/ 1125899906842624)%R. lra. Qed.
(** two products, one after the other *)
Lemma twice (m c h C : R) md hd cd : val md m -> val cd c -> val hd h -> (Rabs m <= 2 ^ 100)%R -> (Rabs c <= C)%R -> (/ 2 ^ 900 <= C <= 2 ^ 401)%R -> (Rabs h <= 10000)%R -> (Rabs (m * h) <= 1 / 4)%R ->
  exists v, val (fmul (fmul md cd) hd) v /\ (Rabs (v - m * c * h) <= 51 / 100 * (u * C))%R.
Proof.
  intros Vm Vc Vh Hm Hc HC Hh Hmh.
  pose proof u_tiny as U. pose proof tn_range as (T0 & _). pose proof (floor_tn C (proj1 HC)) as TB.
  assert (C0 : (0 < C)%R). { apply Rlt_le_trans with (2 := proj1 HC). apply Rinv_0_lt_compat, pow_lt. lra. }
  assert (uC : (0 < u * C <= 1 / 1000000000000 * C)%R) by (split; [apply Rmult_lt_0_compat; lra|apply Rmult_le_compat_r; lra]).
  assert (uu : (u * (u * C) <= 1 / 1000000000000 * (u * C))%R) by (apply Rmult_le_compat_r; lra).
  assert (ut : (u * tn <= 1 / 1000000000000 * tn)%R) by (apply Rmult_le_compat_r; lra).
  pose proof (ceil_big (C / 2)) as CB. pose proof one_100 as O100. assert (CB' : (500000 * (2 ^ 100 * C) <= big)%R). { replace (500000 * (2 ^ 100 * C))%R with (1000000 * (2 ^ 100 * (C / 2)))%R by field. apply CB. apply Rmult_le_reg_l with 2%R; [lra|]. replace (2 * 2 ^ 400)%R with (2 ^ 401)%R by reflexivity. lra. }
  assert (PC : (C <= 2 ^ 100 * C)%R) by (rewrite <- (Rmult_1_l C) at 1; apply Rmult_le_compat_r; lra).
  pose proof (Rabs_pos m) as m0. pose proof (Rabs_pos c) as c0. pose proof (Rabs_pos h) as h0.
  assert (A1 : (Rabs (m * c) <= Rabs m * C)%R) by (rewrite Rabs_mult; apply Rmult_le_compat_l; lra).
  assert (A2 : (Rabs m * C <= 2 ^ 100 * C)%R) by (apply Rmult_le_compat_r; lra).
  destruct (mul_rn _ _ _ _ Vm Vc ltac:(lra)) as [V1 E1]. set (p := rn (m * c)) in *.
  assert (E1' : (Rabs (p - m * c) <= u * (Rabs m * C) + tn)%R) by (apply Rle_trans with (1 := E1); apply Rplus_le_compat_r, Rmult_le_compat_l; lra).
  rewrite Rabs_mult in Hmh.
  assert (E2 : (Rabs (p * h - m * c * h) <= u * (C / 4) + 10000 * tn)%R).
  { replace (p * h - m * c * h)%R with ((p - m * c) * h)%R by ring. rewrite Rabs_mult. apply Rle_trans with ((u * (Rabs m * C) + tn) * Rabs h)%R; [apply Rmult_le_compat_r; lra|].
    replace ((u * (Rabs m * C) + tn) * Rabs h)%R with (u * C * (Rabs m * Rabs h) + tn * Rabs h)%R by ring. apply Rplus_le_compat.
    - replace (u * (C / 4))%R with (u * C * (1 / 4))%R by field. apply Rmult_le_compat_l; lra.
    - rewrite (Rmult_comm 10000). apply Rmult_le_compat_l; lra. }
  assert (A3 : (Rabs (m * c * h) <= C / 4)%R). { replace (m * c * h)%R with (m * h * c)%R by ring. rewrite !Rabs_mult. replace (C / 4)%R with (1 / 4 * C)%R by field. apply Rmult_le_compat; [apply Rmult_le_pos; lra|lra|lra|lra]. }
  assert (A4 : (Rabs (p * h) <= C / 4 + u * (C / 4) + 10000 * tn)%R). { replace (p * h)%R with ((p * h - m * c * h) + m * c * h)%R by ring. apply Rle_trans with (1 := Rabs_triang _ _). lra. }
  destruct (mul_rn _ _ _ _ V1 Vh ltac:(lra)) as [V2 E3]. exists (rn (p * h)). split; [exact V2|].
  assert (u4 : (u * Rabs (p * h) <= u * (C / 4 + u * (C / 4) + 10000 * tn))%R) by (apply Rmult_le_compat_l; lra).
  replace (rn (p * h) - m * c * h)%R with ((rn (p * h) - p * h) + (p * h - m * c * h))%R by ring. apply Rle_trans with (1 := Rabs_triang _ _). lra.
Qed.

Lemma gbm_step_near mu sigma cur w dt m s c wv d y y' r : val mu m -> val sigma s -> val cur c -> val w wv -> val dt d ->
  (Rabs m <= 2 ^ 100)%R -> (Rabs s <= 2 ^ 100)%R -> (Rabs wv <= 10000)%R -> (Rabs d <= 10000)%R -> (Rabs (m * d) <= 1 / 4)%R -> (Rabs (s * wv) <= 1 / 4)%R ->
  (/ 2 ^ 400 <= Rabs y <= 2 ^ 400)%R -> (0 <= r <= 1 / 1000)%R -> (Rabs (c - y) <= r * Rabs y)%R -> y' = (y * (1 + m * d + s * wv))%R ->
  exists c', val (f_gbm_step mu sigma cur w dt) c' /\ (Rabs (c' - y') <= (r + 8 * u) * Rabs y')%R.
Proof.
  intros Vm Vs Vc Vw Vd Hm Hs Hw Hd Hmd Hsw HY Hr He E. unfold f_gbm_step. set (Y := Rabs y) in *. set (C := (1001 / 1000 * Y)%R).
  assert (Y0 : (0 < Y)%R). { apply Rlt_le_trans with (2 := proj1 HY). apply Rinv_0_lt_compat, pow_lt. lra. }
  pose proof u_tiny as U.
  assert (rY : (r * Y <= 1 / 1000 * Y)%R) by (apply Rmult_le_compat_r; lra).
  assert (Hc : (Rabs c <= C)%R). { replace c with ((c - y) + y)%R by ring. apply Rle_trans with (1 := Rabs_triang _ _). fold Y. unfold C. lra. }
  assert (HC : (/ 2 ^ 900 <= C <= 2 ^ 401)%R).
  { unfold C. replace (2 ^ 401)%R with (2 * 2 ^ 400)%R by reflexivity. split; [|lra]. apply Rle_trans with (/ 2 ^ 400)%R; [|lra]. apply Rinv_le_contravar; [apply pow_lt; lra|]. apply Rle_pow; [lra|lia]. }
  destruct (twice m c d C _ _ _ Vm Vc Vd Hm Hc HC Hd Hmd) as (p & Vp & Ep). destruct (twice s c wv C _ _ _ Vs Vc Vw Hs Hc HC Hw Hsw) as (q & Vq & Eq).
  assert (C0 : (0 < C)%R) by (unfold C; lra). assert (uC : (0 < u * C <= 1 / 1000000000000 * C)%R) by (split; [apply Rmult_lt_0_compat; lra|apply Rmult_le_compat_r; lra]).
  assert (uu : (u * (u * C) <= 1 / 1000000000000 * (u * C))%R) by (apply Rmult_le_compat_r; lra).
  pose proof (ceil_big (C / 2)) as CB. pose proof one_100 as O100. assert (CB' : (500000 * (2 ^ 100 * C) <= big)%R). { replace (500000 * (2 ^ 100 * C))%R with (1000000 * (2 ^ 100 * (C / 2)))%R by field. apply CB. apply Rmult_le_reg_l with 2%R; [lra|]. replace (2 * 2 ^ 400)%R with (2 ^ 401)%R by reflexivity. lra. }
  assert (PC : (C <= 2 ^ 100 * C)%R) by (rewrite <- (Rmult_1_l C) at 1; apply Rmult_le_compat_r; lra).
  assert (Ap : (Rabs (m * c * d) <= 1 / 4 * C)%R) by (replace (m * c * d)%R with (m * d * c)%R by ring; rewrite (Rabs_mult (m * d)); apply Rmult_le_compat; auto using Rabs_pos).
  assert (Aq : (Rabs (s * c * wv) <= 1 / 4 * C)%R) by (replace (s * c * wv)%R with (s * wv * c)%R by ring; rewrite (Rabs_mult (s * wv)); apply Rmult_le_compat; auto using Rabs_pos).
  assert (Bp : (Rabs p <= 251 / 1000 * C)%R). { replace p with ((p - m * c * d) + m * c * d)%R by ring. apply Rle_trans with (1 := Rabs_triang _ _). lra. }
  assert (Bq : (Rabs q <= 251 / 1000 * C)%R). { replace q with ((q - s * c * wv) + s * c * wv)%R by ring. apply Rle_trans with (1 := Rabs_triang _ _). lra. }
  pose proof (Rabs_triang c p) as T1. pose proof (fadd_val _ _ _ _ Vc Vp ltac:(lra)) as V1. pose proof (rn_plus_err _ _ _ _ Vc Vp) as E1. set (a := rn (c + p)) in *.
  assert (u1 : (u * Rabs (c + p) <= u * (1251 / 1000 * C))%R) by (apply Rmult_le_compat_l; lra).
  assert (Ba : (Rabs a <= 1252 / 1000 * C)%R). { replace a with ((a - (c + p)) + (c + p))%R by ring. apply Rle_trans with (1 := Rabs_triang _ _). lra. }
  pose proof (Rabs_triang a q) as T2. pose proof (fadd_val _ _ _ _ V1 Vq ltac:(lra)) as V2. pose proof (rn_plus_err _ _ _ _ V1 Vq) as E2. set (b := rn (a + q)) in *.
  assert (u2 : (u * Rabs (a + q) <= u * (1504 / 1000 * C))%R) by (apply Rmult_le_compat_l; lra).
  exists b. split; [exact V2|].
  set (f := (1 + m * d + s * wv)%R) in *. assert (F : (1 / 2 <= Rabs f)%R). { apply Rabs_le_inv in Hmd, Hsw. rewrite Rabs_pos_eq; unfold f; lra. }
  assert (Fy : (1 / 2 * Y <= Rabs y')%R). { rewrite E, Rabs_mult. fold Y. rewrite (Rmult_comm (1 / 2)). apply Rmult_le_compat_l; lra. }
  assert (G : (Rabs (b - c * f) <= 3776 / 1000 * (u * C))%R).
  { replace (b - c * f)%R with ((b - (a + q)) + ((a - (c + p)) + ((p - m * c * d) + (q - s * c * wv))))%R by (unfold f; ring). apply Rle_trans with (1 := Rabs_triang _ _).
    pose proof (Rabs_triang (a - (c + p)) ((p - m * c * d) + (q - s * c * wv))). pose proof (Rabs_triang (p - m * c * d) (q - s * c * wv)). lra. }
  replace (b - y')%R with ((b - c * f) + (c - y) * f)%R by (rewrite E; ring). apply Rle_trans with (1 := Rabs_triang _ _).
  assert (R1 : (Rabs ((c - y) * f) <= r * Rabs y')%R). { rewrite E, !Rabs_mult. fold Y. rewrite <- Rmult_assoc. apply Rmult_le_compat_r; [apply Rabs_pos|exact He]. }
  assert (R2 : (u * C <= 2002 / 1000 * (u * Rabs y'))%R). { unfold C. assert (u * (1 / 2 * Y) <= u * Rabs y')%R by (apply Rmult_le_compat_l; lra). lra. }
  assert (0 <= u * Rabs y')%R by (apply Rmult_le_pos; [lra|apply Rabs_pos]). lra.
Qed.

Lemma gbm_near mu sigma m s i : val mu m -> val sigma s -> (Rabs m <= 2 ^ 100)%R -> (Rabs s <= 2 ^ 100)%R ->
  forall steps (cur : f_vec) c (y : nat -> R) k0, val (cur i) c ->
  (forall w d, In (w, d) steps -> is_finite (w i) = true /\ is_finite d = true /\ (Rabs (B2R (w i)) <= 10000)%R /\ (Rabs (B2R d) <= 10000)%R /\ (Rabs (m * B2R d) <= 1 / 4)%R /\ (Rabs (s * B2R (w i)) <= 1 / 4)%R) ->
  (forall j w d, nth_error steps j = Some (w, d) -> y (S j) = y j * (1 + m * B2R d + s * B2R (w i)))%R ->
  (forall j, (j <= List.length steps)%nat -> / 2 ^ 400 <= Rabs (y j) <= 2 ^ 400)%R ->
  (Rabs (c - y 0%nat) <= INR k0 * (8 * u) * Rabs (y 0%nat))%R -> Z.of_nat k0 + Z.of_nat (List.length steps) <= 2 ^ 30 ->
  forall j v, nth_error (f_gbm_loop mu sigma cur steps) j = Some v -> exists t, val (v i) t /\ (Rabs (t - y j) <= INR (k0 + j) * (8 * u) * Rabs (y j))%R.
Proof.
  intros Vm Vs Hm Hs. induction steps as [|[w d] steps IH]; intros cur c y k0 Vc Hw Ry HY He N j v Hv; cbn [f_gbm_loop] in Hv.
  - destruct j as [|j]; [|destruct j; discriminate]. injection Hv as <-. exists c. split; [exact Vc|]. rewrite Nat.add_0_r. exact He.
  - destruct j as [|j]; [injection Hv as <-; exists c; split; [exact Vc|]; rewrite Nat.add_0_r; exact He|]. cbn [nth_error] in Hv. cbn [List.length] in N. rewrite Nat2Z.inj_succ in N.
    destruct (Hw w d (or_introl eq_refl)) as (Fw & Fd & H1 & H2 & H3 & H4). pose proof (Ry 0%nat w d eq_refl) as E.
    pose proof (steps_small (Z.of_nat k0) ltac:(lia) ltac:(lia)) as [K1 K2]. rewrite <- INR_IZR_INZ in K1, K2.
    destruct (gbm_step_near mu sigma (cur i) (w i) d m s c (B2R (w i)) (B2R d) (y 0%nat) (y 1%nat) (INR k0 * (8 * u)) Vm Vs Vc (conj Fw eq_refl) (conj Fd eq_refl) Hm Hs H1 H2 H3 H4 (HY 0%nat ltac:(lia)) ltac:(lra) He E) as (c' & Vc' & Ec').
    destruct (IH (fun l => f_gbm_step mu sigma (cur l) (w l) d) c' (fun l => y (S l)) (k0 + 1)%nat Vc') with (j := j) (v := v) as (t & Vt & Et).
    + intros w' d' I. apply Hw. right. exact I.
    + intros l w' d' I. apply (Ry (S l) w' d' I).
    + intros l Hl. apply HY. cbn [List.length]. lia.
    + rewrite plus_INR. change (INR 1) with 1%R. replace ((INR k0 + 1) * (8 * u))%R with (INR k0 * (8 * u) + 8 * u)%R by ring. exact Ec'.
    + lia.
    + exact Hv.
    + exists t. split; [exact Vt|]. replace (k0 + S j)%nat with (k0 + 1 + j)%nat by lia. exact Et.
Qed.

Lemma gbm_length mu sigma : forall steps cur, List.length (f_gbm_loop mu sigma cur steps) = S (List.length steps).
Proof. induction steps as [|[w d] steps IH]; intros cur; cbn [f_gbm_loop List.length]; [reflexivity|]. f_equal. apply IH. Qed.
(** Each component of a simulated geometric Brownian motion has a relative error of at most [k / 2^50] after k steps. *)
Theorem C118_geometric : forall fdot mu sigma b dt start draw p incs dts i,
  f_gbm_path fdot mu sigma b dt start draw = Ok p -> f_generate_increments fdot b dt draw = Ok (incs, dts) ->
  is_finite mu = true -> is_finite sigma = true -> is_finite (start i) = true -> (Rabs (B2R mu) <= 2 ^ 100)%R -> (Rabs (B2R sigma) <= 2 ^ 100)%R -> Z.of_nat (List.length dts) <= 2 ^ 30 ->
  (forall d, In d dts -> is_finite d = true /\ (Rabs (B2R d) <= 10000)%R /\ (Rabs (B2R mu * B2R d) <= 1 / 4)%R) ->
  (forall w, In w incs -> is_finite (w i) = true /\ (Rabs (B2R (w i)) <= 10000)%R /\ (Rabs (B2R sigma * B2R (w i)) <= 1 / 4)%R) ->
  List.length p = S (List.length dts) /\
  forall y : nat -> R, y 0%nat = B2R (start i) ->
    (forall k w d, nth_error incs k = Some w -> nth_error dts k = Some d -> y (S k) = y k * (1 + B2R mu * B2R d + B2R sigma * B2R (w i)))%R ->
    (forall k, (k <= List.length dts)%nat -> / 2 ^ 400 <= Rabs (y k) <= 2 ^ 400)%R ->
    forall k v, nth_error p k = Some v -> is_finite (v i) = true /\ (Rabs (B2R (v i) - y k) <= INR k * / 2 ^ 50 * Rabs (y k))%R.
Proof.
  intros fdot mu sigma b dt start draw p incs dts i Hp Hg Fm Fs F0 Hm Hs N Hd Hw. unfold f_gbm_path in Hp. rewrite Hg in Hp. cbn [bind fst snd] in Hp. injection Hp as <-.
  pose proof (f_gen_length _ _ _ _ _ _ Hg) as L. split.
  - rewrite gbm_length, combine_length, L, Nat.min_id. reflexivity.
  - intros y Y0 Ry HY k v Hv. rewrite u_50.
    destruct (gbm_near mu sigma (B2R mu) (B2R sigma) i (conj Fm eq_refl) (conj Fs eq_refl) Hm Hs (combine incs dts) start (B2R (start i)) y 0 (conj F0 eq_refl)) with (j := k) (v := v) as (t & [Fv Bv] & Et).
    + intros w d I. pose proof (in_combine_l _ _ _ _ I) as I1. pose proof (in_combine_r _ _ _ _ I) as I2. destruct (Hd d I2) as (A1 & A2 & A3). destruct (Hw w I1) as (B1 & B2 & B3). auto 10.
    + intros j w d I. apply combine_nth_error in I. destruct I as [I1 I2]. apply (Ry j w d I1 I2).
    + intros j Hj. apply HY. rewrite combine_length, L, Nat.min_id in Hj. exact Hj.
    + rewrite Y0, Rminus_diag_eq, Rabs_R0 by reflexivity. cbn. lra.
    + rewrite combine_length, L, Nat.min_id. lia.
    + exact Hv.
    + split; [exact Fv|]. rewrite Bv. exact Et.
Qed.
Print Assumptions C118_geometric.


(** ---- the time steps ---- *)
Lemma mapM_pair {A B C} (f : A -> res B) (g : A -> res C) (Q : B -> C -> Prop) l :
  (forall a, In a l -> match f a with Ok b => exists c, g a = Ok c /\ Q b c | Err e => g a = Err e end) ->
  match mapM f l with Ok bs => exists cs, mapM g l = Ok cs /\ Forall2 Q bs cs | Err e => mapM g l = Err e end.
Proof.
  induction l as [|a l IH]; intros H; cbn [mapM]; [exists []; split; [reflexivity|constructor]|].
  pose proof (H a (or_introl eq_refl)) as Ha. destruct (f a) as [b|e]; cbn [bind].
  - destruct Ha as (c & -> & Qc). cbn [bind]. specialize (IH (fun x X => H x (or_intror X))). destruct (mapM f l) as [bs|e]; cbn [bind].
    + destruct IH as (cs & -> & F). cbn [bind]. exists (c :: cs). split; [reflexivity|constructor; assumption].
    + rewrite IH. reflexivity.
  - rewrite Ha. reflexivity.
Qed.
(** The doubles simulate on the grid of the exact model: as many steps (at most a million and one), each within the accuracy of
    the day count; or both raise the same exception. *)
Theorem C118_grid : forall fdot (b : f_brownian) (eb : brownian) dt draw edraw, forward dt -> datetime_ok (fb_start b) -> datetime_ok (fb_end b) -> dt_abs (fb_start b) <= dt_abs (fb_end b) ->
  bm_start eb = fb_start b -> bm_end eb = fb_end b -> bm_dcc eb = fb_dcc b ->
  match snd (generate_increments eb dt edraw) with
  | Ok (eincs, qs) => exists incs dts, f_generate_increments fdot b dt draw = Ok (incs, dts) /\ List.length incs = List.length dts /\ List.length dts = List.length qs /\ Z.of_nat (List.length dts) <= 1000001 /\
      forall k q, nth_error qs k = Some q -> exists d, nth_error dts k = Some d /\ is_finite d = true /\
        (Rabs (B2R d - Q2R q) <= / 2 ^ 46 * (IZR (year (dt_date (fb_end b)) - year (dt_date (fb_start b))) + 3))%R
  | Err e => f_generate_increments fdot b dt draw = Err e
  end.
Proof.
  intros fdot b eb dt draw edraw F Os Oe L Es Ee Ec. unfold generate_increments, f_generate_increments. rewrite Es, Ee, Ec.
  destruct (generate_datetimes (fb_start b) (fb_end b) dt 1000000) as [g0|e] eqn:G; cbn [bind snd]; [|reflexivity].
  destruct (nth_error g0 (List.length g0 - 1)) as [last|] eqn:El; cbn [snd]; [|reflexivity].
  unfold generate_datetimes in G. destruct (step_positive (fb_start b) dt) as [up|] eqn:Sp; cbn [bind] in G; [|discriminate].
  apply step_positive_forward in Sp; [|exact F|exact Os]. subst up. apply dt_grid_facts in G; [|exact F|exact Os]. destruct G as [_ _ _ P4 P5 _]. change (1000000 + 1) with 1000001 in *.
  set (g := if dt_ltb last (fb_end b) then g0 ++ [fb_end b] else g0).
  assert (Lg : Z.of_nat (List.length g) <= 1000002) by (unfold g; destruct (dt_ltb _ _); [rewrite app_length; cbn [List.length]|]; lia).
  assert (V : forall x, In x g -> datetime_ok x /\ dt_abs (fb_start b) <= dt_abs x <= dt_abs (fb_end b)).
  { intros x I. assert (I' : In x g0 \/ x = fb_end b) by (unfold g in I; destruct (dt_ltb _ _); [apply in_app_or in I; cbn in I; intuition|auto]). destruct I' as [I'| ->]; [apply P4; exact I'|split; [exact Oe|lia]]. }
  set (Y := (/ 2 ^ 46 * (IZR (year (dt_date (fb_end b)) - year (dt_date (fb_start b))) + 3))%R).
  pose proof (mapM_pair (fun p => compute_accrual_length (Stamp (fst p)) (Stamp (snd p)) (fb_dcc b)) (fun p => f_compute_accrual_length (Stamp (fst p)) (Stamp (snd p)) (fb_dcc b))
    (fun q d => is_finite d = true /\ (Rabs (B2R d - Q2R q) <= Y)%R) (pairwise g)) as M.
  match type of M with ?H -> _ => assert (HM : H) end.
  { intros [x y] I. apply In_nth_error in I. destruct I as [i I]. apply pairwise_nth in I. destruct I as [X Y']. destruct (V x (nth_error_In _ _ X)) as [Ox Bx]. destruct (V y (nth_error_In _ _ Y')) as [Oy By]. cbn [fst snd].
    destruct (compute_accrual_length (Stamp x) (Stamp y) (fb_dcc b)) as [q|e] eqn:A.
    - destruct (C85_accuracy _ (Stamp x) (Stamp y) q Ox Oy A) as (d & D & Fd & Ed). exists d. split; [exact D|]. split; [exact Fd|]. apply Rle_trans with (1 := Ed). unfold Y. cbn [day_of].
      apply Rmult_le_compat_l; [apply Rlt_le, Rinv_0_lt_compat, pow_lt; lra|]. apply Rplus_le_compat_r, IZR_le.
      pose proof (dt_abs_date _ _ Os Ox ltac:(lia)) as D1. pose proof (dt_abs_date _ _ Ox Oe ltac:(lia)) as D2. pose proof (dt_abs_date _ _ Os Oy ltac:(lia)) as D3. pose proof (dt_abs_date _ _ Oy Oe ltac:(lia)) as D4.
      apply year_mono in D1, D2, D3, D4. lia.
    - apply (C85_errors _ (Stamp x) (Stamp y) e Ox Oy). exact A. }
  specialize (M HM). destruct (mapM _ (pairwise g)) as [qs|e] eqn:Mq in M |- *; rewrite ?Mq; cbn [snd].
  - destruct M as (dts & -> & F2). cbn [bind]. exists (f_columns_from fdot b draw 0 dts), dts. split; [reflexivity|]. split; [apply f_columns_length|].
    destruct (F2_nth _ _ _ F2) as [Ld Hd]. apply mapM_Forall2 in Mq. destruct (F2_nth _ _ _ Mq) as [Lq _]. rewrite pairwise_length' in Lq. split; [symmetry; exact Ld|]. split; [lia|].
    intros k q Q. destruct (nth_error dts k) as [d|] eqn:D.
    + exists d. split; [reflexivity|]. apply (Hd k q d Q D).
    + exfalso. apply nth_error_None in D. assert (k < List.length qs)%nat by (apply nth_error_Some; congruence). lia.
  - rewrite M. reflexivity.
Qed.
Print Assumptions C118_grid.

(** ---- the increments ---- *)
Lemma f_columns_nth fdot b draw : forall dts k j w, nth_error (f_columns_from fdot b draw k dts) j = Some w -> exists d, nth_error dts j = Some d /\ w = f_increment_column fdot b draw (k + j) d.
Proof.
  induction dts as [|d dts IH]; intros k j w H; cbn [f_columns_from] in H; [destruct j; discriminate|]. destruct j as [|j]; cbn [nth_error] in *.
  - injection H as <-. exists d. rewrite Nat.add_0_r. split; reflexivity.
  - destruct (IH (S k) j w H) as (d' & D & E). exists d'. split; [exact D|]. rewrite E. f_equal. lia.
Qed.
Lemma sqrt_near dt d : val dt d -> (0 <= d <= 10000)%R -> exists q, val (f_sqrt dt) q /\ (Rabs (q - sqrt d) <= u * sqrt d)%R /\ (0 <= sqrt d <= 100)%R.
Proof.
  intros [Fd Bd] Hd. unfold f_sqrt. destruct (@Bsqrt_correct 53 1024 prec_gt prec_lt mode_NE dt) as (E & F & _).
  exists (rn (sqrt d)). split; [split|split].
  - rewrite F. destruct dt as [s|s| |[|] m e]; try reflexivity; try discriminate Fd. exfalso. assert (B2R (B754_finite true m e e0 : f64) < 0)%R by (apply F2R_lt_0; reflexivity). lra.
  - rewrite E, Bd. reflexivity.
  - apply Rle_trans with (u * Rabs (sqrt d))%R; [|rewrite Rabs_pos_eq by apply sqrt_pos; apply Rle_refl]. apply rn_err.
    destruct (Req_dec d 0) as [Z|Z]; [left; rewrite Z; apply sqrt_0|right]. rewrite Rabs_pos_eq by apply sqrt_pos.
    assert (M : (bpow radix2 (-1074) <= d)%R).
    { assert (P : (0 < d)%R) by lra. rewrite <- Bd in P |- *. pose proof (@abs_B2R_ge_emin 53 1024) as X. assert (Q : is_finite_strict dt = true) by (destruct dt; cbn in P; try lra; reflexivity).
      specialize (X dt Q). rewrite Rabs_pos_eq in X by lra. exact X. }
    apply Rle_trans with (bpow radix2 (-537)); [unfold small; apply bpow_le; lia|]. apply sqrt_le_1_alt in M. replace (bpow radix2 (-1074)) with (bpow radix2 (-537) * bpow radix2 (-537))%R in M by (rewrite <- bpow_plus; reflexivity). rewrite sqrt_square in M by apply bpow_ge_0. exact M.
  - split; [apply sqrt_pos|]. replace 100%R with (sqrt (100 * 100)) by (apply sqrt_square; lra). apply sqrt_le_1_alt. lra.
Qed.
(** Every entry of an increment is sqrt(dt) times the row of the triangular matrix times the draws, to the accuracy of the
    matrix product and two more roundings. *)
Theorem C118_increments : forall fdot b dt draw incs dts, blas_dot fdot -> f_generate_increments fdot b dt draw = Ok (incs, dts) -> Z.of_nat (fb_dim b) <= 2 ^ 20 ->
  forall k i w d, nth_error incs k = Some w -> nth_error dts k = Some d -> is_finite d = true -> (0 <= B2R d <= 10000)%R ->
  (forall j, (j < fb_dim b)%nat -> is_finite (draw k j) = true /\ (Rabs (B2R (draw k j)) <= 1000)%R /\ is_finite (fb_chol b i j) = true /\ (Rabs (B2R (fb_chol b i j)) <= 100)%R) ->
  is_finite (w i) = true /\
  (Rabs (B2R (w i) - sqrt (B2R d) * sumn (fb_dim b) (fun j => B2R (fb_chol b i j) * B2R (draw k j))) <=
     (INR (fb_dim b) + 2) * / 2 ^ 52 * (sqrt (B2R d) * sumn (fb_dim b) (fun j => Rabs (B2R (fb_chol b i j) * B2R (draw k j)))) + INR (fb_dim b) * / 2 ^ 1000)%R.
Proof.
  intros fdot b dt draw incs dts BD Hg N k i w d Hw Hd Fd Bd Hj. unfold f_generate_increments in Hg. destruct (generate_datetimes _ _ _ _) as [g|]; cbn [bind] in Hg; [|discriminate]. destruct (nth_error g _); [|discriminate]. destruct (mapM _ _) as [ds|]; cbn [bind] in Hg; [|discriminate].
  injection Hg as <- <-. apply f_columns_nth in Hw. destruct Hw as (d' & D' & ->). rewrite Hd in D'. injection D' as <-. cbn [Nat.add]. unfold f_increment_column. set (n := fb_dim b) in *.
  destruct (sqrt_near d (B2R d) (conj Fd eq_refl) Bd) as (q & Vq & Eq & Hq). set (sq := sqrt (B2R d)) in *. pose proof u_tiny as U. pose proof tn_range as (T0 & T1 & _). pose proof tiny_1073 as T2.
  assert (uq : (u * sq <= 1 / 1000000000000 * sq)%R) by (apply Rmult_le_compat_r; lra).
  assert (Aq : (Rabs q <= 1001 / 1000 * sq)%R). { replace q with ((q - sq) + sq)%R by ring. apply Rle_trans with (1 := Rabs_triang _ _). rewrite (Rabs_pos_eq sq) by lra. lra. }
  set (f := fun j => fmul (draw k j) (f_sqrt d)). set (L := fun j => B2R (fb_chol b i j)). set (z := fun j => B2R (draw k j)).
  assert (T : forall j, (j < n)%nat -> is_finite (f j) = true /\ (Rabs (L j * B2R (f j) - sq * (L j * z j)) <= 2001 / 1000 * u * (sq * Rabs (L j * z j)) + 100 * tn)%R).
  { intros j J. destruct (Hj j J) as (Fz & Bz & Fl & Bl). fold (L j) in Bl. fold (z j) in Bz. assert (Vz : val (draw k j) (z j)) by (split; [exact Fz|reflexivity]).
    pose proof (Rabs_pos (z j)) as z0. pose proof (Rabs_pos (L j)) as l0. pose proof (Rabs_pos q) as q0.
    destruct (mul_in _ _ _ _ 1000 101 Vz Vq Bz ltac:(lra) ltac:(lra)) as [[Ff Bf] Ef]. split; [exact Ff|]. unfold f. rewrite Bf. set (p := rn (z j * q)) in *.
    assert (E1 : (Rabs (p - z j * sq) <= 2001 / 1000 * u * (Rabs (z j) * sq) + tn)%R).
    { replace (p - z j * sq)%R with ((p - z j * q) + z j * (q - sq))%R by ring. apply Rle_trans with (1 := Rabs_triang _ _). rewrite (Rabs_mult (z j) (q - sq)).
      assert (Rabs (z j) * Rabs (q - sq) <= Rabs (z j) * (u * sq))%R by (apply Rmult_le_compat_l; lra). assert (u * (Rabs (z j) * Rabs q) <= u * (Rabs (z j) * (1001 / 1000 * sq)))%R by (apply Rmult_le_compat_l; [lra|apply Rmult_le_compat_l; lra]). lra. }
    replace (L j * p - sq * (L j * z j))%R with (L j * (p - z j * sq))%R by ring. rewrite !Rabs_mult. apply Rle_trans with (Rabs (L j) * (2001 / 1000 * u * (Rabs (z j) * sq) + tn))%R; [apply Rmult_le_compat_l; assumption|].
    assert (Rabs (L j) * tn <= 100 * tn)%R by (apply Rmult_le_compat_r; lra). lra. }
  set (A := sumn n (fun j => Rabs (L j * z j))). assert (A0 : (0 <= A)%R) by (apply sumn_nonneg; intros; apply Rabs_pos). set (S := sumn n (fun j => (L j * z j)%R)).
  assert (N' : (0 <= INR n <= 1048576)%R) by (split; [apply pos_INR|rewrite INR_IZR_INZ; apply (IZR_le _ 1048576); exact N]).
  assert (HA : (A <= 1048576 * 100000)%R). { apply Rle_trans with (sumn n (fun _ => 100000%R)); [apply sumn_le; intros j J; destruct (Hj j J) as (_ & Bz & _ & Bl); fold (z j) in Bz; fold (L j) in Bl; rewrite Rabs_mult; replace 100000%R with (100 * 1000)%R by ring; apply Rmult_le_compat; auto using Rabs_pos|rewrite sumn_const; apply Rmult_le_compat_r; lra]. }
  assert (sA : (0 <= sq * A)%R) by (apply Rmult_le_pos; lra). assert (sA' : (sq * A <= 100 * (1048576 * 100000))%R) by (apply Rmult_le_compat; lra).
  assert (us : (u * (sq * A) <= 1 / 1000000000000 * (sq * A))%R) by (apply Rmult_le_compat_r; lra). assert (Nt : (INR n * tn <= 1048576 * tn)%R) by (apply Rmult_le_compat_r; lra).
  (* what the product sums *)
  set (P := sumn n (fun j => Rabs (L j * B2R (f j)))). set (G := sumn n (fun j => (L j * B2R (f j))%R)).
  assert (D : (sumn n (fun j => Rabs (L j * B2R (f j) - sq * (L j * z j))) <= 2001 / 1000 * u * (sq * A) + INR n * (100 * tn))%R).
  { apply Rle_trans with (sumn n (fun j => 2001 / 1000 * u * sq * Rabs (L j * z j) + 100 * tn)%R); [apply sumn_le; intros j J; destruct (T j J) as [_ E]; lra|]. rewrite sumn_plus, sumn_const, sumn_scal. fold A. lra. }
  assert (GS : (Rabs (G - sq * S) <= 2001 / 1000 * u * (sq * A) + INR n * (100 * tn))%R).
  { apply Rle_trans with (2 := D). unfold G, S. rewrite <- sumn_scal, <- sumn_minus. apply sumn_abs. }
  assert (PA : (P <= sq * A + (2001 / 1000 * u * (sq * A) + INR n * (100 * tn)))%R).
  { apply Rle_trans with (sumn n (fun j => sq * Rabs (L j * z j) + Rabs (L j * B2R (f j) - sq * (L j * z j)))%R).
    - apply sumn_le. intros j J. replace (L j * B2R (f j))%R with (sq * (L j * z j) + (L j * B2R (f j) - sq * (L j * z j)))%R at 1 by ring. apply Rle_trans with (1 := Rabs_triang _ _). rewrite (Rabs_mult sq (L j * z j)), (Rabs_pos_eq sq) by lra. lra.
    - rewrite sumn_plus, sumn_scal. fold A. lra. }
  destruct (BD n (fb_chol b i) f N) as [Fw Ew].
  - intros j J. split; [destruct (Hj j J) as (_ & _ & Fl & _); exact Fl|destruct (T j J) as [Ff _]; exact Ff].
  - fold L. change (P <= 2 ^ 500)%R. apply Rle_trans with (2 ^ 100)%R; [|apply Rle_pow; [lra|lia]]. apply Rle_trans with (2 ^ 60)%R; [|apply Rle_pow; [lra|lia]]. lra.
  - split; [exact Fw|]. change (Rabs (B2R (fdot n (fb_chol b i) f) - G) <= INR n * (/ 2 ^ 52 * P + / 2 ^ 1073))%R in Ew. change (Rabs (B2R (fdot n (fb_chol b i) f) - sq * S) <= (INR n + 2) * / 2 ^ 52 * (sq * A) + INR n * / 2 ^ 1000)%R. rewrite u_52 in *.
    replace (B2R (fdot n (fb_chol b i) f) - sq * S)%R with ((B2R (fdot n (fb_chol b i) f) - G) + (G - sq * S))%R by ring. apply Rle_trans with (1 := Rabs_triang _ _).
    assert (X1 : (2 * u * P <= 2 * u * (sq * A + (2001 / 1000 * u * (sq * A) + INR n * (100 * tn))))%R) by (apply Rmult_le_compat_l; lra).
    assert (uN : (0 <= u * INR n <= 1 / 100000)%R). { split; [apply Rmult_le_pos; lra|]. apply Rle_trans with (1 / 1000000000000 * 1048576)%R; [apply Rmult_le_compat; lra|lra]. }
    assert (X2 : (u * INR n * (u * (sq * A)) <= 1 / 100000 * (u * (sq * A)))%R) by (apply Rmult_le_compat_r; [apply Rmult_le_pos; lra|lra]).
    assert (X3 : (u * INR n * (INR n * tn) <= 1 / 100000 * (INR n * tn))%R) by (apply Rmult_le_compat_r; [apply Rmult_le_pos; lra|lra]).
    assert (X4 : (INR n * (2 * u * P + / 2 ^ 1073) <= INR n * (2 * u * (sq * A + (2001 / 1000 * u * (sq * A) + INR n * (100 * tn))) + tn))%R) by (apply Rmult_le_compat_l; lra).
    assert (X5 : (0 <= u * (sq * A))%R) by (apply Rmult_le_pos; lra). pose proof tn_many as TM.
    assert (X6 : (INR n * (1000 * tn) <= INR n * / 2 ^ 1000)%R) by (apply Rmult_le_compat_l; lra).
    assert (0 <= INR n * tn)%R by (apply Rmult_le_pos; lra). lra.
Qed.
Print Assumptions C118_increments.


(** ---- a whole Brownian path ---- *)
Lemma sum_last l x : (sumR (l ++ [x]) = sumR l + x)%R.
Proof. induction l as [|a l IH]; unfold sumR in *; cbn; [ring|]. rewrite IH. ring. Qed.
Lemma row_step i k incs w : nth_error incs k = Some w -> row i (S k) incs = row i k incs ++ [B2R (w i)].
Proof.
  unfold row. revert k. induction incs as [|a l IH]; intros k H; [destruct k; discriminate|]. destruct k as [|k].
  - injection H as <-. reflexivity.
  - cbn [nth_error] in H. specialize (IH k H). change (firstn (S (S k)) (a :: l)) with (a :: firstn (S k) l). change (firstn (S k) (a :: l)) with (a :: firstn k l). cbn [List.map app]. rewrite IH. reflexivity.
Qed.
Lemma sum_abs_last l x : (sum_abs (l ++ [x]) = sum_abs l + Rabs x)%R.
Proof. unfold sum_abs. rewrite map_app. apply (sum_last (List.map Rabs l) (Rabs x)). Qed.

(** The draws are ordinary numbers, as is row i of the triangular matrix. *)
Definition ordinary_draws (b : f_brownian) (draw : nat -> f_vec) (i steps : nat) : Prop := forall k j, (k < steps)%nat -> (j < fb_dim b)%nat ->
  is_finite (draw k j) = true /\ (Rabs (B2R (draw k j)) <= 1000)%R /\ is_finite (fb_chol b i j) = true /\ (Rabs (B2R (fb_chol b i j)) <= 100)%R.
(** Component i of the path after k steps: sum of sqrt(dt) times row i of the matrix times the draws; and the size of its terms. *)
Definition exact_path (b : f_brownian) (draw : nat -> f_vec) (dts : list f64) (i k : nat) : R :=
  sumn k (fun s => sqrt (B2R (nth s dts (of_int 0))) * sumn (fb_dim b) (fun j => B2R (fb_chol b i j) * B2R (draw s j)))%R.
Definition path_size (b : f_brownian) (draw : nat -> f_vec) (dts : list f64) (i k : nat) : R :=
  sumn k (fun s => sqrt (B2R (nth s dts (of_int 0))) * sumn (fb_dim b) (fun j => Rabs (B2R (fb_chol b i j) * B2R (draw s j))))%R.

Theorem C118_brownian : forall fdot b dt draw p incs dts i, blas_dot fdot -> f_bm_generate_path fdot b dt draw = Ok p -> f_generate_increments fdot b dt draw = Ok (incs, dts) ->
  Z.of_nat (fb_dim b) <= 2 ^ 20 -> Z.of_nat (List.length dts) <= 1000001 -> (forall d, In d dts -> is_finite d = true /\ (0 <= B2R d <= 10000)%R) -> ordinary_draws b draw i (List.length dts) ->
  List.length p = S (List.length dts) /\
  forall k v, nth_error p k = Some v -> is_finite (v i) = true /\
    (Rabs (B2R (v i) - exact_path b draw dts i k) <= (INR k + INR (fb_dim b) + 3) * / 2 ^ 52 * path_size b draw dts i k + 2 * INR k * INR (fb_dim b) * / 2 ^ 1000)%R.
Proof.
  intros fdot b dt draw p incs dts i BD Hp Hg N Nd Hd Od. unfold f_bm_generate_path in Hp. rewrite Hg in Hp. cbn [bind fst] in Hp. injection Hp as <-.
  pose proof (f_gen_length _ _ _ _ _ _ Hg) as L. set (n := fb_dim b) in *. pose proof u_tiny as U.
  assert (N' : (0 <= INR n <= 1048576)%R) by (split; [apply pos_INR|rewrite INR_IZR_INZ; apply (IZR_le _ 1048576); exact N]).
  set (t := (/ 2 ^ 1000)%R). assert (Ht : (0 < t <= 1)%R). { pose proof tiny_u as T. fold t in T. split; [apply Rinv_0_lt_compat, pow_lt|]; lra. }
  set (T := fun s => sqrt (B2R (nth s dts (of_int 0)))). set (X := exact_path b draw dts i). set (A := path_size b draw dts i).
  set (m := fun s => (T s * sumn n (fun j => B2R (fb_chol b i j) * B2R (draw s j)))%R). set (a := fun s => (T s * sumn n (fun j => Rabs (B2R (fb_chol b i j) * B2R (draw s j))))%R).
  assert (E : forall k w, nth_error incs k = Some w -> is_finite (w i) = true /\ (Rabs (B2R (w i) - m k) <= (INR n + 2) * (2 * u) * a k + INR n * t)%R /\ (Rabs (m k) <= a k)%R /\ (0 <= a k <= 100 * (1048576 * 100000))%R).
  { intros k w W. assert (K : (k < List.length incs)%nat) by (apply nth_error_Some; congruence). destruct (nth_error dts k) as [d|] eqn:D; [|apply nth_error_None in D; lia]. destruct (Hd d (nth_error_In _ _ D)) as [Fd Bd].
    assert (ND : nth k dts (of_int 0) = d) by (apply nth_error_nth; exact D). assert (Tk : T k = sqrt (B2R d)) by (unfold T; rewrite ND; reflexivity).
    destruct (C118_increments _ _ _ _ _ _ BD Hg N k i w d W D Fd Bd) as [Fw Ew]; [intros j J; apply Od; [lia|exact J]|]. split; [exact Fw|]. rewrite u_52 in Ew. unfold m, a. rewrite Tk. split; [exact Ew|].
    destruct (sqrt_near d (B2R d) (conj Fd eq_refl) Bd) as (_ & _ & _ & Sq).
    assert (S0 : (0 <= sumn n (fun j => Rabs (B2R (fb_chol b i j) * B2R (draw k j))) <= 1048576 * 100000)%R).
    { split; [apply sumn_nonneg; intros; apply Rabs_pos|]. apply Rle_trans with (sumn n (fun _ => 100000%R)); [apply sumn_le; intros j J; destruct (Od k j ltac:(lia) J) as (_ & Bz & _ & Bl); rewrite Rabs_mult; replace 100000%R with (100 * 1000)%R by ring; apply Rmult_le_compat; auto using Rabs_pos|rewrite sumn_const; apply Rmult_le_compat_r; lra]. }
    split.
    - rewrite Rabs_mult, (Rabs_pos_eq (sqrt (B2R d))) by lra. apply Rmult_le_compat_l; [lra|apply sumn_abs].
    - split; [apply Rmult_le_pos; lra|apply Rmult_le_compat; lra]. }
  assert (P : forall k, (k <= List.length incs)%nat -> (Rabs (sumR (row i k incs) - X k) <= (INR n + 2) * (2 * u) * A k + INR k * (INR n * t))%R /\ (sum_abs (row i k incs) <= A k + ((INR n + 2) * (2 * u) * A k + INR k * (INR n * t)))%R /\ (0 <= A k <= INR k * (100 * (1048576 * 100000)))%R).
  { induction k as [|k IH]; intros K.
    - unfold row, X, A, exact_path, path_size, sum_abs. cbn. rewrite Rminus_0_r, Rabs_R0. lra.
    - specialize (IH ltac:(lia)). destruct IH as (I1 & I2 & I3). destruct (nth_error incs k) as [w|] eqn:W; [|apply nth_error_None in W; lia]. destruct (E k w W) as (_ & E1 & E2 & E3).
      rewrite (row_step i k incs w W), sum_last, sum_abs_last. change (X (S k)) with (X k + m k)%R. change (A (S k)) with (A k + a k)%R. rewrite S_INR.
      split; [|split; [|lra]].
      + replace (sumR (row i k incs) + B2R (w i) - (X k + m k))%R with ((sumR (row i k incs) - X k) + (B2R (w i) - m k))%R by ring. apply Rle_trans with (1 := Rabs_triang _ _). lra.
      + assert (Rabs (B2R (w i)) <= a k + ((INR n + 2) * (2 * u) * a k + INR n * t))%R. { replace (B2R (w i)) with ((B2R (w i) - m k) + m k)%R by ring. apply Rle_trans with (1 := Rabs_triang _ _). lra. } lra. }
  assert (Un : (0 <= (INR n + 2) * (2 * u) <= 1 / 1000000)%R).
  { split; [apply Rmult_le_pos; lra|]. apply Rle_trans with ((1048578) * (2 * / 9007199254740992))%R; [rewrite u_num; apply Rmult_le_compat_r; lra|lra]. }
  assert (B : forall k, (k <= List.length incs)%nat -> (0 <= INR k * u <= 1 / 1000000000)%R /\ (sum_abs (row i k incs) <= 2 ^ 900)%R).
  { intros k K. destruct (P k K) as (_ & P2 & P3). assert (Kz : (0 <= INR k <= 1000001)%R) by (split; [apply pos_INR|rewrite INR_IZR_INZ; apply IZR_le; lia]). split.
    - rewrite u_num. split; [apply Rmult_le_pos; lra|]. apply Rle_trans with (1000001 * / 9007199254740992)%R; [apply Rmult_le_compat_r; lra|lra].
    - apply Rle_trans with (2 ^ 100)%R; [|apply Rle_pow; [lra|lia]]. assert (A k <= 1000001 * (100 * (1048576 * 100000)))%R by (apply Rle_trans with (1 := proj2 P3), Rmult_le_compat_r; lra).
      assert ((INR n + 2) * (2 * u) * A k <= 1 / 1000000 * A k)%R by (apply Rmult_le_compat_r; lra). assert (INR n * t <= 1048576 * 1)%R by (apply Rmult_le_compat; lra). assert (INR k * (INR n * t) <= 1000001 * (1048576 * 1))%R by (apply Rmult_le_compat; [lra|apply Rmult_le_pos; lra|lra|lra]). lra. }
  assert (Ni : Z.of_nat (List.length incs) <= 2 ^ 30) by (rewrite L; apply Z.le_trans with (1 := Nd); discriminate).
  destruct (C118_running_sums incs i Ni) as [Lp C].
  { intros w W. apply In_nth_error in W. destruct W as [k W]. apply (E k w W). }
  { apply (B (List.length incs) (le_n _)). }
  split; [exact (eq_trans Lp (f_equal S L))|]. intros k v V. destruct (C k v V) as [Fv Ev]. split; [exact Fv|]. rewrite u_52 in *.
  assert (K : (k <= List.length incs)%nat). { apply Nat.lt_succ_r. apply (fun H => eq_ind _ (fun z => (k < z)%nat) H _ Lp). apply nth_error_Some. rewrite V. discriminate. }
  destruct (P k K) as (P1 & P2 & P3). destruct (B k K) as [Ku _]. fold X A t.
  replace (B2R (v i) - X k)%R with ((B2R (v i) - sumR (row i k incs)) + (sumR (row i k incs) - X k))%R by ring. apply Rle_trans with (1 := Rabs_triang _ _).
  assert (Q1 : (INR k * (2 * u * sum_abs (row i k incs)) <= INR k * (2 * u * (A k + ((INR n + 2) * (2 * u) * A k + INR k * (INR n * t)))))%R).
  { apply Rmult_le_compat_l; [apply pos_INR|]. apply Rmult_le_compat_l; lra. }
  assert (uA : (0 <= u * A k)%R) by (apply Rmult_le_pos; lra). assert (Knt : (0 <= INR k * (INR n * t))%R) by (apply Rmult_le_pos; [apply pos_INR|apply Rmult_le_pos; lra]).
  assert (Q2 : (INR k * u * (INR k * (INR n * t)) <= 1 / 1000000000 * (INR k * (INR n * t)))%R) by (apply Rmult_le_compat_r; lra).
  assert (Q3 : (INR k * u * ((INR n + 2) * (u * A k)) <= 1 / 1000000000 * (1048578 * (u * A k)))%R) by (apply Rmult_le_compat; [lra|apply Rmult_le_pos; lra|lra|apply Rmult_le_compat_r; lra]).
  lra.
Qed.
Print Assumptions C118_brownian.

(** ---- the contract is met by adding the products from the left, and by rounding the exact value ---- *)
Fixpoint left_dot (n : nat) (a b : f_vec) : f64 := match n with O => of_int 0 | S m => fadd (left_dot m a b) (fmul (a m) (b m)) end.
Lemma left_near : forall n (a b : f_vec), Z.of_nat n <= 2 ^ 20 -> (forall j, (j < n)%nat -> is_finite (a j) = true /\ is_finite (b j) = true) -> (sumn n (fun j => Rabs (B2R (a j) * B2R (b j))) <= 2 ^ 500)%R ->
  exists s, val (left_dot n a b) s /\ (Rabs (s - sumn n (fun j => B2R (a j) * B2R (b j))) <= INR n * (2 * u * sumn n (fun j => Rabs (B2R (a j) * B2R (b j))) + 2 * / 2 ^ 1074))%R.
Proof.
  induction n as [|n IH]; intros a b N F B.
  - exists 0%R. split; [apply zero_val|]. cbn. rewrite Rminus_0_r, Rabs_R0. lra.
  - cbn [sumn] in B. set (A := sumn n (fun j => Rabs (B2R (a j) * B2R (b j)))) in *. set (x := (B2R (a n) * B2R (b n))%R) in *. assert (A0 : (0 <= A)%R) by (apply sumn_nonneg; intros; apply Rabs_pos). pose proof (Rabs_pos x) as x0.
    destruct (IH a b ltac:(lia) (fun j J => F j ltac:(lia)) ltac:(fold A; lra)) as (s & Vs & Es). fold A in Es. set (S' := sumn n (fun j => (B2R (a j) * B2R (b j))%R)) in *.
    assert (HS : (Rabs S' <= A)%R) by apply sumn_abs. set (t := (/ 2 ^ 1074)%R) in *. pose proof u_tiny as U. assert (T : (0 < t <= 1)%R). { pose proof tn_range as (_ & T1 & T2 & _). pose proof tiny_u. fold t in T2. split; [apply Rinv_0_lt_compat, pow_lt|]; lra. }
    destruct (F n ltac:(lia)) as [Fa Fb]. assert (B500 : (1 <= 2 ^ 500)%R) by (apply pow_R1_Rle; lra).
    assert (BB : (1000 * 2 ^ 500 <= big)%R). { change (2 ^ 500)%R with (2 ^ Pos.to_nat 500)%R. rewrite pow_val. apply Rle_trans with (bpow radix2 10 * bpow radix2 500)%R; [apply Rmult_le_compat_r; [apply bpow_ge_0|change (bpow radix2 10) with 1024%R; lra]|]. rewrite <- bpow_plus. unfold big. apply bpow_le. lia. }
    pose proof (fmul_val _ _ _ _ (conj Fa eq_refl) (conj Fb eq_refl) ltac:(fold x; lra)) as Vp. fold x in Vp. pose proof (rn_sub x) as Ep. fold t in Ep. set (p := rn x) in *.
    assert (Nu : (0 <= INR n * u <= 1 / 1000000)%R). { assert (INR n <= 1048576)%R by (rewrite INR_IZR_INZ; apply (IZR_le _ 1048576); lia). rewrite u_num. split; [apply Rmult_le_pos; [apply pos_INR|lra]|]. apply Rle_trans with (1048576 * / 9007199254740992)%R; [apply Rmult_le_compat_r; lra|lra]. }
    assert (ux : (u * Rabs x <= 1 / 1000000000000 * Rabs x)%R) by (apply Rmult_le_compat_r; lra).
    assert (NA : (INR n * (2 * u * A) <= 1 / 500000 * A)%R) by (replace (INR n * (2 * u * A))%R with (INR n * u * (2 * A))%R by ring; apply Rle_trans with (1 / 1000000 * (2 * A))%R; [apply Rmult_le_compat_r; lra|lra]).
    assert (Nn : (0 <= INR n <= 1048576)%R) by (split; [apply pos_INR|rewrite INR_IZR_INZ; apply (IZR_le _ 1048576); lia]).
    assert (Ntt : (0 <= INR n * t)%R) by (apply Rmult_le_pos; lra). assert (tt : (t <= / 1000 * u)%R). { pose proof tn_range as (_ & T1 & T2 & _). pose proof tiny_u. fold t in T2. lra. }
    assert (Nt1 : (INR n * t <= 1)%R). { apply Rle_trans with (1048576 * (/ 1000 * (1 / 1000000000000)))%R; [apply Rmult_le_compat; lra|lra]. }
    assert (Hs : (Rabs s <= A + INR n * (2 * u * A + 2 * t))%R). { replace s with ((s - S') + S')%R by ring. apply Rle_trans with (1 := Rabs_triang _ _). lra. }
    assert (Hp : (Rabs p <= Rabs x + (u * Rabs x + t))%R). { replace p with ((p - x) + x)%R at 1 by ring. apply Rle_trans with (1 := Rabs_triang _ _). lra. }
    pose proof (Rabs_triang s p) as Tr. pose proof (fadd_val _ _ _ _ Vs Vp ltac:(lra)) as Vr. pose proof (rn_plus_err _ _ _ _ Vs Vp) as Er.
    exists (rn (s + p)). split; [exact Vr|]. cbn [sumn]. fold A x S'. rewrite S_INR.
    replace (rn (s + p) - (S' + x))%R with ((rn (s + p) - (s + p)) + ((s - S') + (p - x)))%R by ring. apply Rle_trans with (1 := Rabs_triang _ _). pose proof (Rabs_triang (s - S') (p - x)) as Tr2.
    destruct n as [|n'].
    + assert (Es0 : (Rabs (s - S') <= 0)%R) by (apply Rle_trans with (1 := Es); cbn [INR]; lra). assert (Z0 : s = 0%R). { pose proof (val_fun _ _ _ Vs zero_val) as Z. exact Z. }
      rewrite Z0 in Es0, Tr2 |- *. rewrite Rplus_0_l. destruct Vp as [Fp Bp]. rewrite <- Bp, rn_B2R, Rminus_diag_eq, Rabs_R0 by reflexivity. rewrite Bp. change (INR 0) with 0%R. assert (0 <= u * A)%R by (apply Rmult_le_pos; lra). assert (0 <= u * Rabs x)%R by (apply Rmult_le_pos; lra). lra.
    + set (n := S n') in *. assert (N1 : (1 <= INR n)%R) by (apply (le_INR 1); unfold n; lia).
      assert (W1 : (u * Rabs (s + p) <= u * (A + INR n * (2 * u * A + 2 * t) + (Rabs x + (u * Rabs x + t))))%R) by (apply Rmult_le_compat_l; lra).
      assert (W2 : (1 * (u * Rabs x) <= INR n * (u * Rabs x))%R) by (apply Rmult_le_compat_r; [apply Rmult_le_pos; lra|lra]).
      assert (W3 : (INR n * u * (u * A) <= 1 / 1000000 * (u * A))%R) by (apply Rmult_le_compat_r; [apply Rmult_le_pos; lra|lra]).
      assert (W4 : (u * (u * Rabs x) <= 1 / 1000000000000 * (u * Rabs x))%R) by (apply Rmult_le_compat_r; [apply Rmult_le_pos; lra|lra]).
      assert (W5 : (INR n * u * t <= 1 / 1000000 * t)%R) by (apply Rmult_le_compat_r; lra). assert (W6 : (u * t <= 1 / 1000000000000 * t)%R) by (apply Rmult_le_compat_r; lra).
      assert (0 <= u * A)%R by (apply Rmult_le_pos; lra). assert (0 <= u * Rabs x)%R by (apply Rmult_le_pos; lra). lra.
Qed.
Lemma two_1074 : (2 * / 2 ^ 1074 = / 2 ^ 1073)%R.
Proof. replace (2 ^ 1074)%R with (2 * 2 ^ 1073)%R by reflexivity. field. Qed.
Theorem C118_left_sum : blas_dot left_dot.
Proof.
  intros n a b N F B. destruct (left_near n a b N F B) as (s & [Fs Bs] & E). split; [exact Fs|]. rewrite Bs, u_52, <- two_1074. exact E.
Qed.
Print Assumptions C118_left_sum.


(** ---- four days from 2024-01-01, every draw 1 ---- *)
Definition fb_2024 : f_brownian := FBrownian (t_day 0) (t_day 4) 1 (fun _ _ => of_int 1) ACT360.
Definition f_ones : nat -> f_vec := fun _ _ => of_int 1.
Lemma one_val : val (of_int 1) 1.
Proof. apply (of_int_val 1). lia. Qed.
Lemma increments_2024 : exists incs dts, f_generate_increments left_dot fb_2024 one_day f_ones = Ok (incs, dts) /\ List.length incs = 4%nat /\ List.length dts = 4%nat /\
  (forall d, In d dts -> is_finite d = true /\ (1 / 400 <= B2R d <= 1 / 300)%R) /\ (forall w, In w incs -> is_finite (w 0%nat) = true /\ (Rabs (B2R (w 0%nat)) <= 1 / 10)%R).
Proof.
  pose proof (C118_grid left_dot fb_2024 bm_2024 one_day f_ones ones) as G.
  assert (E : snd (generate_increments bm_2024 one_day ones) = Ok (columns_from bm_2024 ones 0 [q1; q1; q1; q1], [q1; q1; q1; q1])).
  { unfold generate_increments. change (bm_start bm_2024) with (t_day 0). change (bm_end bm_2024) with (t_day 4). rewrite days_2024_ok.
    change (nth_error days_2024 (List.length days_2024 - 1)) with (Some (t_day 4)). change (dt_ltb (t_day 4) (t_day 4)) with false. cbv iota.
    replace (mapM _ (pairwise days_2024)) with (@Ok (list Q) [q1; q1; q1; q1]) by (vm_compute; reflexivity). reflexivity. }
  rewrite E in G. destruct G as (incs & dts & Hg & L & Lq & _ & D).
  { reflexivity. } { apply (day_ok 0); lia. } { apply (day_ok 4); lia. } { apply Z.leb_le. vm_compute. reflexivity. } { reflexivity. } { reflexivity. } { reflexivity. }
  exists incs, dts. split; [exact Hg|]. change (List.length [q1; q1; q1; q1]) with 4%nat in Lq. split; [rewrite L; exact Lq|]. split; [exact Lq|].
  assert (Dd : forall d, In d dts -> is_finite d = true /\ (1 / 400 <= B2R d <= 1 / 300)%R).
  { intros d I. apply In_nth_error in I. destruct I as [k I]. assert (K : (k < 4)%nat) by (rewrite <- Lq; apply nth_error_Some; rewrite I; discriminate).
    assert (Qk : nth_error [q1; q1; q1; q1] k = Some q1) by (destruct k as [|[|[|[|k]]]]; try reflexivity; lia).
    destruct (D k q1 Qk) as (d' & I' & Fd & Ed). rewrite I in I'. injection I' as <-. split; [exact Fd|]. rewrite q1_value in Ed.
    replace (IZR _ + 3)%R with 3%R in Ed by (change (year (dt_date (fb_end fb_2024)) - year (dt_date (fb_start fb_2024))) with (year 738890 - year 738886); replace (year 738890 - year 738886) with 0 by (vm_compute; reflexivity); lra).
    assert (P : (/ 2 ^ 46 <= 1 / 1000000)%R). { change (/ 2 ^ 46)%R with (/ 2 ^ Pos.to_nat 46)%R. rewrite two_pow. change (bpow radix2 (Zneg 46)) with (/ 70368744177664)%R. lra. }
    apply Rabs_le_inv in Ed. lra. }
  split; [exact Dd|]. intros w I. apply In_nth_error in I. destruct I as [k I]. assert (K : (k < 4)%nat) by (rewrite <- Lq, <- L; apply nth_error_Some; rewrite I; discriminate).
  destruct (nth_error dts k) as [d|] eqn:Dk; [|apply nth_error_None in Dk; lia]. destruct (Dd d (nth_error_In _ _ Dk)) as [Fd Bd].
  destruct one_val as [F1 B1].
  destruct (C118_increments left_dot fb_2024 one_day f_ones incs dts C118_left_sum Hg ltac:(discriminate) k 0%nat w d I Dk Fd ltac:(lra)) as [Fw Ew].
  { intros j J. change (is_finite (of_int 1) = true /\ (Rabs (B2R (of_int 1)) <= 1000)%R /\ is_finite (of_int 1) = true /\ (Rabs (B2R (of_int 1)) <= 100)%R). rewrite B1, Rabs_R1. repeat split; try exact F1; lra. }
  split; [exact Fw|]. change (fb_dim fb_2024) with 1%nat in Ew. cbn [sumn] in Ew. change (fb_chol fb_2024 0%nat 0%nat) with (of_int 1) in Ew. change (f_ones k 0%nat) with (of_int 1) in Ew. rewrite B1 in Ew. rewrite !Rmult_1_l, Rabs_R1, !Rplus_0_l, Rmult_1_r in Ew. change (INR 1) with 1%R in Ew. rewrite u_52 in Ew. pose proof u_tiny. pose proof tiny_u.
  assert (S : (0 <= sqrt (B2R d) <= 3 / 50)%R). { split; [apply sqrt_pos|]. replace (3 / 50)%R with (sqrt (3 / 50 * (3 / 50))) by (apply sqrt_square; lra). apply sqrt_le_1_alt. lra. }
  assert (u * sqrt (B2R d) <= 1 / 1000000000000 * (3 / 50))%R by (apply Rmult_le_compat; lra).
  replace (B2R (w 0%nat)) with ((B2R (w 0%nat) - sqrt (B2R d)) + sqrt (B2R d))%R by ring. apply Rle_trans with (1 := Rabs_triang _ _). rewrite (Rabs_pos_eq (sqrt (B2R d))) by lra. lra.
Qed.
Definition f_level : f64 := flit 1 (-4).
Definition f_vol : f64 := flit 1 (-7).
Definition f_rate : f64 := flit 1 (-5).
Lemma rate_vals : val f_level (1 / 16) /\ val f_vol (1 / 128) /\ val f_rate (1 / 32).
Proof.
  pose proof (flit_val 1 (-4) ltac:(lia) ltac:(lia)) as A. pose proof (flit_val 1 (-7) ltac:(lia) ltac:(lia)) as B. pose proof (flit_val 1 (-5) ltac:(lia) ltac:(lia)) as C.
  change (bpow radix2 (-4)) with (/ 16)%R in A. change (bpow radix2 (-7)) with (/ 128)%R in B. change (bpow radix2 (-5)) with (/ 32)%R in C.
  replace (1 / 16)%R with (1 * / 16)%R by field. replace (1 / 128)%R with (1 * / 128)%R by field. replace (1 / 32)%R with (1 * / 32)%R by field. repeat split; first [apply A|apply B|apply C].
Qed.
(** the exact paths exist *)
Fixpoint euler_values (level speed vol x0 : R) (incs : list f_vec) (dts : list f64) (k : nat) : R :=
  match k with O => x0 | S k => let x := euler_values level speed vol x0 incs dts k in (x + speed * (level - x) * B2R (nth k dts (of_int 0)) + vol * B2R (nth k incs (fun _ => of_int 0) 0%nat))%R end.
Fixpoint growth_values (mu sigma y0 : R) (incs : list f_vec) (dts : list f64) (k : nat) : R :=
  match k with O => y0 | S k => (growth_values mu sigma y0 incs dts k * (1 + mu * B2R (nth k dts (of_int 0)) + sigma * B2R (nth k incs (fun _ => of_int 0) 0%nat)))%R end.

(** the Brownian path and the Vasicek rate of these four days meet every hypothesis, and so does a geometric Brownian motion with
    drift 1/16 and volatility 1/128 *)
Example C118_case : exists incs dts p rates walk B x y, blas_dot left_dot /\ f_generate_increments left_dot fb_2024 one_day f_ones = Ok (incs, dts) /\ List.length dts = 4%nat /\
  f_bm_generate_path left_dot fb_2024 one_day f_ones = Ok p /\ ordinary_draws fb_2024 f_ones 0 (List.length dts) /\
  f_vasicek_path left_dot f_level (of_int 1) f_vol fb_2024 one_day f_rate f_ones = Ok rates /\ (0 <= B2R (of_int 1) <= 2 ^ 100)%R /\
  (forall d, In d dts -> is_finite d = true /\ (0 <= B2R d <= 10000)%R /\ (B2R (of_int 1) * B2R d <= 1)%R /\ (Rabs (B2R f_level * B2R d) <= 1 / 4)%R) /\
  (forall w, In w incs -> is_finite (w 0%nat) = true /\ (Rabs (B2R (w 0%nat)) <= 10000)%R /\ (Rabs (B2R f_vol * B2R (w 0%nat)) <= 1 / 4)%R) /\
  (/ 2 ^ 900 <= B <= 2 ^ 400)%R /\ (Rmax (Rabs (B2R f_rate)) (Rabs (B2R f_level)) + shocks (B2R f_vol) incs <= B)%R /\ x 0%nat = B2R f_rate /\
  (forall k w d, nth_error incs k = Some w -> nth_error dts k = Some d -> x (S k) = x k + B2R (of_int 1) * (B2R f_level - x k) * B2R d + B2R f_vol * B2R (w 0%nat))%R /\
  f_gbm_path left_dot f_level f_vol fb_2024 one_day (fun _ => f_rate) f_ones = Ok walk /\ y 0%nat = B2R f_rate /\
  (forall k w d, nth_error incs k = Some w -> nth_error dts k = Some d -> y (S k) = y k * (1 + B2R f_level * B2R d + B2R f_vol * B2R (w 0%nat)))%R /\
  (forall k, (k <= List.length dts)%nat -> / 2 ^ 400 <= Rabs (y k) <= 2 ^ 400)%R.
Proof.
  destruct increments_2024 as (incs & dts & Hg & Li & Ld & Hd & Hw). destruct rate_vals as ([Fl Bl] & [Fv Bv] & [Fr Br]). destruct one_val as [F1 B1].
  set (x := euler_values (B2R f_level) (B2R (of_int 1)) (B2R f_vol) (B2R f_rate) incs dts). set (y := growth_values (B2R f_level) (B2R f_vol) (B2R f_rate) incs dts).
  assert (Dn : forall k d, nth_error dts k = Some d -> nth k dts (of_int 0) = d) by (intros k d H; apply nth_error_nth; exact H).
  assert (Wn : forall k w, nth_error incs k = Some w -> nth k incs (fun _ => of_int 0) = w) by (intros k w H; apply nth_error_nth; exact H).
  assert (D1 : forall d, In d dts -> is_finite d = true /\ (0 <= B2R d <= 10000)%R /\ (B2R (of_int 1) * B2R d <= 1)%R /\ (Rabs (B2R f_level * B2R d) <= 1 / 4)%R).
  { intros d I. destruct (Hd d I) as [Fd Bd]. rewrite B1, Bl. split; [exact Fd|]. split; [lra|]. split; [lra|]. apply Rabs_le. lra. }
  assert (W1 : forall w, In w incs -> is_finite (w 0%nat) = true /\ (Rabs (B2R (w 0%nat)) <= 10000)%R /\ (Rabs (B2R f_vol * B2R (w 0%nat)) <= 1 / 4)%R).
  { intros w I. destruct (Hw w I) as [Fw Bw]. rewrite Bv. split; [exact Fw|]. split; [lra|]. rewrite Rabs_mult, (Rabs_pos_eq (1 / 128)) by lra. lra. }
  exists incs, dts, (f_cumsum incs), (f_vasicek_loop left_dot f_level (of_int 1) f_vol f_rate (combine incs dts)), (f_gbm_loop f_level f_vol (fun _ => f_rate) (combine incs dts)), 1%R, x, y.
  split; [exact C118_left_sum|]. split; [exact Hg|]. split; [exact Ld|]. split; [unfold f_bm_generate_path; rewrite Hg; reflexivity|].
  split. { intros k j _ _. change (is_finite (of_int 1) = true /\ (Rabs (B2R (of_int 1)) <= 1000)%R /\ is_finite (of_int 1) = true /\ (Rabs (B2R (of_int 1)) <= 100)%R). rewrite B1, Rabs_R1. repeat split; try exact F1; lra. }
  split; [unfold f_vasicek_path; rewrite Hg; reflexivity|]. split; [rewrite B1; pose proof one_100; lra|]. split; [exact D1|]. split; [exact W1|].
  split. { split; [|apply pow_R1_Rle; lra]. rewrite <- Rinv_1. apply Rinv_le_contravar; [lra|apply pow_R1_Rle; lra]. }
  split. { rewrite Br, Bl, Bv, !Rabs_pos_eq by lra. rewrite Rmax_right by lra. destruct incs as [|w1 [|w2 [|w3 [|w4 [|w5 l]]]]]; try discriminate Li.
    destruct (W1 w1 ltac:(cbn; auto)) as (_ & _ & H1). destruct (W1 w2 ltac:(cbn; auto)) as (_ & _ & H2). destruct (W1 w3 ltac:(cbn; auto)) as (_ & _ & H3). destruct (W1 w4 ltac:(cbn; auto)) as (_ & _ & H4).
    pose proof (Hw w1 ltac:(cbn; auto)) as [_ G1]. pose proof (Hw w2 ltac:(cbn; auto)) as [_ G2]. pose proof (Hw w3 ltac:(cbn; auto)) as [_ G3]. pose proof (Hw w4 ltac:(cbn; auto 6)) as [_ G4].
    change (1 / 16 + (Rabs (1 / 128 * B2R (w1 0%nat)) + (Rabs (1 / 128 * B2R (w2 0%nat)) + (Rabs (1 / 128 * B2R (w3 0%nat)) + (Rabs (1 / 128 * B2R (w4 0%nat)) + 0)))) <= 1)%R.
    rewrite !Rabs_mult, (Rabs_pos_eq (1 / 128)) by lra. lra. }
  split; [reflexivity|]. split. { intros k w d W D. unfold x. cbn [euler_values]. rewrite (Dn k d D), (Wn k w W). reflexivity. }
  split; [unfold f_gbm_path; rewrite Hg; reflexivity|]. split; [reflexivity|].
  assert (Ry : (forall k w d, nth_error incs k = Some w -> nth_error dts k = Some d -> y (S k) = y k * (1 + B2R f_level * B2R d + B2R f_vol * B2R (w 0%nat)))%R).
  { intros k w d W D. unfold y. cbn [growth_values]. rewrite (Dn k d D), (Wn k w W). reflexivity. }
  split; [exact Ry|].
  assert (Py : forall k, (k <= 4)%nat -> ((1 / 2) ^ k * (1 / 32) <= y k <= 2 ^ k * (1 / 32))%R).
  { induction k as [|k IH]; intros K; [change (y 0%nat) with (B2R f_rate); rewrite Br; cbn; lra|]. specialize (IH ltac:(lia)).
    destruct (nth_error incs k) as [w|] eqn:W; [|apply nth_error_None in W; lia]. destruct (nth_error dts k) as [d|] eqn:D; [|apply nth_error_None in D; lia].
    rewrite (Ry k w d W D). destruct (D1 d (nth_error_In _ _ D)) as (_ & _ & _ & A1). destruct (W1 w (nth_error_In _ _ W)) as (_ & _ & A2). apply Rabs_le_inv in A1, A2. set (f := (1 + _ + _)%R). assert (Hf : (1 / 2 <= f <= 2)%R) by (unfold f; lra).
    assert (0 <= (1 / 2) ^ k)%R by (apply pow_le; lra). change ((1 / 2) ^ S k)%R with (1 / 2 * (1 / 2) ^ k)%R. change (2 ^ S k)%R with (2 * 2 ^ k)%R. split.
    - replace (1 / 2 * (1 / 2) ^ k * (1 / 32))%R with ((1 / 2) ^ k * (1 / 32) * (1 / 2))%R by ring. apply Rmult_le_compat; lra.
    - replace (2 * 2 ^ k * (1 / 32))%R with (2 ^ k * (1 / 32) * 2)%R by ring. apply Rmult_le_compat; lra. }
  intros k K. rewrite Ld in K. specialize (Py k K).
  assert (Hh : ((1 / 2) ^ 4 <= (1 / 2) ^ k)%R). { destruct k as [|[|[|[|[|k]]]]]; cbn; try lra. lia. }
  assert (Ht : (2 ^ k <= 2 ^ 4)%R) by (apply Rle_pow; [lra|lia]). cbn in Hh. rewrite Rabs_pos_eq by lra.
  assert (P : (/ 2 ^ 400 <= / 2 ^ 10)%R) by (apply Rinv_le_contravar; [apply pow_lt; lra|apply Rle_pow; [lra|lia]]). assert (P' : (2 ^ 10 <= 2 ^ 400)%R) by (apply Rle_pow; [lra|lia]). lra.
Qed.
