(** Property theorems C82-C85: the day counts as the program computes them, in binary64, against the exact day counts. *)
From Verif Require Import Base PyDate PyDateFacts DayCount DayCountFacts Float FloatDayCount FloatFacts.
From Coq Require Import Reals Qreals Lra Lia.
From Flocq Require Import Core BinarySingleNaN.
Open Scope Z_scope.

(** ---- exact values as reals ---- *)
Lemma Q2R_inj n : Q2R (inject_Z n) = IZR n.
Proof. unfold Q2R, inject_Z. cbn. field. Qed.
Lemma Q2R_quot n m : m <> 0 -> Q2R (inject_Z n / inject_Z m) = (IZR n / IZR m)%R.
Proof. intros M. rewrite Q2R_div, !Q2R_inj; [reflexivity|]. apply inject_nz. exact M. Qed.
Lemma u_small : (0 < u < 1 / 1000000)%R.
Proof. unfold u. split; [apply bpow_gt_0|]. apply Rlt_trans with (bpow radix2 (-20)); [apply bpow_lt; reflexivity|]. cbn. lra. Qed.
Lemma small_lt : (0 < small < 1 / 1000000)%R.
Proof. unfold small. split; [apply bpow_gt_0|]. apply Rlt_trans with (bpow radix2 (-20)); [apply bpow_lt; reflexivity|]. cbn. lra. Qed.
Lemma big_gt x : (x <= IZR (2 ^ 100))%R -> (x <= big)%R.
Proof. intros H. apply Rle_trans with (1 := H). change (IZR (2 ^ 100)) with (bpow radix2 100). unfold big. apply bpow_le. lia. Qed.

Lemma quot_range n m : Z.abs n <= 2 ^ 53 -> 0 < m <= 1000000 -> (IZR n / IZR m = 0 \/ small <= Rabs (IZR n / IZR m))%R /\ (Rabs (IZR n / IZR m) <= big)%R /\ (Rabs (IZR n / IZR m) <= Rabs (IZR n))%R.
Proof.
  intros N M. assert (Mp : (1 <= IZR m <= 1000000)%R) by (split; apply IZR_le; lia).
  unfold Rdiv. rewrite Rabs_mult, (Rabs_pos_eq (/ IZR m)) by (apply Rlt_le, Rinv_0_lt_compat; lra).
  assert (I : (1 / 1000000 <= / IZR m <= 1)%R).
  { split; [unfold Rdiv; rewrite Rmult_1_l; apply Rinv_le; lra|]. rewrite <- Rinv_1. apply Rinv_le; lra. }
  assert (L : (Rabs (IZR n) * / IZR m <= Rabs (IZR n))%R) by (rewrite <- Rmult_1_r; apply Rmult_le_compat_l; [apply Rabs_pos|lra]).
  split; [|split; [|exact L]].
  - destruct (Z.eq_dec n 0) as [-> | NZ]; [left; lra|right]. assert (1 <= Rabs (IZR n))%R by (rewrite <- abs_IZR; apply IZR_le; lia).
    pose proof small_lt. apply Rle_trans with (1 * (1 / 1000000))%R; [lra|]. apply Rmult_le_compat; lra.
  - apply big_gt. apply Rle_trans with (1 := L). rewrite <- abs_IZR. apply IZR_le. lia.
Qed.
Lemma quot_val n m y : Z.abs n <= 2 ^ 53 -> 0 < m <= 1000000 -> val y (IZR m) ->
  exists x, fdiv (of_int n) y = Ok x /\ val x (rn (IZR n / IZR m)).
Proof.
  intros N M Y. apply fdiv_val; [apply of_int_val; exact N|exact Y| |apply quot_range; assumption].
  apply not_0_IZR. lia.
Qed.
Lemma int_div_val n m : Z.abs n <= 2 ^ 53 -> 0 < m <= 1000000 -> exists x, int_div n m = Ok x /\ val x (rn (IZR n / IZR m)).
Proof. intros N M. apply quot_val; auto. apply of_int_val. lia. Qed.

(** ---- the conventions on dates, in either order ---- *)
Definition q_fun (c : dcc) : date -> date -> res Q :=
  match c with ACT360 => dcc_act_over_360 | ACT365 => dcc_act_over_365 | ACT365_25 => dcc_act_over_365_25 | ACTACT => dcc_act_over_act | THIRTY360 => dcc_30_over_360 end.
Definition f_fun (c : dcc) : date -> date -> res f64 :=
  match c with ACT360 => f_act_over_360 | ACT365 => f_act_over_365 | ACT365_25 => f_act_over_365_25 | ACTACT => f_act_over_act | THIRTY360 => f_30_over_360 end.
Definition span (s e : date) : Z := Z.abs (year e - year s).

Lemma span_days s e : Z.abs (e - s) <= 366 * (span s e + 1).
Proof.
  unfold span. destruct (year_yday_spec s) as [Hs Bs], (year_yday_spec e) as [He Be].
  pose proof (yearlen_bounds (year s)). pose proof (yearlen_bounds (year e)).
  assert (G : forall a b, a <= b -> 0 <= days_before_year b - days_before_year a <= 366 * (b - a)).
  { intros a b L. replace b with (a + Z.of_nat (Z.to_nat (b - a))) by lia. generalize (Z.to_nat (b - a)). clear. intros n. induction n as [|n IH]; [replace (a + Z.of_nat 0) with a by lia; lia|].
    replace (a + Z.of_nat (S n)) with (a + Z.of_nat n + 1) by lia. rewrite dby_succ. pose proof (yearlen_bounds (a + Z.of_nat n)). lia. }
  destruct (Z.le_ge_cases (year s) (year e)) as [L|L]; pose proof (G _ _ L); lia.
Qed.
Lemma ok_days s e : date_ok s -> date_ok e -> Z.abs (e - s) <= 4000000.
Proof. unfold date_ok, min_date, max_date. lia. Qed.
Lemma ok_span s e : date_ok s -> date_ok e -> 0 <= span s e <= 9998.
Proof. intros A B. apply date_ok_year in A, B. unfold span. lia. Qed.
Lemma thirty_bound s e : Z.abs (days_30_360 s e) <= 360 * span s e + 360.
Proof.
  unfold span. destruct (day_bounds s) as (Ds & Ms & _), (day_bounds e) as (De & Me & _). unfold days_30_360.
  destruct ((month s =? 2) && (day s =? 28)), ((month e =? 2) && (day e =? 28)); cbn [andb orb];
  repeat match goal with |- context [if ?b then _ else _] => destruct b end; lia.
Qed.

Lemma rel_bound n m k : Z.abs n <= 2 ^ 53 -> 0 < m <= 1000000 -> Z.abs n <= m * k ->
  let q := (IZR n / IZR m)%R in (Rabs (rn q - q) <= u * Rabs q)%R /\ (Rabs q <= IZR k)%R.
Proof.
  intros N M K q. destruct (quot_range n m N M) as (S0 & _). split; [apply rn_err; exact S0|].
  unfold q, Rdiv. assert (Mp : (0 < IZR m)%R) by (apply IZR_lt; lia). rewrite Rabs_mult, (Rabs_pos_eq (/ IZR m)) by (apply Rlt_le, Rinv_0_lt_compat; exact Mp).
  rewrite <- abs_IZR. apply Rmult_le_reg_r with (IZR m); [exact Mp|]. rewrite Rmult_assoc, Rinv_l, Rmult_1_r by lra. rewrite <- mult_IZR. apply IZR_le. lia.
Qed.

(** what is shown of one evaluation *)
Definition close (s e : date) (q : Q) (v : R) : Prop :=
  (Rabs (v - Q2R q) <= 4 * u * (2 * IZR (span s e) + 3))%R /\ (Rabs (Q2R q) <= 2 * IZR (span s e) + 3)%R /\ (s <= e -> (Rabs (v - Q2R q) <= 4 * u * Rabs (Q2R q))%R).

Lemma close_quot s e q n m : (Q2R q = IZR n / IZR m)%R -> Z.abs n <= 2 ^ 53 -> 0 < m <= 1000000 -> Z.abs n <= m * (2 * span s e + 3) ->
  close s e q (rn (Q2R q)).
Proof.
  intros E N M K. destruct (rel_bound n m _ N M K) as (R1 & R2). rewrite plus_IZR, mult_IZR in R2. unfold close. rewrite E.
  pose proof u_small. pose proof (Rabs_pos (IZR n / IZR m)) as P. split; [|split; [exact R2|intros _]].
  - apply Rle_trans with (1 := R1). apply Rle_trans with (u * (2 * IZR (span s e) + 3))%R; [apply Rmult_le_compat_l; lra|]. nra.
  - nra.
Qed.

Lemma actact_sum w A B a b : (Rabs (a - A) <= u * A -> Rabs (b - B) <= u * B -> 0 <= A <= 1 -> 0 <= B <= 1 ->
  forall c d, Rabs (c - (w + a)) <= u * Rabs (w + a) -> Rabs (d - (c + b)) <= u * Rabs (c + b) ->
  Rabs (d - (w + A + B)) <= 4 * u * (Rabs w + A + B))%R.
Proof.
  intros Ha Hb PA PB c d Hc Hd. pose proof u_small as U.
  assert (X1 : (Rabs (w + a) <= Rabs w + (1 + u) * A)%R).
  { apply Rle_trans with (Rabs w + Rabs a)%R; [apply Rabs_triang|]. replace a with (A + (a - A))%R by ring.
    pose proof (Rabs_triang A (a - A)) as T. rewrite (Rabs_pos_eq A) in T by lra. lra. }
  assert (X2 : (Rabs (c + b) <= (1 + u) * (Rabs w + (1 + u) * A) + (1 + u) * B)%R).
  { replace (c + b)%R with ((c - (w + a)) + (w + a) + (B + (b - B)))%R by ring.
    pose proof (Rabs_triang (c - (w + a) + (w + a)) (B + (b - B))). pose proof (Rabs_triang (c - (w + a)) (w + a)).
    pose proof (Rabs_triang B (b - B)). rewrite (Rabs_pos_eq B) in * by lra. pose proof (Rabs_pos (w + a)). nra. }
  replace (d - (w + A + B))%R with ((d - (c + b)) + (c - (w + a)) + (a - A) + (b - B))%R by ring.
  pose proof (Rabs_triang (d - (c + b) + (c - (w + a)) + (a - A)) (b - B)). pose proof (Rabs_triang (d - (c + b) + (c - (w + a))) (a - A)).
  pose proof (Rabs_triang (d - (c + b)) (c - (w + a))). pose proof (Rabs_pos w) as Pw.
  assert (Y1 : (u * Rabs (w + a) <= u * (Rabs w + (1 + u) * A))%R) by (apply Rmult_le_compat_l; lra).
  assert (Y2 : (u * Rabs (c + b) <= u * ((1 + u) * (Rabs w + (1 + u) * A) + (1 + u) * B))%R) by (apply Rmult_le_compat_l; lra).
  assert (U0 : forall t, (0 <= t -> 0 <= u * t <= t / 1000000)%R) by (intros t Pt; split; [apply Rmult_le_pos; lra|]; unfold Rdiv; rewrite (Rmult_comm u); apply Rmult_le_compat_l; lra).
  assert (K : (((1 + u) * (Rabs w + (1 + u) * A) + (1 + u) * B) + (Rabs w + (1 + u) * A) + A + B <= 4 * (Rabs w + A + B))%R).
  { pose proof (U0 (Rabs w) Pw). pose proof (U0 A ltac:(lra)) as UA. pose proof (U0 B ltac:(lra)). pose proof (U0 (u * A)%R ltac:(lra)). lra. }
  apply (Rmult_le_compat_l u) in K; lra.
Qed.

Lemma year_frac n L : 0 <= n <= L -> 365 <= L <= 366 -> (0 <= IZR n / IZR L <= 1)%R.
Proof.
  intros N K. assert (0 < IZR L)%R by (apply IZR_lt; lia). split.
  - apply Rmult_le_pos; [apply IZR_le; lia|]. apply Rlt_le, Rinv_0_lt_compat. assumption.
  - apply Rmult_le_reg_r with (IZR L); [assumption|]. unfold Rdiv. rewrite Rmult_assoc, Rinv_l by lra. rewrite Rmult_1_r, Rmult_1_l. apply IZR_le. lia.
Qed.

Lemma fun_close c s e q : date_ok s -> date_ok e -> q_fun c s e = Ok q ->
  exists x v, f_fun c s e = Ok x /\ val x v /\ close s e q v /\ (c <> ACTACT \/ year s = year e -> v = rn (Q2R q)).
Proof.
  intros Os Oe H. pose proof (ok_days s e Os Oe) as D. pose proof (ok_span s e Os Oe) as Sp. pose proof (span_days s e) as Sd. pose proof (thirty_bound s e) as Tb.
  assert (One : forall n m y, q_fun c s e = Ok q -> (Q2R q = IZR n / IZR m)%R -> f_fun c s e = fdiv (of_int n) y -> val y (IZR m) -> Z.abs n <= 2 ^ 53 -> 0 < m <= 1000000 -> Z.abs n <= m * (2 * span s e + 3) ->
     exists x v, f_fun c s e = Ok x /\ val x v /\ close s e q v /\ (c <> ACTACT \/ year s = year e -> v = rn (Q2R q))).
  { intros n m y _ E F Y N M K. destruct (quot_val n m y N M Y) as (x & X & V). exists x, (rn (Q2R q)). rewrite F, E. rewrite <- E. split; [exact X|].
    rewrite <- E in V. split; [exact V|]. split; [eapply close_quot; eauto|]. reflexivity. }
  destruct c.
  - injection H as <-. apply (One (e - s) 360 (of_int 360)); try reflexivity; try lia; [apply Q2R_quot; lia|apply of_int_val; lia].
  - injection H as <-. apply (One (e - s) 365 (of_int 365)); try reflexivity; try lia; [apply Q2R_quot; lia|apply of_int_val; lia].
  - injection H as <-.
    assert (E : (Q2R (inject_Z (e - s) / (1461 # 4)) = IZR (4 * (e - s)) / IZR 1461)%R).
    { rewrite Q2R_div, Q2R_inj by discriminate. unfold Q2R at 1. cbn [Qnum Qden]. rewrite mult_IZR. field. }
    assert (V4 : val (flit 1461 (-2)) (1461 / 4)) by (pose proof (flit_val 1461 (-2) ltac:(lia) ltac:(lia)) as V; replace (1461 / 4)%R with (1461 * bpow radix2 (-2))%R by (cbn; lra); exact V).
    destruct (fdiv_val (of_int (e - s)) (flit 1461 (-2)) (IZR (e - s)) (1461 / 4)) as (x & X & V); [apply of_int_val; lia|exact V4|lra| |].
    { apply big_gt. unfold Rdiv. rewrite Rabs_mult, <- abs_IZR. apply Rle_trans with (IZR (Z.abs (e - s)) * 1)%R.
      - apply Rmult_le_compat_l; [apply IZR_le; lia|]. rewrite Rabs_pos_eq; lra.
      - rewrite Rmult_1_r. apply IZR_le. lia. }
    exists x, (rn (Q2R (inject_Z (e - s) / (1461 # 4)))). split; [exact X|].
    replace (IZR (e - s) / (1461 / 4))%R with (Q2R (inject_Z (e - s) / (1461 # 4))) in V by (rewrite E, mult_IZR; field).
    split; [exact V|]. split; [|reflexivity]. apply (close_quot _ _ _ (4 * (e - s)) 1461); [exact E|lia|lia|lia].
  - change (dcc_act_over_act s e = Ok q) in H. change (f_fun ACTACT s e) with (f_act_over_act s e). unfold dcc_act_over_act, f_act_over_act in *.
    destruct (mk_date (year s) 12 31) as [a1|] eqn:M1; [|discriminate]. cbn [bind] in *. destruct (mk_date (year s - 1) 12 31) as [a2|] eqn:M2; [|discriminate]. cbn [bind] in *.
    destruct (mk_date (year e) 12 31) as [a3|] eqn:M3; [|discriminate]. cbn [bind] in *. destruct (mk_date (year e - 1) 12 31) as [a4|] eqn:M4; [|discriminate]. cbn [bind] in *.
    assert (Y2 : forall y a, mk_date (y - 1) 12 31 = Ok a -> 1 <= y - 1) by (intros y a Q; apply mk_date_ok in Q; lia).
    pose proof (Y2 _ _ M2). pose proof (Y2 _ _ M4). clear Y2. pose proof (proj1 (date_ok_year s) Os). pose proof (proj1 (date_ok_year e) Oe).
    rewrite dec31 in M1, M2, M3, M4 by lia. injection M1 as <-. injection M2 as <-. injection M3 as <-. injection M4 as <-. rewrite !dby_pred in *.
    destruct (year_yday_spec s) as [Hs Bs], (year_yday_spec e) as [He Be]. pose proof (yearlen_bounds (year s)) as Ls. pose proof (yearlen_bounds (year e)) as Le.
    replace (days_before_year (year s) + yearlen (year s) - days_before_year (year s)) with (yearlen (year s)) in * by lia.
    replace (days_before_year (year e) + yearlen (year e) - days_before_year (year e)) with (yearlen (year e)) in * by lia.
    destruct (Z.eqb_spec (year s) (year e)) as [Y|Y].
    + injection H as <-. destruct (int_div_val (e - s) (yearlen (year e))) as (x & X & V); [lia|lia|]. exists x, (rn (Q2R (inject_Z (e - s) / inject_Z (yearlen (year e))))).
      split; [exact X|]. rewrite Q2R_quot by lia. split; [exact V|]. split; [|reflexivity]. rewrite <- Q2R_quot by lia.
      apply (close_quot _ _ _ (e - s) (yearlen (year e))); [apply Q2R_quot; lia|lia|lia|].
      assert (Sz : span s e = 0) by (unfold span; lia). rewrite Sz in *. lia.
    + injection H as <-. set (nA := days_before_year (year s) + yearlen (year s) - s) in *. set (nB := e - days_before_year (year e)) in *.
      set (LA := yearlen (year s)) in *. set (LB := yearlen (year e)) in *.
      assert (RA : 0 <= nA <= LA) by (unfold nA, LA in *; lia). assert (RB : 0 <= nB <= LB) by (unfold nB, LB in *; lia).
      destruct (int_div_val nA LA) as (x1 & X1 & V1); [lia|lia|]. destruct (int_div_val nB LB) as (x2 & X2 & V2); [lia|lia|]. rewrite X1, X2. cbn [bind].
      set (w := year e - year s - 1) in *. assert (Vw : val (of_int w) (IZR w)) by (apply of_int_val; lia).
      pose proof (year_frac nA LA RA Ls) as FA. pose proof (year_frac nB LB RB Le) as FB. set (A := (IZR nA / IZR LA)%R) in *. set (B := (IZR nB / IZR LB)%R) in *.
      assert (EA : (Rabs (rn A - A) <= u * A)%R) by (rewrite <- (Rabs_pos_eq A) at 3 by lra; apply rn_err, (quot_range nA LA); lia).
      assert (EB : (Rabs (rn B - B) <= u * B)%R) by (rewrite <- (Rabs_pos_eq B) at 3 by lra; apply rn_err, (quot_range nB LB); lia).
      pose proof u_small as U.
      assert (Wb : (Rabs (IZR w) <= 20000)%R) by (rewrite <- abs_IZR; apply IZR_le; lia).
      assert (A2 : (Rabs (rn A) <= 2)%R) by (replace (rn A) with (A + (rn A - A))%R by ring; pose proof (Rabs_triang A (rn A - A)); rewrite (Rabs_pos_eq A) in * by lra; nra).
      assert (B2 : (Rabs (rn B) <= 2)%R) by (replace (rn B) with (B + (rn B - B))%R by ring; pose proof (Rabs_triang B (rn B - B)); rewrite (Rabs_pos_eq B) in * by lra; nra).
      assert (C1 : (Rabs (IZR w + rn A) <= 20002)%R) by (pose proof (Rabs_triang (IZR w) (rn A)); lra).
      assert (V3 : val (fadd (of_int w) x1) (rn (IZR w + rn A))) by (apply fadd_val; auto; apply big_gt; apply Rle_trans with (1 := C1); apply IZR_le; lia).
      pose proof (rn_plus_err _ _ _ _ Vw V1) as E3.
      assert (C2 : (Rabs (rn (IZR w + rn A)) <= 30000)%R).
      { replace (rn (IZR w + rn A)) with ((IZR w + rn A) + (rn (IZR w + rn A) - (IZR w + rn A)))%R by ring.
        pose proof (Rabs_triang (IZR w + rn A) (rn (IZR w + rn A) - (IZR w + rn A))). nra. }
      assert (V4 : val (fadd (fadd (of_int w) x1) x2) (rn (rn (IZR w + rn A) + rn B))).
      { apply fadd_val; auto. apply big_gt. apply Rle_trans with 40000%R; [pose proof (Rabs_triang (rn (IZR w + rn A)) (rn B)); lra|apply IZR_le; lia]. }
      pose proof (rn_plus_err _ _ _ _ V3 V2) as E4.
      exists (fadd (fadd (of_int w) x1) x2), (rn (rn (IZR w + rn A) + rn B)). split; [reflexivity|]. split; [exact V4|]. split; [|intros [N|N]; [exfalso; apply N; reflexivity|contradiction]].
      pose proof (actact_sum (IZR w) A B (rn A) (rn B) EA EB FA FB _ _ E3 E4) as T.
      assert (QE : Q2R (inject_Z w + inject_Z nA / inject_Z LA + inject_Z nB / inject_Z LB) = (IZR w + A + B)%R).
      { rewrite !Q2R_plus, Q2R_inj, !Q2R_quot by lia. reflexivity. }
      unfold close. rewrite QE.
      assert (Ws : (Rabs (IZR w) <= IZR (span s e) + 1)%R) by (rewrite <- abs_IZR, <- plus_IZR; apply IZR_le; unfold w, span; lia).
      assert (Sp' : (0 <= IZR (span s e))%R) by (apply IZR_le; lia).
      split; [|split].
      * apply Rle_trans with (1 := T). apply Rmult_le_compat_l; lra.
      * pose proof (Rabs_triang (IZR w + A) B). pose proof (Rabs_triang (IZR w) A). rewrite (Rabs_pos_eq A), (Rabs_pos_eq B) in * by lra. lra.
      * intros L. apply Rle_trans with (1 := T). apply Rmult_le_compat_l; [lra|]. pose proof (year_mono s e L).
        assert (Wp : (0 <= IZR w)%R) by (apply IZR_le; unfold w; lia). rewrite (Rabs_pos_eq (IZR w)), (Rabs_pos_eq (IZR w + A + B)) by lra. lra.
  - injection H as <-. apply (One (days_30_360 s e) 360 (of_int 360)); try reflexivity; try lia; [apply Q2R_quot; lia|apply of_int_val; lia].
Qed.
Lemma fun_err c s e x : f_fun c s e = Ok x -> exists q, q_fun c s e = Ok q.
Proof.
  destruct c; cbn [f_fun q_fun]; try (intros _; eexists; reflexivity). unfold f_act_over_act, dcc_act_over_act.
  destruct (mk_date (year s) 12 31); [|discriminate]. cbn [bind]. destruct (mk_date (year s - 1) 12 31); [|discriminate]. cbn [bind].
  destruct (mk_date (year e) 12 31); [|discriminate]. cbn [bind]. destruct (mk_date (year e - 1) 12 31); [|discriminate]. cbn [bind]. intros _. destruct (year s =? year e); eauto.
Qed.
Lemma int_err n m e : fdiv (of_int n) (of_int m) = Err e -> 0 < m <= 1000000 -> False.
Proof. intros H M. unfold fdiv in H. rewrite (fzero_val (of_int m) (IZR m)) in H; [discriminate|apply of_int_val; lia|apply not_0_IZR; lia]. Qed.
Lemma fun_errs c s e err : f_fun c s e = Err err <-> q_fun c s e = Err err.
Proof.
  destruct c; cbn [f_fun q_fun].
  - unfold f_act_over_360, dcc_act_over_360. split; [intros H; exfalso; apply (int_err _ _ _ H); lia|discriminate].
  - unfold f_act_over_365, dcc_act_over_365. split; [intros H; exfalso; apply (int_err _ _ _ H); lia|discriminate].
  - unfold f_act_over_365_25, dcc_act_over_365_25, fdiv. replace (fzero (flit 1461 (-2))) with false by (vm_compute; reflexivity). split; discriminate.
  - unfold f_act_over_act, dcc_act_over_act. destruct (mk_date (year s) 12 31) as [a1|] eqn:M1; [|cbn; split; congruence]. cbn [bind]. destruct (mk_date (year s - 1) 12 31) as [a2|] eqn:M2; [|cbn; split; congruence]. cbn [bind].
    destruct (mk_date (year e) 12 31) as [a3|] eqn:M3; [|cbn; split; congruence]. cbn [bind]. destruct (mk_date (year e - 1) 12 31) as [a4|] eqn:M4; [|cbn; split; congruence]. cbn [bind].
    assert (L : forall y a b, mk_date y 12 31 = Ok a -> mk_date (y - 1) 12 31 = Ok b -> 0 < a - b <= 1000000).
    { intros y a b Ha Hb. assert (1 <= y - 1 /\ y <= 9999) by (apply mk_date_ok in Ha, Hb; lia). rewrite dec31 in Ha, Hb by lia. injection Ha as <-. injection Hb as <-. rewrite dby_pred. pose proof (yearlen_bounds y). lia. }
    pose proof (L _ _ _ M1 M2) as L1. pose proof (L _ _ _ M3 M4) as L2.
    destruct (year s =? year e); [split; [intros H; exfalso; exact (int_err _ _ _ H L2)|discriminate]|].
    split; [|discriminate]. destruct (int_div _ (a1 - a2)) as [x1|] eqn:X1; cbn [bind]; [|intros _; exfalso; exact (int_err _ _ _ X1 L1)].
    destruct (int_div _ (a3 - a4)) as [x2|] eqn:X2; cbn [bind]; [discriminate|intros _; exfalso; exact (int_err _ _ _ X2 L2)].
  - unfold f_30_over_360, dcc_30_over_360. split; [intros H; exfalso; apply (int_err _ _ _ H); lia|discriminate].
Qed.

Lemma f_compute_days s e c : f_compute_accrual_length (Day s) (Day e) c = if s <=? e then f_fun c s e else Err ValueError.
Proof. unfold f_compute_accrual_length. rewrite check_days. destruct (s <=? e); destruct c; reflexivity. Qed.
Lemma q_compute_days s e c : compute_accrual_length (Day s) (Day e) c = if s <=? e then q_fun c s e else Err ValueError.
Proof. unfold compute_accrual_length. rewrite check_days. destruct (s <=? e); destruct c; reflexivity. Qed.
Lemma u_pow k : (k <= 53)%nat -> (u * 2 ^ k = / 2 ^ (53 - k))%R.
Proof.
  intros K. assert (E : (u = / 2 ^ 53)%R). { unfold u. change (bpow radix2 (-53)) with (/ IZR (2 ^ 53))%R. f_equal. rewrite pow_IZR. reflexivity. }
  rewrite E. replace 53%nat with ((53 - k) + k)%nat at 1 by lia. rewrite pow_add. field. split; apply pow_nonzero; lra.
Qed.
Lemma four_u : (4 * u = / 2 ^ 51)%R.
Proof. replace (4 * u)%R with (u * 2 ^ 2)%R by ring. rewrite u_pow by lia. reflexivity. Qed.

(** ---- C82: accuracy ---- *)
(** The day count of two dates differs from the exact one by at most 2^-51 of it, and but for Actual/Actual over a year end
    it is a nearest double. *)
Theorem C82_accuracy : forall c s e q, date_ok s -> date_ok e -> compute_accrual_length (Day s) (Day e) c = Ok q ->
  exists x, f_compute_accrual_length (Day s) (Day e) c = Ok x /\ is_finite x = true /\
    (Rabs (B2R x - Q2R q) <= / 2 ^ 51 * Rabs (Q2R q))%R /\
    (c <> ACTACT \/ year s = year e -> forall y : f64, is_finite y = true -> (Rabs (B2R x - Q2R q) <= Rabs (B2R y - Q2R q))%R).
Proof.
  intros c s e q Os Oe H. rewrite q_compute_days in H. rewrite f_compute_days. destruct (Z.leb_spec s e) as [L|L]; [|discriminate].
  destruct (fun_close c s e q Os Oe H) as (x & v & X & [F V] & (_ & _ & C) & N). exists x. split; [exact X|]. split; [exact F|]. rewrite V. split; [rewrite <- four_u; auto|].
  intros D y _. rewrite (N D). apply rn_nearest.
Qed.
Print Assumptions C82_accuracy.

(** The program raises exactly where the exact computation does, and the same exception. *)
Theorem C82_errors : forall c s e err, f_compute_accrual_length (Day s) (Day e) c = Err err <-> compute_accrual_length (Day s) (Day e) c = Err err.
Proof. intros c s e err. rewrite f_compute_days, q_compute_days. destruct (s <=? e); [apply fun_errs|]. split; congruence. Qed.
Print Assumptions C82_errors.

(** Actual/Actual over a year end need not be a nearest double. *)
Definition ok_or (r : res f64) : f64 := match r with Ok x => x | Err _ => of_int 0 end.
Definition is_ok {A} (r : res A) : bool := match r with Ok _ => true | Err _ => false end.
Lemma ok_eq r : is_ok r = true -> r = Ok (ok_or r).
Proof. destruct r; [reflexivity|discriminate]. Qed.
Lemma finite_value (x : f64) b m k : B2SF x = SpecFloat.S754_finite b m k -> B2R x = (IZR (cond_Zopp b (Zpos m)) * bpow radix2 k)%R.
Proof. intros E. rewrite <- SF2R_B2SF, E. reflexivity. Qed.
Theorem C82_nearest_refuted : exists s e q x (y : f64), mk_date 2023 1 1 = Ok s /\ mk_date 2024 4 14 = Ok e /\ compute_accrual_length (Day s) (Day e) ACTACT = Ok q /\
  f_compute_accrual_length (Day s) (Day e) ACTACT = Ok x /\ is_finite y = true /\ (Rabs (B2R y - Q2R q) < Rabs (B2R x - Q2R q))%R.
Proof.
  exists 738521, 738990, (match compute_accrual_length (Day 738521) (Day 738990) ACTACT with Ok q => q | _ => 0%Q end),
    (ok_or (f_compute_accrual_length (Day 738521) (Day 738990) ACTACT)), (flit 5783277284795129 (-52)).
  split; [vm_compute; reflexivity|]. split; [vm_compute; reflexivity|]. split; [vm_compute; reflexivity|]. split; [apply ok_eq; vm_compute; reflexivity|]. split; [vm_compute; reflexivity|].
  rewrite (finite_value (ok_or _) false 5783277284795128 (-52)) by (vm_compute; reflexivity). rewrite (finite_value (flit _ _) false 5783277284795129 (-52)) by (vm_compute; reflexivity).
  change (bpow radix2 (-52)) with (/ 4503599627370496)%R. cbn [cond_Zopp].
  replace (Q2R (match compute_accrual_length (Day 738521) (Day 738990) ACTACT with Ok q => q | _ => 0%Q end)) with (364 / 365 + 105 / 366)%R.
  2:{ replace (364 / 365 + 105 / 366)%R with (Q2R ((364 # 365) + (105 # 366))%Q) by (rewrite Q2R_plus; unfold Q2R; cbn [Qnum Qden]; lra). apply Qeq_eqR. vm_compute. reflexivity. }
  unfold Rabs. do 2 destruct Rcase_abs; lra.
Qed.
Print Assumptions C82_nearest_refuted.

(** ---- C83: comparisons ---- *)
Definition grid (c : dcc) : Z := match c with ACT360 | THIRTY360 => 360 | ACT365 => 365 | ACT365_25 => 1461 | ACTACT => 365 * 366 end.
Lemma on_grid c s e q : q_fun c s e = Ok q -> exists n, Q2R q = (IZR n / IZR (grid c))%R.
Proof.
  destruct c; cbn [q_fun grid].
  - intros H; injection H as <-. exists (e - s). apply Q2R_quot. lia.
  - intros H; injection H as <-. exists (e - s). apply Q2R_quot. lia.
  - intros H; injection H as <-. exists (4 * (e - s)). rewrite Q2R_div, Q2R_inj by discriminate. unfold Q2R. cbn [Qnum Qden]. rewrite mult_IZR. field.
  - unfold dcc_act_over_act. destruct (mk_date (year s) 12 31) as [a1|] eqn:M1; [|discriminate]. cbn [bind]. destruct (mk_date (year s - 1) 12 31) as [a2|] eqn:M2; [|discriminate]. cbn [bind].
    destruct (mk_date (year e) 12 31) as [a3|] eqn:M3; [|discriminate]. cbn [bind]. destruct (mk_date (year e - 1) 12 31) as [a4|] eqn:M4; [|discriminate]. cbn [bind].
    assert (L : forall y a b, mk_date y 12 31 = Ok a -> mk_date (y - 1) 12 31 = Ok b -> a - b = 365 \/ a - b = 366).
    { intros y a b Ha Hb. assert (1 <= y - 1 /\ y <= 9999) by (apply mk_date_ok in Ha, Hb; lia). rewrite dec31 in Ha, Hb by lia. injection Ha as <-. injection Hb as <-. rewrite dby_pred. pose proof (yearlen_bounds y). lia. }
    assert (Gr : forall n m, m = 365 \/ m = 366 -> exists k, (Q2R (inject_Z n / inject_Z m) = IZR k / IZR (365 * 366))%R).
    { intros n m [-> | ->]; rewrite Q2R_quot by lia; [exists (n * 366)|exists (n * 365)]; rewrite !mult_IZR; field. }
    destruct (Gr (e - s) (a3 - a4) (L _ _ _ M3 M4)) as (k0 & K0). destruct (Gr (a1 - s) (a1 - a2) (L _ _ _ M1 M2)) as (k1 & K1). destruct (Gr (e - a4) (a3 - a4) (L _ _ _ M3 M4)) as (k2 & K2).
    destruct (year s =? year e); intros H; injection H as <-; [exists k0; exact K0|].
    exists ((year e - year s - 1) * (365 * 366) + k1 + k2). rewrite !Q2R_plus, Q2R_inj, K1, K2, !plus_IZR, (mult_IZR (year e - year s - 1)). field. apply not_0_IZR. lia.
  - intros H; injection H as <-. exists (days_30_360 s e). apply Q2R_quot. lia.
Qed.
Lemma gap n m D : 0 < D <= 365 * 366 -> (IZR n / IZR D < IZR m / IZR D)%R -> (IZR n / IZR D + 1 / 133590 <= IZR m / IZR D)%R.
Proof.
  intros Dp L. assert (P : (0 < IZR D)%R) by (apply IZR_lt; lia). assert (I : (1 / 133590 <= / IZR D)%R).
  { unfold Rdiv. rewrite Rmult_1_l. apply Rinv_le; [exact P|]. apply (IZR_le _ 133590). lia. }
  assert (N : n < m). { apply lt_IZR. apply Rmult_lt_reg_r with (/ IZR D)%R; [apply Rinv_0_lt_compat; exact P|exact L]. }
  assert (N1 : (IZR n + 1 <= IZR m)%R) by (rewrite <- plus_IZR; apply IZR_le; lia).
  apply Rle_trans with ((IZR n + 1) / IZR D)%R; [unfold Rdiv; rewrite Rmult_plus_distr_r, Rmult_1_l; unfold Rdiv in I; lra|]. unfold Rdiv. apply Rmult_le_compat_r; [apply Rlt_le, Rinv_0_lt_compat; exact P|exact N1].
Qed.
Lemma close_abs c s e q v : date_ok s -> date_ok e -> q_fun c s e = Ok q -> close s e q v -> (Rabs (v - Q2R q) <= 1 / 1000000000)%R.
Proof.
  intros Os Oe H (C & _). apply Rle_trans with (1 := C). pose proof (ok_span s e Os Oe) as [S0 S1]. apply IZR_le in S0, S1.
  assert (U : (u <= / 1000000000000000)%R). { unfold u. change (bpow radix2 (-53)) with (/ 9007199254740992)%R. lra. }
  pose proof u_small. nra.
Qed.

(** Comparing two day counts of one convention, of any two pairs of dates, gives what comparing the exact ones gives, except
    that Actual/Actual counts that are equal may compare unequal. *)
Theorem C83_comparisons : forall c s1 e1 s2 e2 q1 q2 x1 x2, date_ok s1 -> date_ok e1 -> date_ok s2 -> date_ok e2 ->
  compute_accrual_length (Day s1) (Day e1) c = Ok q1 -> compute_accrual_length (Day s2) (Day e2) c = Ok q2 ->
  f_compute_accrual_length (Day s1) (Day e1) c = Ok x1 -> f_compute_accrual_length (Day s2) (Day e2) c = Ok x2 ->
  ((q1 < q2)%Q -> flt x1 x2 = true /\ flt x2 x1 = false /\ feq x1 x2 = false) /\
  ((q1 == q2)%Q -> c <> ACTACT -> flt x1 x2 = false /\ feq x1 x2 = true).
Proof.
  intros c s1 e1 s2 e2 q1 q2 x1 x2 O1 P1 O2 P2 Q1 Q2 F1 F2. rewrite q_compute_days in Q1, Q2. rewrite f_compute_days in F1, F2.
  destruct (s1 <=? e1); [|discriminate]. destruct (s2 <=? e2); [|discriminate].
  destruct (fun_close c s1 e1 q1 O1 P1 Q1) as (y1 & v1 & Y1 & V1 & C1 & N1). assert (y1 = x1) by congruence. subst y1.
  destruct (fun_close c s2 e2 q2 O2 P2 Q2) as (y2 & v2 & Y2 & V2 & C2 & N2). assert (y2 = x2) by congruence. subst y2.
  pose proof (close_abs c _ _ _ _ O1 P1 Q1 C1) as A1. pose proof (close_abs c _ _ _ _ O2 P2 Q2 C2) as A2.
  assert (B : forall b, b <> true -> b = false) by (intros []; congruence). split.
  - intros L. apply Qlt_Rlt in L. destruct (on_grid c s1 e1 q1 Q1) as (n & En). destruct (on_grid c s2 e2 q2 Q2) as (m & Em).
    assert (Gp : (Q2R q1 + 1 / 133590 <= Q2R q2)%R) by (rewrite En, Em in *; apply gap; [destruct c; cbn; lia|exact L]).
    apply Rabs_def2b in A1, A2 || idtac. assert (Lt : (v1 < v2)%R).
    { destruct (Rabs_le_inv _ _ A1), (Rabs_le_inv _ _ A2). lra. }
    split; [apply (flt_val x1 x2 v1 v2 V1 V2); exact Lt|]. split; apply B; intros Z; [apply (flt_val x2 x1 v2 v1 V2 V1) in Z|apply (feq_val x1 x2 v1 v2 V1 V2) in Z]; lra.
  - intros E NA. apply Qeq_eqR in E. rewrite (N1 (or_introl NA)) in V1. rewrite (N2 (or_introl NA)) in V2. rewrite E in V1.
    split; [apply B; intros Z; apply (flt_val _ _ _ _ V1 V2) in Z; lra|]. apply (feq_val _ _ _ _ V1 V2). reflexivity.
Qed.
Print Assumptions C83_comparisons.

Lemma count_laws c a b d q1 q2 q3 : c <> THIRTY360 -> date_ok a -> date_ok b -> date_ok d -> a <= b -> b <= d ->
  compute_accrual_length (Day a) (Day b) c = Ok q1 -> compute_accrual_length (Day b) (Day d) c = Ok q2 -> compute_accrual_length (Day a) (Day d) c = Ok q3 ->
  (q1 + q2 == q3)%Q /\ ((q1 == 0)%Q <-> a = b) /\ (b < d -> (q1 < q3)%Q).
Proof.
  intros NT Oa Ob Od L1 L2 E1 E2 E3. destruct c; try contradiction.
  - exact (act_laws ACT360 _ a b d q1 q2 q3 eq_refl L1 L2 E1 E2 E3).
  - exact (act_laws ACT365 _ a b d q1 q2 q3 eq_refl L1 L2 E1 E2 E3).
  - exact (act_laws ACT365_25 _ a b d q1 q2 q3 eq_refl L1 L2 E1 E2 E3).
  - destruct (Z.le_gt_cases 2 (year a)) as [Y|Y]; [exact (actact_laws a b d q1 q2 q3 Oa Ob Od Y L1 L2 E1 E2 E3)|].
    exfalso. pose proof (proj1 (date_ok_year a) Oa). rewrite (actact_year_one a b Oa L1) in E1 by lia. discriminate.
Qed.
Lemma f_defined c s e x : f_compute_accrual_length (Day s) (Day e) c = Ok x -> s <= e /\ exists q, compute_accrual_length (Day s) (Day e) c = Ok q.
Proof.
  intros F. split; [rewrite f_compute_days in F; destruct (Z.leb_spec s e); [assumption|discriminate]|].
  destruct (compute_accrual_length (Day s) (Day e) c) as [q|err] eqn:E; [eauto|]. apply C82_errors in E. congruence.
Qed.
Lemma later_defined c s a b q : date_ok s -> date_ok a -> date_ok b -> s <= a -> a <= b -> compute_accrual_length (Day s) (Day a) c = Ok q -> exists q', compute_accrual_length (Day a) (Day b) c = Ok q'.
Proof.
  intros Os Oa Ob L1 L2 E. destruct c; try (rewrite q_compute_days; destruct (Z.leb_spec a b); [eexists; reflexivity|lia]).
  destruct (Z.le_gt_cases 2 (year s)) as [Y|Y].
  - destruct (compute_actact a b Oa Ob) as (qc & Ec & _); [pose proof (year_mono s a L1); lia|lia|eauto].
  - exfalso. pose proof (proj1 (date_ok_year s) Os). rewrite (actact_year_one s a Os L1) in E by lia. discriminate.
Qed.
Lemma f_value c s e x q : date_ok s -> date_ok e -> f_compute_accrual_length (Day s) (Day e) c = Ok x -> compute_accrual_length (Day s) (Day e) c = Ok q ->
  exists v, val x v /\ close s e q v /\ (c <> ACTACT \/ year s = year e -> v = rn (Q2R q)).
Proof.
  intros Os Oe F E. rewrite q_compute_days in E. rewrite f_compute_days in F. destruct (s <=? e); [|discriminate].
  destruct (fun_close c s e q Os Oe E) as (y & v & Y & R). assert (y = x) by congruence. subst y. exists v. exact R.
Qed.

(** So for the conventions that count actual days the program's numbers increase with the end date. *)
Theorem C83_order : forall c s e1 e2 x1 x2, c <> THIRTY360 -> date_ok s -> date_ok e1 -> date_ok e2 ->
  f_compute_accrual_length (Day s) (Day e1) c = Ok x1 -> f_compute_accrual_length (Day s) (Day e2) c = Ok x2 ->
  flt x1 x2 = (e1 <? e2) /\ feq x1 x2 = (e1 =? e2).
Proof.
  intros c s e1 e2 x1 x2 NT Os O1 O2 F1 F2.
  destruct (f_defined _ _ _ _ F1) as (L1 & q1 & Q1). destruct (f_defined _ _ _ _ F2) as (L2 & q2 & Q2).
  assert (Lt : forall a b qa qb, date_ok a -> date_ok b -> s <= a -> a < b -> compute_accrual_length (Day s) (Day a) c = Ok qa -> compute_accrual_length (Day s) (Day b) c = Ok qb -> (qa < qb)%Q).
  { intros a b qa qb Oa Ob La Lab Ea Eb. destruct (later_defined c s a b qa Os Oa Ob La ltac:(lia) Ea) as (qc & Ec).
    destruct (count_laws c s a b qa qc qb NT Os Oa Ob La ltac:(lia) Ea Ec Eb) as (_ & _ & M). auto. }
  destruct (f_value c s e1 x1 q1 Os O1 F1 Q1) as (v1 & V1 & _). destruct (f_value c s e2 x2 q2 Os O2 F2 Q2) as (v2 & V2 & _).
  assert (B : forall b, b <> true -> b = false) by (intros []; congruence).
  destruct (Z.lt_trichotomy e1 e2) as [L|[-> | L]].
  - destruct (C83_comparisons c s e1 s e2 q1 q2 x1 x2 Os O1 Os O2 Q1 Q2 F1 F2) as [H _]. destruct (H (Lt _ _ _ _ O1 O2 L1 L Q1 Q2)) as (A & _ & D). rewrite A, D. split; symmetry; [apply Z.ltb_lt|apply Z.eqb_neq]; lia.
  - assert (x2 = x1) by congruence. subst x2. rewrite Z.ltb_irrefl, Z.eqb_refl. split; [|apply (feq_val _ _ _ _ V1 V1); reflexivity].
    apply B. intros Z. apply (flt_val _ _ _ _ V1 V1) in Z. lra.
  - destruct (C83_comparisons c s e2 s e1 q2 q1 x2 x1 Os O2 Os O1 Q2 Q1 F2 F1) as [H _]. destruct (H (Lt _ _ _ _ O2 O1 L2 L Q2 Q1)) as (A & D & _). rewrite D.
    split; [symmetry; apply Z.ltb_ge; lia|]. replace (e1 =? e2) with false by lia. apply B. intros Z.
    apply (feq_val _ _ _ _ V1 V2) in Z. apply (flt_val _ _ _ _ V2 V1) in A. lra.
Qed.
Print Assumptions C83_order.
(** ... and decrease with the start date. *)
Theorem C83_order_start : forall c s1 s2 e x1 x2, c <> THIRTY360 -> date_ok s1 -> date_ok s2 -> date_ok e ->
  f_compute_accrual_length (Day s1) (Day e) c = Ok x1 -> f_compute_accrual_length (Day s2) (Day e) c = Ok x2 -> s1 < s2 ->
  flt x2 x1 = true /\ feq x1 x2 = false.
Proof.
  intros c s1 s2 e x1 x2 NT O1 O2 Oe F1 F2 L.
  destruct (f_defined _ _ _ _ F1) as (L1 & q1 & Q1). destruct (f_defined _ _ _ _ F2) as (L2 & q2 & Q2).
  assert (D : exists q0, compute_accrual_length (Day s1) (Day s2) c = Ok q0).
  { destruct c; try contradiction; try (rewrite q_compute_days; destruct (Z.leb_spec s1 s2); [eexists; reflexivity|lia]).
    destruct (Z.le_gt_cases 2 (year s1)) as [Y|Y]; [destruct (compute_actact s1 s2 O1 O2 Y ltac:(lia)) as (q0 & E & _); eauto|].
    exfalso. pose proof (proj1 (date_ok_year s1) O1). rewrite (actact_year_one s1 e O1 L1) in Q1 by lia. discriminate. }
  destruct D as (q0 & Q0). destruct (count_laws c s1 s2 e q0 q2 q1 NT O1 O2 Oe ltac:(lia) L2 Q0 Q2 Q1) as (A & Z0 & _).
  assert (P0 : (0 < q0)%Q).
  { destruct (f_compute_accrual_length (Day s1) (Day s1) c) as [xx|er] eqn:Fx.
    - destruct (f_defined _ _ _ _ Fx) as (_ & qq & Qq). destruct (count_laws c s1 s1 s2 qq q0 q0 NT O1 O1 O2 ltac:(lia) ltac:(lia) Qq Q0 Q0) as (_ & Zq & M). assert (qq == 0)%Q by (apply Zq; reflexivity). rewrite <- H. apply M. exact L.
    - exfalso. apply C82_errors in Fx. destruct c; try contradiction; rewrite q_compute_days, Z.leb_refl in Fx; try discriminate.
      destruct (Z.le_gt_cases 2 (year s1)) as [Y|Y]; [destruct (compute_actact s1 s1 O1 O1 Y ltac:(lia)) as (qz & E & _); rewrite q_compute_days, Z.leb_refl in E; congruence|].
      pose proof (proj1 (date_ok_year s1) O1). rewrite (actact_year_one s1 e O1 L1) in Q1 by lia. discriminate. }
  assert (Lt : (q2 < q1)%Q) by (rewrite <- A; rewrite <- (Qplus_0_l q2) at 1; apply Qplus_lt_l; exact P0).
  destruct (C83_comparisons c s2 e s1 e q2 q1 x2 x1 O2 Oe O1 Oe Q2 Q1 F2 F1) as [H _]. destruct (H Lt) as (R1 & _ & R2). split; [exact R1|].
  destruct (f_value c s1 e x1 q1 O1 Oe F1 Q1) as (v1 & V1 & _). destruct (f_value c s2 e x2 q2 O2 Oe F2 Q2) as (v2 & V2 & _).
  destruct (feq x1 x2) eqn:Z; [|reflexivity]. apply (feq_val _ _ _ _ V1 V2) in Z. apply (flt_val _ _ _ _ V2 V1) in R1. lra.
Qed.
Print Assumptions C83_order_start.

(** Equal Actual/Actual periods can compare unequal. *)
Theorem C83_equality_refuted : exists s1 e1 s2 e2 q1 q2 x1 x2, mk_date 2023 1 1 = Ok s1 /\ mk_date 2025 1 5 = Ok e1 /\ mk_date 2023 5 3 = Ok s2 /\ mk_date 2025 5 7 = Ok e2 /\
  compute_accrual_length (Day s1) (Day e1) ACTACT = Ok q1 /\ compute_accrual_length (Day s2) (Day e2) ACTACT = Ok q2 /\ (q1 == q2)%Q /\
  f_compute_accrual_length (Day s1) (Day e1) ACTACT = Ok x1 /\ f_compute_accrual_length (Day s2) (Day e2) ACTACT = Ok x2 /\ flt x1 x2 = true.
Proof.
  exists 738521, 739256, 738643, 739378. do 2 eexists. exists (ok_or (f_compute_accrual_length (Day 738521) (Day 739256) ACTACT)), (ok_or (f_compute_accrual_length (Day 738643) (Day 739378) ACTACT)).
  do 6 (split; [vm_compute; reflexivity|]). split; [vm_compute; reflexivity|]. split; [apply ok_eq; vm_compute; reflexivity|]. split; [apply ok_eq; vm_compute; reflexivity|]. vm_compute. reflexivity.
Qed.
Print Assumptions C83_equality_refuted.
Example C82_case : date_ok 738521 /\ date_ok 738990 /\ exists q, compute_accrual_length (Day 738521) (Day 738990) ACT360 = Ok q /\ (1 < q)%Q.
Proof. split; [unfold date_ok, min_date, max_date; lia|]. split; [unfold date_ok, min_date, max_date; lia|]. exists (469 # 360)%Q. split; vm_compute; reflexivity. Qed.
Example C83_case : exists x1 x2, f_compute_accrual_length (Day 738521) (Day 738990) ACTACT = Ok x1 /\ f_compute_accrual_length (Day 738521) (Day 738991) ACTACT = Ok x2 /\ flt x1 x2 = true.
Proof.
  exists (ok_or (f_compute_accrual_length (Day 738521) (Day 738990) ACTACT)), (ok_or (f_compute_accrual_length (Day 738521) (Day 738991) ACTACT)).
  split; [apply ok_eq; vm_compute; reflexivity|]. split; [apply ok_eq; vm_compute; reflexivity|]. vm_compute. reflexivity.
Qed.

(** ---- C84: additivity up to rounding ---- *)
(** The conventions whose exact day counts add up (C01, C02). *)
Theorem C84_additive : forall c a b d q x1 x2 x3, date_ok a -> date_ok b -> date_ok d -> c <> THIRTY360 ->
  f_compute_accrual_length (Day a) (Day b) c = Ok x1 -> f_compute_accrual_length (Day b) (Day d) c = Ok x2 ->
  f_compute_accrual_length (Day a) (Day d) c = Ok x3 -> compute_accrual_length (Day a) (Day d) c = Ok q ->
  is_finite (fadd x1 x2) = true /\ (Rabs (B2R (fadd x1 x2) - B2R x3) <= / 2 ^ 49 * Q2R q)%R.
Proof.
  intros c a b d q x1 x2 x3 Oa Ob Od NT F1 F2 F3 Q3.
  destruct (f_defined _ _ _ _ F1) as (L1 & q1 & Q1). destruct (f_defined _ _ _ _ F2) as (L2 & q2 & Q2).
  destruct (count_laws c a b d q1 q2 q NT Oa Ob Od L1 L2 Q1 Q2 Q3) as (A & _). apply Qeq_eqR in A. rewrite Q2R_plus in A.
  assert (P : forall s e x qq, date_ok s -> date_ok e -> f_compute_accrual_length (Day s) (Day e) c = Ok x -> compute_accrual_length (Day s) (Day e) c = Ok qq -> (0 <= Q2R qq)%R).
  { intros s e x qq Os Oe F E. destruct (f_defined _ _ _ _ F) as (L & _). destruct (Z.eq_dec s e) as [<- | NE].
    - destruct (count_laws c s s s qq qq qq NT Os Os Os L L E E E) as (S0 & _). apply Qeq_eqR in S0. rewrite Q2R_plus in S0. lra.
    - assert (Es : exists q0, compute_accrual_length (Day s) (Day s) c = Ok q0).
      { destruct c; try contradiction; try (rewrite q_compute_days, Z.leb_refl; eexists; reflexivity).
        destruct (Z.le_gt_cases 2 (year s)) as [Y|Y]; [destruct (compute_actact s s Os Os Y ltac:(lia)) as (q0 & E0 & _); eauto|].
        exfalso. pose proof (proj1 (date_ok_year s) Os). rewrite (actact_year_one s e Os L) in E by lia. discriminate. }
      destruct Es as (q0 & E0). destruct (count_laws c s s e q0 qq qq NT Os Os Oe ltac:(lia) L E0 E E) as (_ & Z0 & M).
      assert (Z : (q0 == 0)%Q) by (apply Z0; reflexivity). apply Qeq_eqR in Z. assert (Q2R q0 < Q2R qq)%R by (apply Qlt_Rlt, M; lia). replace (Q2R 0) with 0%R in Z by (unfold Q2R; cbn; lra). lra. }
  pose proof (P a b x1 q1 Oa Ob F1 Q1) as P1. pose proof (P b d x2 q2 Ob Od F2 Q2) as P2.
  destruct (f_value c a b x1 q1 Oa Ob F1 Q1) as (v1 & V1 & (_ & B1 & C1) & _). destruct (f_value c b d x2 q2 Ob Od F2 Q2) as (v2 & V2 & (_ & B2 & C2) & _).
  destruct (f_value c a d x3 q Oa Od F3 Q3) as (v3 & V3 & (_ & B3 & C3) & _). specialize (C1 L1). specialize (C2 L2). specialize (C3 ltac:(lia)).
  rewrite (Rabs_pos_eq (Q2R q1)) in B1, C1 by lra. rewrite (Rabs_pos_eq (Q2R q2)) in B2, C2 by lra. rewrite (Rabs_pos_eq (Q2R q)) in B3, C3 by lra.
  pose proof u_small as U. pose proof (ok_span a b Oa Ob) as [_ S1]. pose proof (ok_span b d Ob Od) as [_ S2]. apply IZR_le in S1, S2.
  destruct (Rabs_le_inv _ _ C1), (Rabs_le_inv _ _ C2), (Rabs_le_inv _ _ C3).
  assert (W1 : (0 <= v1 + v2 <= 100000)%R) by nra.
  assert (V : val (fadd x1 x2) (rn (v1 + v2))) by (apply fadd_val; auto; apply big_gt; rewrite Rabs_pos_eq by lra; apply Rle_trans with 100000%R; [lra|apply IZR_le; lia]).
  pose proof (rn_plus_err _ _ _ _ V1 V2) as E. rewrite (Rabs_pos_eq (v1 + v2)) in E by lra. destruct (Rabs_le_inv _ _ E).
  destruct V as [F V]. split; [exact F|]. rewrite V. destruct V3 as [_ ->].
  replace (/ 2 ^ 49)%R with (16 * u)%R by (replace (16 * u)%R with (u * 2 ^ 4)%R by ring; rewrite u_pow by lia; reflexivity).
  assert (Pq : (0 <= Q2R q)%R) by lra.
  assert (T0 : (4 * u * Q2R q <= Q2R q)%R) by (clear -Pq U; nra).
  assert (T1 : (v1 + v2 <= 2 * Q2R q)%R) by (rewrite <- A in *; lra).
  assert (T : (0 <= u * (v1 + v2) <= u * (2 * Q2R q))%R) by (split; [apply Rmult_le_pos; lra|apply Rmult_le_compat_l; lra]). apply Rabs_le.
  assert (P3 : (0 <= u * Q2R q)%R) by (apply Rmult_le_pos; lra). rewrite <- A in *. lra.
Qed.
Print Assumptions C84_additive.

(** The program's day counts of adjacent periods do not add up exactly, in any of these conventions. *)
Theorem C84_exact_refuted : forall c, c <> THIRTY360 -> exists a b d x1 x2 x3,
  f_compute_accrual_length (Day a) (Day b) c = Ok x1 /\ f_compute_accrual_length (Day b) (Day d) c = Ok x2 /\
  f_compute_accrual_length (Day a) (Day d) c = Ok x3 /\ feq (fadd x1 x2) x3 = false.
Proof.
  intros c NT. set (k := match c with ACT360 => 5 | ACT365 => 3 | _ => 7 end). exists 738521, 738522, (738521 + k).
  exists (ok_or (f_compute_accrual_length (Day 738521) (Day 738522) c)), (ok_or (f_compute_accrual_length (Day 738522) (Day (738521 + k)) c)), (ok_or (f_compute_accrual_length (Day 738521) (Day (738521 + k)) c)).
  destruct c; try contradiction; unfold k; (split; [apply ok_eq; vm_compute; reflexivity|]; split; [apply ok_eq; vm_compute; reflexivity|]; split; [apply ok_eq; vm_compute; reflexivity|vm_compute; reflexivity]).
Qed.
Print Assumptions C84_exact_refuted.
Example C84_case : date_ok 738521 /\ date_ok 738990 /\ exists x, f_compute_accrual_length (Day 738521) (Day 738990) ACTACT = Ok x /\ flt (of_int 1) x = true.
Proof. split; [unfold date_ok, min_date, max_date; lia|]. split; [unfold date_ok, min_date, max_date; lia|]. exists (ok_or (f_compute_accrual_length (Day 738521) (Day 738990) ACTACT)). split; [apply ok_eq; vm_compute; reflexivity|vm_compute; reflexivity]. Qed.
