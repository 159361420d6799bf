(** Property theorem C94: time_fraction_in_years in floating point. *)
From Verif Require Import Base PyDate DayCount Float FloatFacts FloatDayCount P_FloatDayCount.
From Coq Require Import Reals Lra.
From Flocq Require Import Core BinarySingleNaN.
Open Scope Z_scope.

(** microseconds in a year of 365.25 days *)
Definition us_per_year : Z := 31557600 * 1000000.
(** timedeltas of up to 285 years *)
Definition span (us : Z) : Prop := Z.abs us <= 2 ^ 53.

Lemma seconds_per_year : val (fmul (flit 1461 (-2)) (of_int 86400)) 31557600%R.
Proof.
  pose proof (flit_val 1461 (-2) ltac:(lia) ltac:(lia)) as A. pose proof (of_int_val 86400 ltac:(lia)) as B. change (bpow radix2 (-2)) with (/ 4)%R in A.
  assert (E : (IZR 1461 * / 4 * IZR 86400 = IZR 31557600)%R) by lra.
  pose proof (fmul_val _ _ _ _ A B) as V. rewrite E in V. rewrite rn_format in V.
  - apply V. rewrite Rabs_pos_eq by lra. apply Rle_trans with (bpow radix2 30); [change (bpow radix2 30) with 1073741824%R; lra|apply bpow_le; lia].
  - replace (IZR 31557600) with (IZR 31557600 * bpow radix2 0)%R by (change (bpow radix2 0) with 1%R; ring). apply format_dyadic; lia.
Qed.

Lemma fraction_val us : span us -> exists x, f_time_fraction_in_years us = Ok x /\ val x (rn (rn (IZR us / 1000000) / 31557600)) /\ (Rabs (rn (IZR us / 1000000)) <= bpow radix2 53)%R.
Proof.
  intros S. destruct (int_div_val us 1000000 S ltac:(lia)) as (s & Es & Vs). unfold f_time_fraction_in_years, f_seconds. rewrite Es. cbn [bind].
  assert (B : (Rabs (rn (IZR us / 1000000)) <= bpow radix2 53)%R).
  { assert (F : rn (bpow radix2 53) = bpow radix2 53). { apply rn_format. replace (bpow radix2 53) with (IZR 1 * bpow radix2 53)%R by ring. apply format_dyadic; lia. }
    assert (U : (- bpow radix2 53 <= IZR us / 1000000 <= bpow radix2 53)%R). { change (bpow radix2 53) with (IZR (2 ^ 53)). unfold span in S. assert (IZR (- 2 ^ 53) <= IZR us <= IZR (2 ^ 53))%R by (split; apply IZR_le; lia). rewrite opp_IZR in *. assert (0 < IZR (2 ^ 53))%R by (apply IZR_lt; lia). lra. }
    apply Rabs_le. split; [rewrite <- F, <- rn_opp|rewrite <- F]; apply rn_le; apply U. }
  destruct (fdiv_val s _ _ _ Vs seconds_per_year ltac:(lra)) as (x & Ex & Vx).
  - unfold Rdiv. rewrite Rabs_mult, (Rabs_pos_eq (/ _)) by lra. apply Rle_trans with (bpow radix2 53 * 1)%R; [apply Rmult_le_compat; try apply Rabs_pos; lra|]. rewrite Rmult_1_r. apply bpow_le. lia.
  - exists x. auto.
Qed.
Lemma fraction_inv us x : span us -> f_time_fraction_in_years us = Ok x -> is_finite x = true /\ B2R x = rn (rn (IZR us / 1000000) / 31557600).
Proof. intros S E. destruct (fraction_val us S) as (y & Ey & V & _). assert (y = x) by congruence. subst y. exact V. Qed.

(** It never raises and is within a relative 1/2^51 of the exact fraction. *)
Theorem C94_accuracy : forall us, span us -> exists x, f_time_fraction_in_years us = Ok x /\ is_finite x = true /\
  (Rabs (B2R x - IZR us / IZR us_per_year) <= / 2 ^ 51 * Rabs (IZR us / IZR us_per_year))%R.
Proof.
  intros us S. destruct (fraction_val us S) as (x & E & [Fx Vx] & B). exists x. split; [exact E|]. split; [exact Fx|]. rewrite Vx.
  assert (U : (0 < u <= / 1000000)%R) by (split; [apply u_small|unfold u; change (bpow radix2 (-53)) with (/ 9007199254740992)%R; lra]).
  assert (U51 : (/ 2 ^ 51 = 4 * u)%R) by (unfold u; change (bpow radix2 (-53)) with (/ 9007199254740992)%R; lra). rewrite U51.
  set (q := (IZR us / 1000000)%R) in *. assert (Q : (IZR us / IZR us_per_year = q / 31557600)%R) by (unfold q, us_per_year; rewrite mult_IZR; field). rewrite Q.
  destruct (Z.eq_dec us 0) as [-> | N].
  { assert (q = 0)%R by (unfold q; lra). rewrite H. rewrite rn_0. unfold Rdiv. rewrite Rmult_0_l, rn_0, Rminus_0_r, Rabs_R0. lra. }
  assert (A1 : (1 <= Rabs (IZR us))%R) by (rewrite <- abs_IZR; apply IZR_le; lia).
  assert (Qa : (Rabs q = Rabs (IZR us) / 1000000)%R) by (unfold q, Rdiv; rewrite Rabs_mult, (Rabs_pos_eq (/ _)) by lra; reflexivity).
  assert (E1 : (Rabs (rn q - q) <= u * Rabs q)%R). { apply rn_err. right. rewrite Qa. apply Rle_trans with (bpow radix2 (-30)); [apply bpow_le; lia|]. change (bpow radix2 (-30)) with (/ 1073741824)%R. lra. }
  set (s := rn q) in *. assert (Sl : (1 / 2 * Rabs q <= Rabs s <= 2 * Rabs q)%R).
  { assert (u * Rabs q <= 1 / 4 * Rabs q)%R by (apply Rmult_le_compat_r; [apply Rabs_pos|lra]). split.
    - assert (Rabs q <= Rabs (s - q) + Rabs s)%R by (replace q with (- (s - q) + s)%R at 1 by ring; apply Rle_trans with (1 := Rabs_triang _ _); rewrite Rabs_Ropp; lra). lra.
    - replace s with ((s - q) + q)%R by ring. apply Rle_trans with (1 := Rabs_triang _ _). lra. }
  assert (Y : forall z, (Rabs (z / 31557600) = Rabs z / 31557600)%R) by (intros z; unfold Rdiv; rewrite Rabs_mult, (Rabs_pos_eq (/ _)) by lra; reflexivity).
  assert (E2 : (Rabs (rn (s / 31557600) - s / 31557600) <= u * Rabs (s / 31557600))%R). { apply rn_err. right. rewrite Y. apply Rle_trans with (bpow radix2 (-60)); [apply bpow_le; lia|]. change (bpow radix2 (-60)) with (/ 1152921504606846976)%R. lra. }
  rewrite (Y s) in E2. rewrite (Y q). replace (rn (s / 31557600) - q / 31557600)%R with ((rn (s / 31557600) - s / 31557600) + (s - q) / 31557600)%R by field. apply Rle_trans with (1 := Rabs_triang _ _). rewrite Y.
  assert (u * (Rabs s / 31557600) <= u * (2 * Rabs q / 31557600))%R by (apply Rmult_le_compat_l; lra). assert (0 <= u * Rabs q)%R by (apply Rmult_le_pos; [lra|apply Rabs_pos]). lra.
Qed.
Print Assumptions C94_accuracy.

(** Adding fractions is not exact: one and two seconds. *)
Theorem C94_additive_refuted : exists x y z, f_time_fraction_in_years 1000000 = Ok x /\ f_time_fraction_in_years 2000000 = Ok y /\ f_time_fraction_in_years 3000000 = Ok z /\ feq (fadd x y) z = false.
Proof.
  exists (ok_or (f_time_fraction_in_years 1000000)), (ok_or (f_time_fraction_in_years 2000000)), (ok_or (f_time_fraction_in_years 3000000)).
  split; [apply ok_eq; vm_compute; reflexivity|]. split; [apply ok_eq; vm_compute; reflexivity|]. split; [apply ok_eq; vm_compute; reflexivity|vm_compute; reflexivity].
Qed.
Print Assumptions C94_additive_refuted.

(** Longer timedeltas never give a smaller fraction; opposite ones give opposite fractions; zero gives zero and nothing else does. *)
Theorem C94_monotone : forall us us' x x', span us -> span us' -> f_time_fraction_in_years us = Ok x -> f_time_fraction_in_years us' = Ok x' ->
  (us <= us' -> (B2R x <= B2R x')%R) /\ (us' = - us -> B2R x' = (- B2R x)%R) /\ (B2R x = 0%R <-> us = 0) /\ (0 < us -> (0 < B2R x)%R).
Proof.
  intros us us' x x' S S' E E'. destruct (C94_accuracy us S) as (y & Ey & _ & Ac). assert (y = x) by congruence. subst y.
  assert (P0 : (0 < us)%Z -> (0 < B2R x)%R /\ (B2R x = 0%R -> False)).
  { intros P. assert (H : (0 < IZR us / IZR us_per_year)%R) by (apply Rdiv_lt_0_compat; apply IZR_lt; [lia|reflexivity]). rewrite (Rabs_pos_eq (IZR us / _)) in Ac by lra. apply Rabs_le_inv in Ac.
    assert (/ 2 ^ 51 * (IZR us / IZR us_per_year) <= 1 / 2 * (IZR us / IZR us_per_year))%R by (apply Rmult_le_compat_r; lra). split; [|intros]; lra. }
  assert (N0 : (us < 0)%Z -> (B2R x = 0%R -> False)).
  { intros P C. assert (H : (IZR us / IZR us_per_year < 0)%R). { unfold Rdiv. rewrite <- (Rmult_0_l (/ IZR us_per_year)). apply Rmult_lt_compat_r; [apply Rinv_0_lt_compat; apply IZR_lt; reflexivity|apply IZR_lt; lia]. }
    rewrite (Rabs_left (IZR us / _)) in Ac by lra. apply Rabs_le_inv in Ac. assert (/ 2 ^ 51 * - (IZR us / IZR us_per_year) <= 1 / 2 * - (IZR us / IZR us_per_year))%R by (apply Rmult_le_compat_r; lra). lra. }
  destruct (fraction_inv us x S E) as [_ V]. destruct (fraction_inv us' x' S' E') as [_ V'].
  split; [|split; [|split]].
  - intros L. rewrite V, V'. apply rn_le. apply Rmult_le_compat_r; [lra|]. apply rn_le. apply Rmult_le_compat_r; [lra|]. apply IZR_le. exact L.
  - intros ->. rewrite V, V', <- rn_opp. f_equal. replace (IZR (- us) / 1000000)%R with (- (IZR us / 1000000))%R by (rewrite opp_IZR; field). rewrite rn_opp. field.
  - split; [|intros ->; rewrite V; unfold Rdiv; rewrite Rmult_0_l, rn_0, Rmult_0_l, rn_0; reflexivity]. intros Z0. destruct (Z.lt_trichotomy us 0) as [N|[N|N]]; [destruct (N0 N Z0)|exact N|destruct (proj2 (P0 N) Z0)].
  - intros P. apply P0. exact P.
Qed.
Print Assumptions C94_monotone.

(** A whole number of seconds gives the double nearest to the exact fraction, and a whole number of years that number. *)
Theorem C94_exact : forall n x, (span (1000000 * n) -> f_time_fraction_in_years (1000000 * n) = Ok x -> forall y : f64, (Rabs (B2R x - IZR n / 31557600) <= Rabs (B2R y - IZR n / 31557600))%R) /\
  (span (n * us_per_year) -> f_time_fraction_in_years (n * us_per_year) = Ok x -> B2R x = IZR n).
Proof.
  assert (W : forall n x, span (1000000 * n) -> f_time_fraction_in_years (1000000 * n) = Ok x -> B2R x = rn (IZR n / 31557600)).
  { intros n x S E. destruct (fraction_inv _ _ S E) as [_ V]. rewrite V. f_equal. f_equal. replace (IZR (1000000 * n) / 1000000)%R with (IZR n * bpow radix2 0)%R by (rewrite mult_IZR; change (bpow radix2 0) with 1%R; field). rewrite rn_format; [change (bpow radix2 0) with 1%R; ring|]. apply format_dyadic; unfold span in S; lia. }
  intros n x. split.
  - intros S E y. rewrite (W n x S E). apply rn_nearest.
  - intros S E. unfold us_per_year in *. replace (n * (31557600 * 1000000)) with (1000000 * (n * 31557600)) in * by ring. rewrite (W _ x S E). rewrite mult_IZR. replace (IZR n * 31557600 / 31557600)%R with (IZR n * bpow radix2 0)%R by (change (bpow radix2 0) with 1%R; field). rewrite rn_format; [change (bpow radix2 0) with 1%R; ring|]. apply format_dyadic; unfold span in S; lia.
Qed.
Print Assumptions C94_exact.

Example C94_case : span us_per_year /\ span (-1) /\ exists x, f_time_fraction_in_years 3 = Ok x /\ flt (of_int 0) x = true.
Proof. split; [unfold span, us_per_year; lia|]. split; [unfold span; lia|]. exists (ok_or (f_time_fraction_in_years 3)). split; [apply ok_eq; vm_compute; reflexivity|vm_compute; reflexivity]. Qed.
