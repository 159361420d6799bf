(** Discount curves of yield curves in double precision: C114. *)
From Verif Require Import Base PyDate PyDateFacts DayCount DayCountFacts PyList KeyRate KeyRateFacts P_KeyRate Curve CurveFacts P_Curve Cashflow CashflowFacts P_Yield Float FloatFacts FloatDayCount P_FloatDayCount FloatKeyRate P_FloatKeyRate FloatCurve P_FloatCurve FloatCashflow P_FloatCashflow P_FloatStamp P_FloatBond P_FloatLoan P_FloatSwap P_FloatYield FloatVasicek P_FloatVasicek FloatYieldCurve.
From Coq Require Import Reals Rpower Qreals Lra Lqa Sorting.Sorted Permutation.
From Flocq Require Import Core BinarySingleNaN.
Ltac lra := first [Lra.lra | Lqa.lra].
Ltac nra := Lra.nra.
Open Scope Z_scope.


(** ---- specification ---- *)
(** numpy's exp: relative error at most 2^-50 (four units in the last place), exactly 1 at zero *)
Definition numpy_exp (ex : f64 -> f64) : Prop := forall x : f64, is_finite x = true -> (B2R x <= 500)%R ->
  is_finite (ex x) = true /\ (Rabs (B2R (ex x) - exp (B2R x)) <= / 2 ^ 50 * exp (B2R x) + / 2 ^ 1070)%R /\ (B2R x = 0 -> B2R (ex x) = 1)%R.
(** and never above 1 for an argument that is not positive *)
Definition capped (ex : f64 -> f64) : Prop := forall x : f64, is_finite x = true -> (B2R x <= 0)%R -> (B2R (ex x) <= 1)%R.
(** the yield curve after discount curves have been asked of it under the adjustments [hist] *)
Definition f_history spline ex (y : f_ycurve) (hist : list f_adjust) : f_ycurve := fold_left (fun y a => fst (f_to_discount_curve spline ex y a)) hist y.

(** ---- one factor ---- *)
Lemma pow_50 : (/ 2 ^ 50 = 8 * u)%R.
Proof. change (/ 2 ^ 50)%R with (/ 2 ^ Pos.to_nat 50)%R. rewrite two_pow, u_num. change (bpow radix2 (Zneg 50)) with (/ 1125899906842624)%R. lra. Qed.
Lemma exp_low x : (-400 <= x)%R -> (bpow radix2 (-800) <= exp x)%R.
Proof.
  intros H. apply Rle_trans with (exp (- (400))); [|apply exp_le; exact H]. rewrite exp_Ropp. change (-800) with (Z.opp 800). rewrite bpow_opp. apply Rinv_le_contravar; [apply exp_pos|].
  assert (G : forall n, (exp (INR n) <= 4 ^ n)%R). { induction n as [|n IH]; [cbn; rewrite exp_0; lra|]. rewrite S_INR, exp_plus. cbn [pow]. rewrite (Rmult_comm 4). pose proof exp_le_3. apply Rmult_le_compat; [apply Rlt_le, exp_pos|apply Rlt_le, exp_pos|exact IH|lra]. }
  specialize (G 400%nat). replace (INR 400) with 400%R in G by (rewrite INR_IZR_INZ; reflexivity). apply Rle_trans with (1 := G). right. replace 4%R with (2 ^ 2)%R by ring. rewrite <- pow_mult. change (2 * 400)%nat with (Pos.to_nat 800). rewrite pow_two. reflexivity.
Qed.
(** far below any relative error of such a factor *)
Lemma tiny_rel x : (-400 <= x)%R -> (tn <= / 1000000 * u * exp x)%R /\ (/ 2 ^ 1070 <= / 1000000 * u * exp x)%R.
Proof.
  intros H. apply exp_low in H. destruct tn_range as (t0 & t1 & _). pose proof (bpow_gt_0 radix2 (-800)).
  assert (A : (bpow radix2 (-1000) <= / 1000000 * u * exp x)%R).
  { apply Rle_trans with (bpow radix2 (-73) * bpow radix2 (-800))%R; [rewrite <- bpow_plus; apply bpow_le; lia|]. apply Rmult_le_compat; [apply bpow_ge_0|lra| |exact H].
    unfold u. change (-73) with (-20 + -53). rewrite bpow_plus. apply Rmult_le_compat_r; [apply bpow_ge_0|]. change (bpow radix2 (-20)) with (/ 1048576)%R. lra. }
  split; (eapply Rle_trans; [|exact A]).
  - apply Rle_trans with (1 := t1). change (/ 2 ^ 1000)%R with (/ 2 ^ Pos.to_nat 1000)%R. rewrite two_pow. right. reflexivity.
  - change (/ 2 ^ 1070)%R with (/ 2 ^ Pos.to_nat 1070)%R. rewrite two_pow. apply bpow_le. lia.
Qed.

Lemma factor_near ex (y x : f64) yv xv t : numpy_exp ex -> val y yv -> val x xv -> (0 <= t)%R -> (Rabs (xv - t) <= 4 * u * t)%R -> (Rabs (yv * t) <= 400)%R ->
  let z := ex (fmul (Bopp y) x) in
  is_finite z = true /\ (Rabs (B2R z - exp (- (yv * t))) <= / 2 ^ 50 * (3 + Rabs (yv * t)) * exp (- (yv * t)))%R /\ (0 < B2R z)%R /\ (t = 0 -> B2R z = 1)%R /\ (capped ex -> 0 <= yv -> B2R z <= 1)%R.
Proof.
  intros HE Vy Vx Ht Hx Hy. pose proof u_tiny as U. destruct tn_range as (t0 & _). apply val_opp in Vy as Vo.
  set (T := Rabs (yv * t)) in *. assert (T0 : (0 <= T)%R) by apply Rabs_pos.
  assert (Y : (Rabs yv * t = T)%R) by (unfold T; rewrite Rabs_mult, (Rabs_pos_eq t) by exact Ht; reflexivity).
  assert (Xt : (Rabs xv <= t + 4 * u * t)%R). { replace xv with ((xv - t) + t)%R by ring. apply Rle_trans with (1 := Rabs_triang _ _). rewrite (Rabs_pos_eq t) by exact Ht. lra. }
  assert (ut : (0 <= u * T)%R) by (apply Rmult_le_pos; lra).
  assert (utb : (u * T <= 1 / 1000000000000 * 400)%R).
  { apply Rmult_le_compat.
    - lra.
    - lra.
    - lra.
    - lra. }
  assert (uut : (u * (u * T) <= / 1000 * (u * T))%R) by (apply Rmult_le_compat_r; lra).
  assert (P : (Rabs (- yv * xv) <= T + 4 * (u * T))%R).
  { rewrite Rabs_mult, Rabs_Ropp. apply Rle_trans with (Rabs yv * (t + 4 * u * t))%R; [apply Rmult_le_compat_l; [apply Rabs_pos|exact Xt]|]. replace (Rabs yv * (t + 4 * u * t))%R with (Rabs yv * t + 4 * (u * (Rabs yv * t)))%R by ring. rewrite Y. lra. }
  assert (Vp : val (fmul (Bopp y) x) (rn (- yv * xv))). { apply fmul_val; [exact Vo|exact Vx|]. apply big_ok. apply Rle_trans with 1000%R; [lra|]. lra. }
  pose proof (rn_abs (- yv * xv)) as Er. fold tn in Er. set (e := rn (- yv * xv)) in *.
  set (d := (e + yv * t)%R).
  assert (Hd : (Rabs d <= 51 / 10 * (u * T) + tn)%R).
  { unfold d. replace (e + yv * t)%R with ((e - (- yv * xv)) + yv * (t - xv))%R by ring. apply Rle_trans with (1 := Rabs_triang _ _). rewrite (Rabs_mult yv), (Rabs_minus_sym t).
    assert (Rabs yv * Rabs (xv - t) <= 4 * (u * T))%R. { rewrite <- Y. replace (4 * (u * (Rabs yv * t)))%R with (Rabs yv * (4 * u * t))%R by ring. apply Rmult_le_compat_l; [apply Rabs_pos|exact Hx]. }
    assert (u * Rabs (- yv * xv) <= u * (T + 4 * (u * T)))%R by (apply Rmult_le_compat_l; lra). rewrite Rmult_plus_distr_l in H0. lra. }
  set (E := exp (- (yv * t))). assert (E0 : (0 < E)%R) by apply exp_pos.
  assert (Ht1 : (-400 <= - (yv * t))%R) by (apply Rabs_le_inv in Hy; lra). destruct (tiny_rel _ Ht1) as [Tn Tz]. fold E in Tn, Tz.
  assert (Tn1 : (tn <= / 1000000)%R) by (destruct tn_range as (_ & _ & _ & H); lra).
  pose proof (exp_one_small d ltac:(lra)) as X1.
  assert (EdE : (exp e = E * exp d)%R) by (unfold E; rewrite <- exp_plus; f_equal; unfold d; ring).
  assert (X2 : (Rabs (exp e - E) <= E * (52 / 10 * (u * T) + 2 * tn))%R).
  { rewrite EdE. replace (E * exp d - E)%R with (E * (exp d - 1))%R by ring. rewrite Rabs_mult, (Rabs_pos_eq E) by lra. apply Rmult_le_compat_l; lra. }
  assert (X3 : (exp e <= 1001 / 1000 * E)%R). { apply Rabs_le_inv in X2. assert (E * (52 / 10 * (u * T) + 2 * tn) <= E * / 1000)%R; [|lra]. apply Rmult_le_compat_l; [lra|]. destruct tn_range as (_ & _ & _ & H). lra. }
  assert (He : (e <= 500)%R). { apply Rabs_le_inv in Hd, Hy. unfold d in Hd. lra. }
  destruct Vp as [Fp Ep]. rewrite <- Ep in He, X2, X3. destruct (HE _ Fp He) as (Fz & Nz & Z1). cbv zeta. set (z := ex (fmul (Bopp y) x)) in *. rewrite pow_50 in *.
  assert (X4 : (Rabs (B2R z - E) <= 8 * u * (3 + T) * E)%R).
  { replace (B2R z - E)%R with ((B2R z - exp (B2R (fmul (Bopp y) x))) + (exp (B2R (fmul (Bopp y) x)) - E))%R by ring. apply Rle_trans with (1 := Rabs_triang _ _).
    assert (8 * u * exp (B2R (fmul (Bopp y) x)) <= 8 * u * (1001 / 1000 * E))%R by (apply Rmult_le_compat_l; lra).
    replace (E * (52 / 10 * (u * T) + 2 * tn))%R with (52 / 10 * (u * T * E) + 2 * (tn * E))%R in X2 by ring.
    assert (0 <= u * T * E)%R by (apply Rmult_le_pos; lra). assert (tn * E <= / 1000000 * u * E)%R by (apply Rmult_le_compat_r; [lra|apply tn_range]).
    assert (0 <= u * E)%R by (apply Rmult_le_pos; lra). replace (8 * u * (3 + T) * E)%R with (24 * (u * E) + 8 * (u * T * E))%R by ring. lra. }
  split; [exact Fz|]. split; [exact X4|]. split; [|split].
  - apply Rabs_le_inv in X4. assert (8 * u * (3 + T) * E <= / 2 * E)%R; [apply Rmult_le_compat_r; lra|]. lra.
  - intros Et. apply Z1. rewrite Ep. unfold e. assert (xv = 0)%R. { rewrite Et in Xt. apply Rabs_le_inv in Xt. lra. } rewrite H, Rmult_0_r. apply rn_0.
  - intros Hc Hn. apply Hc; [exact Fp|]. rewrite Ep. unfold e. rewrite <- rn_0. apply rn_le.
    assert (0 <= xv)%R. { apply Rabs_le_inv in Hx. assert (4 * u * t <= 1 * t)%R by (apply Rmult_le_compat_r; lra). lra. } assert (0 <= yv * xv)%R by (apply Rmult_le_pos; assumption). lra.
Qed.


(** ---- the cached discount curve ---- *)
Definition f_cache_ok (y : f_ycurve) : Prop := forall dc, fy_dc y = Some dc ->
  fc_method dc = f_discount_method (fy_curve y) (fy_space y) /\ fc_dcc dc = fc_dcc (fy_curve y) /\ fc_ref dc = fc_ref (fy_curve y) /\ fc_left dc = ERROR /\ fc_right dc = ERROR.
Definition f_fresh (y : f_ycurve) : f_ycurve := FYC (fy_curve y) (fy_space y) None.

Lemma f_to_dc_fresh spline ex y a : f_cache_ok y ->
  snd (f_to_discount_curve spline ex y a) = snd (f_to_discount_curve spline ex (f_fresh y) a) /\
  fy_curve (fst (f_to_discount_curve spline ex y a)) = fy_curve y /\ fy_space (fst (f_to_discount_curve spline ex y a)) = fy_space y /\
  f_cache_ok (fst (f_to_discount_curve spline ex y a)).
Proof.
  intros C. unfold f_to_discount_curve. cbn [f_fresh fy_curve fy_space fy_dc].
  destruct (f_discount_values spline ex (fy_curve y) (fy_space y) a) as [vals|e]; [|cbn; auto].
  destruct (fy_dc y) as [dc|] eqn:D.
  - specialize (C dc D). destruct C as (M & Cc & Rf & L & R').
    unfold f_reset_interpolation_values, f_new_curve. rewrite M, Cc, Rf, L, R'.
    destruct (f_create_points _ _ _) as [pts|e]; cbn; (split; [reflexivity|]; split; [reflexivity|]; split; [reflexivity|]);
    intros dc' [= <-]; cbn; auto.
  - destruct (f_new_curve _ _ _ _ _ _) as [dc|e] eqn:N; cbn; (split; [reflexivity|]; split; [reflexivity|]; split; [reflexivity|]).
    + intros dc' [= <-]. cbn. apply f_new_ok in N. destruct N as (_ & A & B & X & Y & Z' & _). auto.
    + exact C.
Qed.
Lemma history_fresh spline ex hist : forall y, f_cache_ok y -> f_cache_ok (f_history spline ex y hist) /\ f_fresh (f_history spline ex y hist) = f_fresh y.
Proof.
  induction hist as [|a hist IH]; intros y C; [auto|]. unfold f_history in *. cbn [fold_left]. destruct (f_to_dc_fresh spline ex y a C) as (_ & A & B & D). destruct (IH _ D) as [E F]. split; [exact E|]. rewrite F. unfold f_fresh. rewrite A, B. reflexivity.
Qed.
Lemma new_fyc knots m c s ref l r y : f_new_yield_curve knots m c s ref l r = Ok y -> f_new_curve knots m c ref l r = Ok (fy_curve y) /\ fy_space y = s /\ f_cache_ok y /\ f_fresh y = y.
Proof.
  unfold f_new_yield_curve. destruct (f_new_curve knots m c ref l r) as [cv|e]; [|discriminate]. cbn [bind]. intros H. injection H as <-. cbn. do 2 (split; [reflexivity|]). split; [intros dc; discriminate|reflexivity].
Qed.

(** ---- a factor for every day ---- *)
Lemma fcc_combine (ex : f64 -> f64) (days : list date) : forall ts ys (f g : date -> res f64),
  Forall2 (fun d t => f d = Ok t) days ts -> Forall2 (fun d y => g d = Ok y) days ys ->
  let vals := combine days (List.map (fun p => ex (fmul (Bopp (fst p)) (snd p))) (combine ys ts)) in
  List.map fst vals = days /\ forall d v, In (d, v) vals -> exists t y, f d = Ok t /\ g d = Ok y /\ v = ex (fmul (Bopp y) t).
Proof.
  induction days as [|d days IH]; intros ts ys f g F G; inversion F; subst; inversion G; subst; cbn; [split; [auto | intros ? ? []]|].
  destruct (IH _ _ f g H3 H5) as [A B]. split; [f_equal; exact A|].
  intros d1 v [E|I]; [|auto]. injection E as <- <-. do 2 eexists. split; [eauto|]. split; [eauto|]. reflexivity.
Qed.
Lemma last_knot (kvs : list f_knot) dl vl : NoDup (List.map fst kvs) -> In (dl, vl) kvs -> (forall x, In x (List.map fst kvs) -> x <= dl) ->
  sort_by fst kvs <> [] /\ forall kv, fst (last (sort_by fst kvs) kv) = dl.
Proof.
  intros ND I Mx. apply f_in in I as I'. split; [intros E; rewrite E in I'; contradiction|]. intros kv.
  destruct (in_split _ _ I') as (pre & post & E). destruct (f_sorted_split _ _ _ _ (f_sorted kvs ND) E) as [_ B]. destruct post as [|k post].
  - rewrite E, last_app by discriminate. reflexivity.
  - exfalso. specialize (B k ltac:(left; reflexivity)). cbn in B. assert (Ik : In k kvs) by (apply f_in; rewrite E; apply in_or_app; right; right; left; reflexivity). apply (in_map fst) in Ik. exact (Z.lt_irrefl _ (Z.lt_le_trans _ _ _ B (Mx _ Ik))).
Qed.

Lemma f_ccy_core spline (ex : f64 -> f64) y a dl : fy_dc y = None -> fy_space y = CONTINUOUSLY_COMPOUNDED_YIELD -> fc_values (fy_curve y) <> [] -> (forall kv, fst (last (fc_values (fy_curve y)) kv) = dl) ->
  let c := fc_dcc (fy_curve y) in let ref := fc_ref (fy_curve y) in
  c <> THIRTY360 -> countable c ref -> countable c dl -> ref <= dl ->
  (forall d, ref <= d <= dl -> exists v, f_interpolate spline (fy_curve y) d a = Ok v /\ is_finite (ex (fmul (Bopp v) (P_FloatCurve.pos c ref d))) = true) ->
  exists dc, snd (f_to_discount_curve spline ex y a) = Ok dc /\ fc_ref dc = ref /\
    (forall d, ref <= d <= dl -> exists v w, f_interpolate spline (fy_curve y) d a = Ok v /\ f_interpolate spline dc d None = Ok w /\ val w (B2R (ex (fmul (Bopp v) (P_FloatCurve.pos c ref d))))) /\
    (forall d, d < ref \/ dl < d -> f_interpolate spline dc d None = Err ValueError).
Proof.
  intros Hd Sp NE La c ref N Rf Dl L All.
  assert (Cd : forall d, ref <= d <= dl -> countable c d). { intros d Ld. eapply countable_between; [exact Rf | exact Dl | lia]. }
  unfold f_to_discount_curve. rewrite Sp, Hd. cbn [f_discount_method]. unfold f_discount_values. destruct (fc_values (fy_curve y)) as [|kv0 vals0]; [congruence|].
  rewrite La. fold ref c.
  destruct (mapM_total (f_axis c ref) (date_range ref dl)) as (ts & Ht).
  { intros d I. apply date_range_in in I. eexists. apply (pos_ok c ref d N Rf (Cd d I)). lia. }
  destruct (mapM_total (fun d => f_interpolate spline (fy_curve y) d a) (date_range ref dl)) as (ys & Hy).
  { intros d I. apply date_range_in in I. destruct (All d I) as (v & E & _). eauto. }
  rewrite Ht. cbn [bind]. rewrite Hy. cbn [bind]. apply mapM_Forall2 in Ht. apply mapM_Forall2 in Hy.
  destruct (fcc_combine ex _ _ _ _ _ Ht Hy) as [K Vv]. set (vals := combine _ _) in *.
  assert (ND : NoDup (List.map fst vals)). { rewrite K. apply sorted_lt_NoDup, date_range_sorted. }
  assert (Kr : forall d, In d (List.map fst vals) <-> ref <= d <= dl) by (intros d; rewrite K; apply date_range_in).
  assert (Iv : forall d, ref <= d <= dl -> exists v, In (d, v) vals).
  { intros d I. apply Kr in I. apply in_map_iff in I. destruct I as ([d' v] & <- & I). eauto. }
  assert (AX : axis_ok c ref (List.map fst vals)). { split; [exact N|]. split; [exact Rf|]. intros d I. apply Cd, Kr, I. }
  assert (Fv : forall d v, In (d, v) vals -> ref <= d <= dl /\ exists yv, f_interpolate spline (fy_curve y) d a = Ok yv /\ v = ex (fmul (Bopp yv) (P_FloatCurve.pos c ref d)) /\ is_finite v = true).
  { intros d v I. assert (B : ref <= d <= dl) by (apply Kr; apply (in_map fst _ _ I)). split; [exact B|]. destruct (Vv d v I) as (t & yv & Et & Ey & ->). destruct (All d B) as (yv' & Ey' & F). assert (yv' = yv) by congruence. subst yv'.
    pose proof (pos_ok c ref d N Rf (Cd d B) ltac:(lia)) as Ep. assert (t = P_FloatCurve.pos c ref d) by congruence. subst t. exists yv. auto. }
  destruct (proj1 (C88_built vals LINEAR c ref ERROR ERROR AX)) as (dc & Hn); [intros d I; apply Kr in I; lia|].
  rewrite Hn. cbn [snd]. exists dc. split; [reflexivity|]. split; [apply (f_new_ok _ _ _ _ _ _ _ Hn)|]. split.
  - intros d B. destruct (Iv d B) as (v & I). destruct (Fv d v I) as (_ & yv & Ey & -> & F). destruct (looked_up spline vals LINEAR c ref ERROR ERROR dc d _ d (or_introl eq_refl) Hn ND AX I (or_introl eq_refl)) as (_ & _ & Q & _).
    exists yv. eexists. split; [exact Ey|]. split; [apply Q; left; reflexivity|]. apply keep. exact F.
  - intros d O. destruct (Iv ref ltac:(lia)) as (v0 & I0). destruct (Iv dl ltac:(lia)) as (v1 & I1).
    destruct (C88_ends spline vals LINEAR c ref ERROR ERROR dc ref v0 d Hn ND I0) as [A _]; [destruct (Fv _ _ I0) as (_ & ? & _ & _ & G); exact G|]. destruct (C88_ends spline vals LINEAR c ref ERROR ERROR dc dl v1 d Hn ND I1) as [_ B]; [destruct (Fv _ _ I1) as (_ & ? & _ & _ & G); exact G|].
    destruct O as [O|O]; [apply A; [intros k Ik; apply Kr in Ik; lia|exact O]|apply B; [intros k Ik; apply Kr in Ik; lia|exact O]].
Qed.

(** ---- C114 ---- *)
(** On every day up to the last knot the curve gives a yield, of ordinary size (at most 400 in total over the time to that day). *)
Definition ordinary_yields spline (cv : f_curve) (a : f_adjust) (c : dcc) (ref dl : date) : Prop := forall d, ref <= d <= dl ->
  exists v t, f_interpolate spline cv d a = Ok v /\ is_finite v = true /\ accrual c ref d t /\ (Rabs (B2R v * Q2R t) <= 400)%R.

Lemma pos_near c ref d t : c <> THIRTY360 -> countable c ref -> countable c d -> ref <= d -> accrual c ref d t ->
  exists x, val (P_FloatCurve.pos c ref d) x /\ (Rabs (x - Q2R t) <= 4 * u * Q2R t)%R /\ (0 <= Q2R t)%R /\ (d = ref -> Q2R t = 0%R).
Proof.
  intros N Rf Cd L T. destruct (axis_total c ref d N Rf Cd L) as (q & x & v & A & F & V & E & G). assert (q = t) by (unfold accrual, acc in *; congruence). subst q. assert (x = P_FloatCurve.pos c ref d) by (unfold P_FloatCurve.pos; rewrite F; reflexivity). subst x.
  exists v. split; [exact V|]. split; [exact E|]. split; [apply G|]. intros Ed. destruct (accrual_ok c ref d N Rf Cd L) as (t' & T' & Z0 & _). assert (t' = t) by (unfold accrual in *; congruence). subst t'. rewrite (Qeq_eqR _ _ (Z0 Ed)). unfold Q2R. cbn. lra.
Qed.

(** Every discount factor of a continuously compounded yield curve is a positive double with relative error at most
    2^-50 (3 + |yield * time|) of exp(-yield * time), the yield being the double the curve gives that day and the time the exact
    accrual; it is exactly 1 on the reference date; before it and after the last knot there is none. The discount curves asked for
    before do not matter. *)
Theorem C114_discount_factors : forall spline ex kvs m c ref l r y hist a dl, numpy_exp ex -> f_new_yield_curve kvs m c CONTINUOUSLY_COMPOUNDED_YIELD ref l r = Ok y ->
  NoDup (List.map fst kvs) -> In dl (List.map fst kvs) -> (forall x, In x (List.map fst kvs) -> x <= dl) -> c <> THIRTY360 -> countable c ref -> countable c dl -> ordinary_yields spline (fy_curve y) a c ref dl ->
  exists dc, snd (f_to_discount_curve spline ex (f_history spline ex y hist) a) = Ok dc /\ fc_ref dc = ref /\
    (forall d v t, ref <= d <= dl -> f_interpolate spline (fy_curve y) d a = Ok v -> accrual c ref d t ->
       exists w, f_interpolate spline dc d None = Ok w /\ is_finite w = true /\ (0 < B2R w)%R /\
         (Rabs (B2R w - exp (- (B2R v * Q2R t))) <= / 2 ^ 50 * (3 + Rabs (B2R v * Q2R t)) * exp (- (B2R v * Q2R t)))%R /\
         (d = ref -> B2R w = 1)%R /\ (capped ex -> 0 <= B2R v -> B2R w <= 1)%R) /\
    (forall d, d < ref \/ dl < d -> f_interpolate spline dc d None = Err ValueError).
Proof.
  intros spline ex kvs m c ref l r y hist a dl HE H ND Il Ml N Rf Dl All. apply new_fyc in H. destruct H as (Hn & Sp & Ck & Fr).
  destruct (history_fresh spline ex hist y Ck) as [C' F']. destruct (f_to_dc_fresh spline ex _ a C') as (-> & _). rewrite F', Fr.
  pose proof (f_new_ok _ _ _ _ _ _ _ Hn) as (V & _ & EC & ER & _ & _ & P). apply in_map_iff in Il. destruct Il as ([dl' vl] & E & Il). cbn in E. subst dl'.
  destruct (last_knot kvs dl vl ND Il Ml) as [NE La].
  assert (L : ref <= dl). { apply f_in in Il. destruct (Forall2_in_l _ _ _ _ P Il) as (p & _ & [A _]). apply (axis_after _ _ _ _ A). }
  assert (Cd : forall d, ref <= d <= dl -> countable c d). { intros d Ld. eapply countable_between; [exact Rf | exact Dl | lia]. }
  assert (Near : forall d v t, ref <= d <= dl -> f_interpolate spline (fy_curve y) d a = Ok v -> accrual c ref d t -> let z := ex (fmul (Bopp v) (P_FloatCurve.pos c ref d)) in
     is_finite z = true /\ (0 < B2R z)%R /\ (Rabs (B2R z - exp (- (B2R v * Q2R t))) <= / 2 ^ 50 * (3 + Rabs (B2R v * Q2R t)) * exp (- (B2R v * Q2R t)))%R /\ (d = ref -> B2R z = 1)%R /\ (capped ex -> 0 <= B2R v -> B2R z <= 1)%R).
  { intros d v t Ld Ev T. destruct (All d Ld) as (v' & t' & Ev' & Fv & T' & Sz). assert (v' = v) by congruence. assert (t' = t) by (unfold accrual in *; congruence). subst v' t'.
    destruct (pos_near c ref d t N Rf (Cd d Ld) ltac:(lia) T) as (x & Vx & Ex & Gt & Zt). destruct (factor_near ex v (P_FloatCurve.pos c ref d) (B2R v) x (Q2R t) HE (conj Fv eq_refl) Vx Gt Ex Sz) as (A & B & C0 & D & F). cbv zeta. split; [exact A|]. split; [exact C0|]. split; [exact B|]. split; [intros Ed; apply D, Zt, Ed|exact F]. }
  destruct (f_ccy_core spline ex y a dl) as (dc & E & Erf & A & B).
  - rewrite <- Fr. reflexivity.
  - exact Sp.
  - rewrite V. exact NE.
  - intros kv. rewrite V. apply La.
  - rewrite EC. exact N.
  - rewrite EC, ER. exact Rf.
  - rewrite EC. exact Dl.
  - rewrite ER. exact L.
  - rewrite EC, ER. intros d Ld. destruct (All d Ld) as (v & t & Ev & _ & T & _). exists v. split; [exact Ev|]. apply (Near d v t Ld Ev T).
  - rewrite EC, ER in A. rewrite ER in B, Erf. exists dc. split; [exact E|]. split; [exact Erf|]. split; [|exact B]. intros d v t Ld Ev T. destruct (A d Ld) as (v' & w & Ev' & Ew & [Fw Vw]). assert (v' = v) by congruence. subst v'. exists w. split; [exact Ew|]. split; [exact Fw|]. rewrite Vw. apply (Near d v t Ld Ev T).
Qed.
Print Assumptions C114_discount_factors.


(** The discount curve is missing exactly when the curve has no yield on some day up to the last knot, then with the exception of the
    first such day. *)
Lemma mapM_first {A B} (f : A -> res B) l e : mapM f l = Err e <-> exists before x after, l = before ++ x :: after /\ f x = Err e /\ forall z, In z before -> exists b, f z = Ok b.
Proof.
  induction l as [|a l IH]; cbn [mapM]; split.
  - discriminate.
  - intros ([|? ?] & x & after & E & _); discriminate.
  - destruct (f a) as [b|e'] eqn:Ea; cbn [bind].
    + destruct (mapM f l) as [bs|e']; [discriminate|]. intros H. injection H as ->. destruct (proj1 IH eq_refl) as (before & x & after & -> & Ex & O). exists (a :: before), x, after. split; [reflexivity|]. split; [exact Ex|]. intros z [<- | Hz]; eauto.
    + intros H. injection H as ->. exists [], a, l. split; [reflexivity|]. split; [exact Ea|]. intros z [].
  - intros ([|b before] & x & after & E & Ex & O); cbn in E; injection E as <- El.
    + rewrite Ex. reflexivity.
    + destruct (O a (or_introl eq_refl)) as (y & ->). cbn [bind]. rewrite (proj2 IH); [reflexivity|]. exists before, x, after. split; [exact El|]. split; [exact Ex|]. intros z Hz. apply O. right. exact Hz.
Qed.
Lemma sorted_split_first (l before after : list date) x : StronglySorted Z.lt l -> l = before ++ x :: after -> (forall z, In z l -> z < x -> In z before) /\ (forall z, In z before -> z < x).
Proof.
  intros S ->. induction before as [|b before IH]; cbn in S; inversion S as [|? ? H1 H2]; subst.
  - split; [|intros z []]. intros z [<- | I] L; [lia|]. rewrite Forall_forall in H2. specialize (H2 z I). lia.
  - destruct (IH H1) as [A B]. rewrite Forall_forall in H2. split; [intros z [<- | I] L; [left; reflexivity|right; auto]|]. intros z [<- | I]; auto. apply H2. apply in_or_app. right. left. reflexivity.
Qed.

Theorem C114_raises : forall spline ex kvs m c ref l r y hist a dl e, f_new_yield_curve kvs m c CONTINUOUSLY_COMPOUNDED_YIELD ref l r = Ok y ->
  NoDup (List.map fst kvs) -> In dl (List.map fst kvs) -> (forall x, In x (List.map fst kvs) -> x <= dl) -> c <> THIRTY360 -> countable c ref -> countable c dl ->
  (snd (f_to_discount_curve spline ex (f_history spline ex y hist) a) = Err e <->
   exists d, ref <= d <= dl /\ f_interpolate spline (fy_curve y) d a = Err e /\ forall d', ref <= d' < d -> exists v, f_interpolate spline (fy_curve y) d' a = Ok v).
Proof.
  intros spline ex kvs m c ref l r y hist a dl e H ND Il Ml N Rf Dl. apply new_fyc in H. destruct H as (Hn & Sp & Ck & Fr).
  destruct (history_fresh spline ex hist y Ck) as [C' F']. destruct (f_to_dc_fresh spline ex _ a C') as (-> & _). rewrite F', Fr.
  pose proof (f_new_ok _ _ _ _ _ _ _ Hn) as (V & _ & EC & ER & _ & _ & P). apply in_map_iff in Il. destruct Il as ([dl' vl] & E & Il). cbn in E. subst dl'.
  destruct (last_knot kvs dl vl ND Il Ml) as [NE La].
  assert (L : ref <= dl). { apply f_in in Il. destruct (Forall2_in_l _ _ _ _ P Il) as (p & _ & [A _]). apply (axis_after _ _ _ _ A). }
  assert (Cd : forall d, ref <= d <= dl -> countable c d). { intros d Ld. eapply countable_between; [exact Rf | exact Dl | lia]. }
  assert (Hd : fy_dc y = None) by (rewrite <- Fr; reflexivity).
  unfold f_to_discount_curve. rewrite Sp, Hd. unfold f_discount_values. rewrite V, EC, ER. destruct (sort_by fst kvs) as [|kv0 vals0]; [congruence|]. rewrite La.
  destruct (mapM_total (f_axis c ref) (date_range ref dl)) as (ts & Ht).
  { intros d I. apply date_range_in in I. eexists. apply (pos_ok c ref d N Rf (Cd d I)). lia. }
  rewrite Ht. cbn [bind]. pose proof (mapM_first (fun d => f_interpolate spline (fy_curve y) d a) (date_range ref dl)) as MF.
  assert (R : mapM (fun d => f_interpolate spline (fy_curve y) d a) (date_range ref dl) = Err e <-> exists d, ref <= d <= dl /\ f_interpolate spline (fy_curve y) d a = Err e /\ forall d', ref <= d' < d -> exists v, f_interpolate spline (fy_curve y) d' a = Ok v).
  { rewrite MF. split.
    - intros (before & x & after & Es & Ex & O). exists x. assert (Ix : In x (date_range ref dl)) by (rewrite Es; apply in_or_app; right; left; reflexivity). apply date_range_in in Ix as Ix'. split; [exact Ix'|]. split; [exact Ex|].
      intros d' Ld. apply O. apply (sorted_split_first _ _ _ _ (date_range_sorted ref dl) Es); [apply date_range_in; lia|lia].
    - intros (d & Ld & Ed & O). apply date_range_in in Ld as Id. destruct (in_split _ _ Id) as (before & after & Es). exists before, d, after. split; [exact Es|]. split; [exact Ed|]. intros z Hz. apply O.
      split; [|apply (sorted_split_first _ _ _ _ (date_range_sorted ref dl) Es); exact Hz]. assert (Iz : In z (date_range ref dl)) by (rewrite Es; apply in_or_app; left; exact Hz). apply date_range_in in Iz. lia. }
  rewrite <- R. destruct (mapM (fun d => f_interpolate spline (fy_curve y) d a) (date_range ref dl)) as [ys|e'] eqn:Hy; cbn [bind]; [|split; intros X; injection X as ->; reflexivity].
  split; [|discriminate]. intros X. exfalso. apply mapM_Forall2 in Ht. apply mapM_Forall2 in Hy. destruct (fcc_combine ex _ _ _ _ _ Ht Hy) as [K _]. set (vals := combine _ _) in *.
  destruct (proj1 (C88_built vals LINEAR c ref ERROR ERROR (conj N (conj Rf (fun d I => Cd d (proj1 (date_range_in ref dl d) (eq_ind _ (fun q => In d q) I _ K))))))) as (dc & Hdc).
  { intros d I. rewrite K in I. apply date_range_in in I. lia. }
  cbn [f_discount_method] in X. rewrite Hdc in X. discriminate.
Qed.
Print Assumptions C114_raises.

(** ---- adjustments ---- *)
Lemma add_0_finite (v : f64) : is_finite (fadd v (of_int 0)) = true -> is_finite v = true.
Proof. assert (E : exists s, of_int 0 = B754_zero s) by (eexists; reflexivity). destruct E as (s & ->). destruct v as [ | | | ]; cbn; auto. Qed.
(** up to the last knot an adjustment is added to what the curve gives without it *)
Lemma f_adjusted spline cv d f w x : f_interpolate spline cv d None = Ok w -> is_finite w = true -> (forall kv, d <= fst (last (fc_values cv) kv)) -> f (ADate d) = Ok x ->
  exists v, f_interpolate spline cv d (Some f) = Ok (fadd v x) /\ val v (B2R w).
Proof.
  unfold f_interpolate. destruct (fc_values cv) as [|[fd fv] rest]; [discriminate|]. intros H Fw La Fx. specialize (La (fd, fv)).
  assert (K : forall v : f64, Ok (fadd v (of_int 0)) = Ok w -> val v (B2R w)).
  { intros v E. injection E as <-. apply add_0_finite in Fw. split; [exact Fw|]. symmetry. apply (keep v Fw). }
  match type of H with context [@last ?A ?l ?k] => set (lst := @last A l k) in * end. change (d <= fst lst) in La. destruct lst as [ld lv]. cbn [fst] in La. cbn [f_adj_call] in *.
  destruct (d <? fd) eqn:E1; [|destruct (Z.ltb_spec ld d) as [B|B]; [exfalso; exact (Z.lt_irrefl _ (Z.lt_le_trans _ _ _ B La))|]].
  - destruct (fc_left cv); cbn [bind] in *; try (discriminate H). rewrite Fx. cbn [bind]. exists fv. split; [reflexivity|]. apply K, H.
  - destruct (f_axis _ _ _) as [t|]; [|discriminate]. cbn [bind] in *. destruct (f_interp1d _ _ _ _) as [v|]; [|discriminate]. cbn [bind] in *. rewrite Fx. cbn [bind]. exists v. split; [reflexivity|]. apply K, H.
Qed.

(** The curve's own discount factors: in DISCOUNT_FACTOR space the discount curve gives, at each knot, the knot's double plus the
    adjustment (as one addition of doubles). *)
Theorem C114_own_factors : forall spline ex kvs m c ref l r y hist (adj : date -> f64) (rest : res f64), m = LINEAR \/ m = PREVIOUS -> f_new_yield_curve kvs m c DISCOUNT_FACTOR ref l r = Ok y ->
  NoDup (List.map fst kvs) -> axis_ok c ref (List.map fst kvs) -> (forall d v, In (d, v) kvs -> in_range v /\ in_range (adj d)) ->
  exists dc, snd (f_to_discount_curve spline ex (f_history spline ex y hist) (Some (fun x => match x with ADate d => Ok (adj d) | TheClass => rest end))) = Ok dc /\
    forall d v, In (d, v) kvs -> exists w, f_interpolate spline dc d None = Ok w /\ feq w (fadd v (adj d)) = true.
Proof.
  intros spline ex kvs m c ref l r y hist adj rest M H ND AX Fin. apply new_fyc in H. destruct H as (Hn & Sp & Ck & Fr). set (ad := fun x : adj_arg => match x with ADate d => Ok (adj d) | TheClass => rest end).
  destruct (history_fresh spline ex hist y Ck) as [C' F']. destruct (f_to_dc_fresh spline ex _ (Some ad) C') as (-> & _). rewrite F', Fr.
  pose proof (f_new_ok _ _ _ _ _ _ _ Hn) as (V & EM & EC & ER & _ & _ & P). assert (Hd : fy_dc y = None) by (rewrite <- Fr; reflexivity).
  assert (G : forall d v, In (d, v) kvs -> exists z, f_interpolate spline (fy_curve y) d (Some ad) = Ok z /\ val z (rn (B2R v + B2R (adj d)))).
  { intros d v I. destruct (Fin d v I) as [[Fv Rv] [Fa Ra]]. destruct (looked_up spline kvs m c ref l r (fy_curve y) d v d M Hn ND AX I (or_introl eq_refl)) as (_ & _ & K & _). specialize (K (or_introl eq_refl)). destruct (keep v Fv) as [Fk Vk].
    destruct (f_adjusted spline (fy_curve y) d ad _ (adj d) K Fk) as (z & E & Vz); [|reflexivity|].
    - intros kv. rewrite V. apply f_in in I. pose proof (f_sorted kvs ND) as SS. destruct (sort_by fst kvs) as [|kv0 vs] eqn:Ev; [contradiction|]. pose proof (f_ends _ _ _ eq_refl SS _ I) as B. cbn [fst] in B.
      assert (El : @last f_knot (kv0 :: vs) kv = @last f_knot (kv0 :: vs) kv0). { destruct (exists_last (l := kv0 :: vs) ltac:(discriminate)) as (l' & b & ->). rewrite !last_last. reflexivity. } rewrite El. apply B.
    - eexists. split; [exact E|]. rewrite Vk in Vz. apply fadd_val; [exact Vz|exact (conj Fa eq_refl)|]. apply Rle_trans with (1 := Rabs_triang _ _). apply Rle_trans with (bpow radix2 900 + bpow radix2 900)%R; [lra|]. replace (bpow radix2 900 + bpow radix2 900)%R with (bpow radix2 1 * bpow radix2 900)%R by (change (bpow radix2 1) with 2%R; ring). rewrite <- bpow_plus. apply bpow_le. lia. }
  unfold f_to_discount_curve. rewrite Sp, Hd. unfold f_discount_values. rewrite V, EC, ER. cbn [f_discount_method]. rewrite EM.
  destruct (mapM_total (fun kv : f_knot => do v <- f_interpolate spline (fy_curve y) (fst kv) (Some ad); Ok (fst kv, v)) (sort_by fst kvs)) as (vals & Hv).
  { intros [d v] I. destruct (G d v (proj1 (f_in kvs (d, v)) I)) as (z & Ez & _). cbn [fst]. rewrite Ez. cbn. eauto. }
  change (mapM (fun kv : date * f64 => do v <- f_interpolate spline (fy_curve y) (fst kv) (Some ad); Ok (fst kv, v)) (sort_by fst kvs) = Ok vals) in Hv. rewrite Hv. cbn [bind]. apply mapM_Forall2 in Hv.
  assert (K : List.map fst vals = List.map fst (sort_by fst kvs)).
  { clear - Hv. induction Hv as [|[d v] b l l' E _ IH]; [reflexivity|]. cbn [List.map fst]. f_equal; [|exact IH]. cbn [fst] in E. destruct (f_interpolate _ _ d _); [|discriminate]. cbn in E. injection E as <-. reflexivity. }
  assert (Iv : forall d v, In (d, v) kvs -> exists z, In (d, z) vals /\ val z (rn (B2R v + B2R (adj d)))).
  { intros d v I. destruct (G d v I) as (z & Ez & Vz). apply f_in in I. destruct (Forall2_in_l _ _ _ _ Hv I) as (b & Ib & Eb). cbn [fst] in Eb. rewrite Ez in Eb. cbn in Eb. injection Eb as <-. exists z. auto. }
  assert (ND' : NoDup (List.map fst vals)) by (rewrite K; apply sorted_lt_NoDup, f_sorted, ND).
  assert (Kin : forall d, In d (List.map fst vals) -> In d (List.map fst kvs)). { intros d I. rewrite K in I. apply in_map_iff in I. destruct I as (kv & <- & I). apply in_map, f_in, I. }
  assert (AX' : axis_ok c ref (List.map fst vals)). { destruct AX as (A & B & D). split; [exact A|]. split; [exact B|]. intros d I. apply D, Kin, I. }
  destruct (proj1 (C88_built vals m c ref ERROR ERROR AX')) as (dc & Hdc).
  { intros d I. apply Kin in I. apply in_map_iff in I. destruct I as ([d' v] & Ed & I). cbn in Ed. subst d'. apply (looked_up spline kvs m c ref l r (fy_curve y) d v d M Hn ND AX I (or_introl eq_refl)). }
  rewrite Hdc. cbn [snd]. exists dc. split; [reflexivity|]. intros d v I. destruct (Iv d v I) as (z & Iz & Vz). destruct (C88_knots spline vals m c ref ERROR ERROR dc d z M Hdc ND' AX' Iz (proj1 Vz)) as (w & Ew & Q).
  destruct (Fin d v I) as [[Fv Rv] [Fa Ra]]. exists w. split; [exact Ew|]. destruct (looked_up spline vals m c ref ERROR ERROR dc d z d M Hdc ND' AX' Iz (or_introl eq_refl)) as (_ & _ & Kw & _). specialize (Kw (or_introl eq_refl)). assert (w = fadd z (of_int 0)) by congruence. subst w.
  assert (Va : val (fadd v (adj d)) (rn (B2R v + B2R (adj d)))).
  { apply fadd_val; [exact (conj Fv eq_refl)|exact (conj Fa eq_refl)|]. apply Rle_trans with (1 := Rabs_triang _ _). apply Rle_trans with (bpow radix2 900 + bpow radix2 900)%R; [lra|]. replace (bpow radix2 900 + bpow radix2 900)%R with (bpow radix2 1 * bpow radix2 900)%R by (change (bpow radix2 1) with 2%R; ring). rewrite <- bpow_plus. apply bpow_le. lia. }
  apply (feq_val _ _ _ _ (keep z (proj1 Vz)) Va). apply Vz.
Qed.
Print Assumptions C114_own_factors.

(** Every other space: a string is called where a discount curve is expected *)
Theorem C114_other_spaces : forall spline ex y a, fy_space y <> DISCOUNT_FACTOR -> fy_space y <> CONTINUOUSLY_COMPOUNDED_YIELD ->
  snd (f_to_discount_curve spline ex y a) = Err TypeError.
Proof. intros spline ex y a A B. unfold f_to_discount_curve, f_discount_values. destruct (fy_space y); try congruence; reflexivity. Qed.
Print Assumptions C114_other_spaces.


Lemma find_between (ks : list date) : forall d d1, In d1 ks -> d <= d1 -> (exists d0, In d0 ks /\ d0 <= d) -> In d ks \/ exists d0 d1, neighbouring ks d0 d1 /\ d0 < d < d1.
Proof.
  intros d d1 I1 L1 (d0 & I0 & L0).
  assert (A : exists a, In a ks /\ a <= d /\ forall x, In x ks -> x <= d -> x <= a).
  { clear - I0 L0. revert d0 I0 L0. induction ks as [|k ks IH]; intros d0 I0 L0; [contradiction|]. destruct (Z_le_gt_dec k d) as [Lk|Lk].
    - destruct (existsb (fun x => x <=? d) ks) eqn:Ex.
      + apply existsb_exists in Ex. destruct Ex as (x & Ix & Lx). apply Z.leb_le in Lx. destruct (IH x Ix Lx) as (a & Ia & La & Ma). exists (Z.max a k). split; [destruct (Z.max_spec a k) as [[_ ->]|[_ ->]]; [left; reflexivity|right; exact Ia]|]. split; [lia|].
        intros z [<- | Iz] Lz; [lia|]. specialize (Ma z Iz Lz). lia.
      + exists k. split; [left; reflexivity|]. split; [exact Lk|]. intros z [<- | Iz] Lz; [lia|]. exfalso. assert (existsb (fun x => x <=? d) ks = true) by (apply existsb_exists; exists z; split; [exact Iz|apply Z.leb_le; exact Lz]). congruence.
    - destruct I0 as [-> | I0]; [lia|]. destruct (IH d0 I0 L0) as (a & Ia & La & Ma). exists a. split; [right; exact Ia|]. split; [exact La|]. intros z [<- | Iz] Lz; [lia|auto]. }
  assert (B : exists a, In a ks /\ d <= a /\ forall x, In x ks -> d <= x -> a <= x).
  { clear - I1 L1. revert d1 I1 L1. induction ks as [|k ks IH]; intros d0 I0 L0; [contradiction|]. destruct (Z_le_gt_dec d k) as [Lk|Lk].
    - destruct (existsb (fun x => d <=? x) ks) eqn:Ex.
      + apply existsb_exists in Ex. destruct Ex as (x & Ix & Lx). apply Z.leb_le in Lx. destruct (IH x Ix Lx) as (a & Ia & La & Ma). exists (Z.min a k). split; [destruct (Z.min_spec a k) as [[_ ->]|[_ ->]]; [right; exact Ia|left; reflexivity]|]. split; [lia|].
        intros z [<- | Iz] Lz; [lia|]. specialize (Ma z Iz Lz). lia.
      + exists k. split; [left; reflexivity|]. split; [exact Lk|]. intros z [<- | Iz] Lz; [lia|]. exfalso. assert (existsb (fun x => d <=? x) ks = true) by (apply existsb_exists; exists z; split; [exact Iz|apply Z.leb_le; exact Lz]). congruence.
    - destruct I0 as [-> | I0]; [lia|]. destruct (IH d0 I0 L0) as (a & Ia & La & Ma). exists a. split; [right; exact Ia|]. split; [exact La|]. intros z [<- | Iz] Lz; [lia|auto]. }
  destruct A as (a & Ia & La & Ma). destruct B as (b & Ib & Lb & Mb). destruct (Z.eq_dec a d) as [<- | Na]; [left; exact Ia|]. destruct (Z.eq_dec b d) as [<- | Nb]; [left; exact Ib|]. right. exists a, b. split; [|lia]. split; [exact Ia|]. split; [exact Ib|]. split; [lia|].
  intros x Ix [Lx1 Lx2]. destruct (Z_le_gt_dec x d) as [Lx|Lx]; [specialize (Ma x Ix Lx); lia|specialize (Mb x Ix ltac:(lia)); lia].
Qed.

(** Usual curves have ordinary yields: linear or previous, constant before the first knot, knot values at most 1 (a hundred per cent),
    neighbours equal or not astronomically close, no knot more than 400 years away. *)
Theorem C114_ordinary : forall spline kvs m c ref r y dl, f_new_yield_curve kvs m c CONTINUOUSLY_COMPOUNDED_YIELD ref CONSTANT r = Ok y -> m = LINEAR \/ m = PREVIOUS ->
  NoDup (List.map fst kvs) -> In dl (List.map fst kvs) -> (forall x, In x (List.map fst kvs) -> x <= dl) -> c <> THIRTY360 -> countable c ref -> countable c dl ->
  (forall d v, In (d, v) kvs -> is_finite v = true /\ (Rabs (B2R v) <= 1)%R) -> (forall d0 v0 d1 v1, In (d0, v0) kvs -> In (d1, v1) kvs -> apart v0 v1) -> (forall t, accrual c ref dl t -> (t <= 400)%Q) ->
  ordinary_yields spline (fy_curve y) None c ref dl.
Proof.
  intros spline kvs m c ref r y dl H M ND Il Ml N Rf Dl Sz Ap Tl d Ld. apply new_fyc in H. destruct H as (Hn & _).
  pose proof (f_new_ok _ _ _ _ _ _ _ Hn) as (V & _ & _ & _ & _ & _ & P).
  assert (Ge : forall x, In x (List.map fst kvs) -> ref <= x). { intros x Ix. apply in_map_iff in Ix. destruct Ix as (kv & <- & I). apply f_in in I. destruct (Forall2_in_l _ _ _ _ P I) as (p & _ & [A _]). apply (axis_after _ _ _ _ A). }
  assert (Cd : forall d, ref <= d <= dl -> countable c d). { intros x Lx. eapply countable_between; [exact Rf | exact Dl | lia]. }
  assert (AX : axis_ok c ref (List.map fst kvs)). { split; [exact N|]. split; [exact Rf|]. intros x Ix. apply Cd. split; [apply Ge, Ix|apply Ml, Ix]. }
  destruct (accrual_ok c ref d N Rf (Cd d Ld) ltac:(lia)) as (t & T & _).
  assert (Bt : (0 <= Q2R t <= 400)%R).
  { destruct (pos_near c ref d t N Rf (Cd d Ld) ltac:(lia) T) as (_ & _ & _ & G & _). split; [exact G|]. destruct (Z.eq_dec d dl) as [-> | Nd]; [specialize (Tl t T); apply Qle_Rle in Tl; unfold Q2R in Tl at 2; cbn in Tl; lra|].
    destruct (accrual_ok c ref dl N Rf Dl ltac:(lia)) as (t' & T' & _). pose proof (axis_gap c ref d dl t t' N Rf (Cd d Ld) Dl ltac:(lia) ltac:(lia) T T') as Gp. specialize (Tl t' T'). apply Qle_Rle in Tl. unfold Q2R in Tl at 2. cbn in Tl. lra. }
  assert (Val : exists v, f_interpolate spline (fy_curve y) d None = Ok v /\ is_finite v = true /\ (Rabs (B2R v) <= 1)%R).
  { assert (One : (1 <= bpow radix2 900)%R) by (change 1%R with (bpow radix2 0); apply bpow_le; lia).
    assert (Rg : forall d v, In (d, v) kvs -> in_range v) by (intros d' v I; destruct (Sz d' v I) as [F B]; split; [exact F|lra]).
    assert (Same : forall (v x : f64), (exists d', In (d', v) kvs) -> (exists z, f_interpolate spline (fy_curve y) d None = Ok z /\ feq z v = true) -> exists z, f_interpolate spline (fy_curve y) d None = Ok z /\ is_finite z = true /\ (Rabs (B2R z) <= 1)%R).
    { intros v _ (d' & I) (z & E & Q). exists z. split; [exact E|]. destruct (Sz d' v I) as [F B]. assert (Fz : is_finite z = true). { revert Q F. clear. destruct z as [ | [] | | ], v as [ | [] | | ]; cbn; try discriminate; reflexivity. }
      split; [exact Fz|]. apply (feq_val _ _ _ _ (conj Fz eq_refl) (conj F eq_refl)) in Q. rewrite Q. exact B. }
    destruct (existsb (fun x => x <=? d) (List.map fst kvs)) eqn:Ex.
    - apply existsb_exists in Ex. destruct Ex as (x & Ix & Lx). apply Z.leb_le in Lx. destruct (find_between (List.map fst kvs) d dl Il ltac:(lia)) as [I | (d0 & d1 & Nb & Lb)]; [exists x; auto| |].
      + apply in_map_iff in I. destruct I as ([d' v] & Ed & I). cbn in Ed. subst d'. apply (Same v v); [eauto|]. apply (C88_knots spline kvs m c ref CONSTANT r _ d v M Hn ND AX I). apply (Sz _ _ I).
      + destruct Nb as (I0 & I1 & Lt & Em). pose proof (conj I0 (conj I1 (conj Lt Em))) as Nb. apply in_map_iff in I0, I1. destruct I0 as ([d0' v0] & E0 & I0). destruct I1 as ([d1' v1] & E1 & I1). cbn in E0, E1. subst d0' d1'. destruct M as [-> | ->].
        * destruct (C88_between spline kvs c ref CONSTANT r _ d0 v0 d1 v1 d Hn ND AX I0 I1 Nb ltac:(lia) (Rg _ _ I0) (Rg _ _ I1) (Ap _ _ _ _ I0 I1)) as (z & E & F & A & B). exists z. split; [exact E|]. split; [exact F|].
          destruct (Sz _ _ I0) as [F0 B0]. destruct (Sz _ _ I1) as [F1 B1]. assert (W0 : val v0 (B2R v0)) by (split; auto). assert (W1 : val v1 (B2R v1)) by (split; auto). assert (Wz : val z (B2R z)) by (split; auto). apply Rabs_le_inv in B0, B1. apply Rabs_le.
          destruct (Rle_or_lt (B2R v0) (B2R v1)) as [L|L]; [apply (fle_val _ _ _ _ W0 W1) in L; destruct (A L) as [X1 X2]; apply (fle_val _ _ _ _ W0 Wz) in X1; apply (fle_val _ _ _ _ Wz W1) in X2; lra|].
          apply Rlt_le, (fle_val _ _ _ _ W1 W0) in L. destruct (B L) as [X1 X2]. apply (fle_val _ _ _ _ W1 Wz) in X1. apply (fle_val _ _ _ _ Wz W0) in X2. lra.
        * apply (Same v0 v0); [eauto|]. apply (C88_previous spline kvs c ref CONSTANT r _ d0 v0 d1 d Hn ND AX I0 Nb ltac:(lia) (proj1 (Sz _ _ I0))).
    - destruct (fc_values (fy_curve y)) as [|[fd fv] vs] eqn:Ev; [apply in_map_iff in Il; destruct Il as (kv & _ & I); apply f_in in I; rewrite <- V in I; contradiction|].
      assert (If : In (fd, fv) kvs) by (apply f_in; rewrite <- V; left; reflexivity). apply (Same fv fv); [eauto|].
      destruct (C88_ends spline kvs m c ref CONSTANT r _ fd fv d Hn ND If (proj1 (Sz _ _ If))) as [A _]. apply A.
      + intros k Ik. apply in_map_iff in Ik. destruct Ik as (kv & <- & I). apply f_in in I. pose proof (f_ends _ _ _ (eq_sym V) (f_sorted kvs ND) _ I) as B. cbn [fst] in B. apply B.
      + apply (in_map fst) in If. cbn [fst] in If. destruct (Z_lt_ge_dec d fd) as [L|L]; [exact L|]. exfalso. assert (existsb (fun x => x <=? d) (List.map fst kvs) = true) by (apply existsb_exists; exists fd; split; [exact If|apply Z.leb_le; lia]). congruence. }
  destruct Val as (v & E & F & B). exists v, t. split; [exact E|]. split; [exact F|]. split; [exact T|]. rewrite Rabs_mult, (Rabs_pos_eq (Q2R t)) by lra. apply Rle_trans with (1 * 400)%R; [apply Rmult_le_compat; try lra; apply Rabs_pos|lra].
Qed.
Print Assumptions C114_ordinary.

(** Beside the curve in exact arithmetic: if the yields of the two differ by at most [eta], the factors differ by a relative
    2^-49 (3 + |yield * time|) + 2 eta * time. *)
Theorem C114_exact : forall spline ex spline' kvs m c ref l r y hist a dl l' r' yE aE, numpy_exp ex -> f_new_yield_curve kvs m c CONTINUOUSLY_COMPOUNDED_YIELD ref l r = Ok y ->
  new_yield_curve (List.map (fun kv => (fst kv, B2R (snd kv))) kvs) m c CONTINUOUSLY_COMPOUNDED_YIELD ref l' r' = Ok yE ->
  NoDup (List.map fst kvs) -> In dl (List.map fst kvs) -> (forall x, In x (List.map fst kvs) -> x <= dl) -> c <> THIRTY360 -> countable c ref -> countable c dl -> ordinary_yields spline (fy_curve y) a c ref dl ->
  (forall d, ref <= d <= dl -> exists e, interpolate spline' (y_curve yE) d aE = Ok e) ->
  exists dc dcE, snd (f_to_discount_curve spline ex (f_history spline ex y hist) a) = Ok dc /\ snd (to_discount_curve spline' yE aE) = Ok dcE /\
    forall d v e t eta, ref <= d <= dl -> f_interpolate spline (fy_curve y) d a = Ok v -> interpolate spline' (y_curve yE) d aE = Ok e -> accrual c ref d t -> (Rabs (B2R v - e) <= eta)%R -> (eta * Q2R t <= 1 / 4)%R ->
      exists w f, f_interpolate spline dc d None = Ok w /\ is_finite w = true /\ interpolate spline' dcE d None = Ok f /\ (0 < f)%R /\
        (Rabs (B2R w - f) <= (/ 2 ^ 49 * (3 + Rabs (e * Q2R t)) + 2 * (eta * Q2R t)) * f)%R.
Proof.
  intros spline ex spline' kvs m c ref l r y hist a dl l' r' yE aE HE H HE' ND Il Ml N Rf Dl All AllE.
  destruct (C114_discount_factors spline ex kvs m c ref l r y hist a dl HE H ND Il Ml N Rf Dl All) as (dc & Edc & _ & A & _).
  set (kE := List.map (fun kv : f_knot => (fst kv, B2R (snd kv))) kvs) in *. assert (Kk : knots kE = List.map fst kvs) by (unfold knots, kE; rewrite map_map; apply map_ext; reflexivity).
  assert (Il' : exists vl, In (dl, vl) kE). { rewrite <- Kk in Il. unfold knots in Il. apply in_map_iff in Il. destruct Il as ([d' vl] & E & I). cbn in E. subst d'. eauto. } destruct Il' as (vl & Il').
  destruct (C29_discount_factors spline' kE m c ref l' r' yE [] aE dl vl HE') as (dcE & EdcE & B & _); auto.
  { intros o []. } { rewrite Kk. exact ND. } { intros x Ix. rewrite Kk in Ix. apply Ml, Ix. }
  exists dc, dcE. split; [exact Edc|]. split; [exact EdcE|]. intros d v e t eta Ld Ev Ee T He Ht. destruct (A d v t Ld Ev T) as (w & Ew & Fw & Pw & Nw & _). destruct (B d Ld) as (t' & e' & T' & Ee' & Ef).
  assert (e' = e) by congruence. assert (t' = t) by (unfold accrual in *; congruence). subst e' t'. exists w. eexists. split; [exact Ew|]. split; [exact Fw|]. split; [exact Ef|]. split; [apply exp_pos|].
  assert (Gt : (0 <= Q2R t)%R). { destruct (pos_near c ref d t N Rf) as (_ & _ & _ & G & _); [eapply countable_between; [exact Rf|exact Dl|lia]|lia|exact T|exact G]. }
  set (vv := B2R v) in *. set (tt := Q2R t) in *. set (E := exp (- (e * tt))). assert (E0 : (0 < E)%R) by apply exp_pos. pose proof (Rabs_pos (vv - e)) as P0.
  set (dl' := ((e - vv) * tt)%R). assert (Hd : (Rabs dl' <= eta * tt)%R). { unfold dl'. rewrite Rabs_mult, Rabs_minus_sym, (Rabs_pos_eq tt) by exact Gt. apply Rmult_le_compat_r; [exact Gt|exact He]. }
  assert (Ex : (exp (- (vv * tt)) = E * exp dl')%R) by (unfold E; rewrite <- exp_plus; f_equal; unfold dl'; ring). pose proof (exp_one dl' ltac:(lra)) as X. rewrite Ex in Nw. set (g := (eta * tt)%R) in *.
  assert (Xe : (exp dl' <= 4 / 3)%R) by (apply Rabs_le_inv in X; lra). pose proof (exp_pos dl') as Xp.
  assert (Tv : (Rabs (vv * tt) <= Rabs (e * tt) + 1 / 4)%R). { replace (vv * tt)%R with (e * tt - dl')%R by (unfold dl'; ring). apply Rle_trans with (1 := Rabs_triang _ _). rewrite Rabs_Ropp. lra. }
  replace (B2R w - E)%R with ((B2R w - E * exp dl') + E * (exp dl' - 1))%R by ring. apply Rle_trans with (1 := Rabs_triang _ _). rewrite (Rabs_mult E), (Rabs_pos_eq E) by lra.
  assert (Z1 : (E * Rabs (exp dl' - 1) <= E * (4 / 3 * g))%R) by (apply Rmult_le_compat_l; lra).
  assert (P50 : (/ 2 ^ 49 = 2 * / 2 ^ 50)%R) by (change (/ 2 ^ 49)%R with (/ 2 ^ Pos.to_nat 49)%R; change (/ 2 ^ 50)%R with (/ 2 ^ Pos.to_nat 50)%R; rewrite !two_pow; replace 2%R with (bpow radix2 1) by reflexivity; rewrite <- bpow_plus; reflexivity).
  assert (P5 : (0 < / 2 ^ 50)%R) by (apply Rinv_0_lt_compat, pow_lt; lra). rewrite P50. set (k := (/ 2 ^ 50)%R) in *. pose proof (Rabs_pos (e * tt)) as Q0. set (T1 := Rabs (e * tt)) in *.
  assert (Z2 : (k * (3 + Rabs (vv * tt)) * (E * exp dl') <= k * (3 + (T1 + 1 / 4)) * (E * (4 / 3)))%R).
  { apply Rmult_le_compat; [apply Rmult_le_pos; [lra|pose proof (Rabs_pos (vv * tt)); lra]|apply Rmult_le_pos; lra|apply Rmult_le_compat_l; lra|apply Rmult_le_compat_l; lra]. }
  assert (g0 : (0 <= g)%R) by (pose proof (Rabs_pos dl'); lra). assert (kE0 : (0 <= k * E)%R) by (apply Rmult_le_pos; lra). assert (kT : (0 <= k * T1 * E)%R) by (apply Rmult_le_pos; [apply Rmult_le_pos; lra|lra]). assert (Eg : (0 <= E * g)%R) by (apply Rmult_le_pos; lra).
  replace (k * (3 + (T1 + 1 / 4)) * (E * (4 / 3)))%R with (13 / 3 * (k * E) + 4 / 3 * (k * T1 * E))%R in Z2 by field. replace ((2 * k * (3 + T1) + 2 * g) * E)%R with (6 * (k * E) + 2 * (k * T1 * E) + 2 * (E * g))%R by ring. lra.
Qed.
Print Assumptions C114_exact.


(** exp rounded to the nearest double *)
Definition exact_np (x : f64) : f64 := nearest_f64 (exp (B2R x)).
Lemma exact_np_val (x : f64) : (B2R x <= 500)%R -> val (exact_np x) (rn (exp (B2R x))).
Proof. intros H. apply nearest_f64_val, exp_big, H. Qed.
Lemma exact_np_ok : numpy_exp exact_np /\ capped exact_np.
Proof.
  split.
  - intros x Fx Hx. destruct (exact_np_val x Hx) as [F V]. split; [exact F|]. rewrite V. pose proof (exp_pos (B2R x)) as P. pose proof u_tiny. split.
    + apply Rle_trans with (1 := rn_sub _). rewrite pow_50, Rabs_pos_eq by lra. assert (0 <= u * exp (B2R x))%R by (apply Rmult_le_pos; lra).
      assert (/ 2 ^ 1074 <= / 2 ^ 1070)%R; [|lra]. change (/ 2 ^ 1074)%R with (/ 2 ^ Pos.to_nat 1074)%R. change (/ 2 ^ 1070)%R with (/ 2 ^ Pos.to_nat 1070)%R. rewrite !two_pow. apply bpow_le. lia.
    + intros Z. rewrite Z, exp_0. rewrite <- (proj2 (of_int_val 1 ltac:(lia))). apply rn_B2R.
  - intros x Fx Hx. destruct (exact_np_val x ltac:(lra)) as [_ ->]. assert (R1 : rn 1 = 1%R) by (rewrite <- (proj2 (of_int_val 1 ltac:(lia))); apply rn_B2R). rewrite <- R1. apply rn_le. rewrite <- exp_0. apply exp_le. exact Hx.
Qed.

(** a yield of 2^-60 per year, one day *)
Definition tiny_yield : list f_knot := [(738521, flit 1 (-60)); (738522, flit 1 (-60))].
Lemma tiny_val : val (flit 1 (-60)) (bpow radix2 (-60)).
Proof.
  pose proof (flit_val 1 (-60) ltac:(lia) ltac:(lia)) as H. rewrite Rmult_1_l in H. exact H.
Qed.
Lemma march d : 738521 <= d <= 738522 -> countable ACT365 d.
Proof. intros L. split; [unfold date_ok, min_date, max_date; lia|discriminate]. Qed.
Lemma tiny_curve : exists y, f_new_yield_curve tiny_yield LINEAR ACT365 CONTINUOUSLY_COMPOUNDED_YIELD 738521 CONSTANT CONSTANT = Ok y /\ f_new_curve tiny_yield LINEAR ACT365 738521 CONSTANT CONSTANT = Ok (fy_curve y).
Proof.
  assert (AX : axis_ok ACT365 738521 (List.map fst tiny_yield)). { split; [discriminate|]. split; [apply march; lia|]. intros d [<- | [<- | []]]; cbn [fst]; apply march; lia. }
  destruct (proj1 (C88_built tiny_yield LINEAR ACT365 738521 CONSTANT CONSTANT AX)) as (cv & E); [intros d [<- | [<- | []]]; cbn [fst]; lia|].
  unfold f_new_yield_curve. rewrite E. eexists. split; reflexivity.
Qed.
Lemma tiny_ordinary y spline : f_new_yield_curve tiny_yield LINEAR ACT365 CONTINUOUSLY_COMPOUNDED_YIELD 738521 CONSTANT CONSTANT = Ok y -> ordinary_yields spline (fy_curve y) None ACT365 738521 738522.
Proof.
  intros H. destruct tiny_val as [F V]. eapply C114_ordinary; [exact H|left; reflexivity|repeat constructor; cbn; intuition lia|right; left; reflexivity|intros x [<- | [<- | []]]; cbn [fst]; lia|discriminate|apply march; lia|apply march; lia| | |].
  - assert (B : (Rabs (B2R (flit 1 (-60))) <= 1)%R). { rewrite V, Rabs_pos_eq by apply bpow_ge_0. change 1%R with (bpow radix2 0). apply bpow_le. lia. }
    intros d v [E | [E | []]]; injection E as <- <-; auto.
  - intros d0 v0 d1 v1 [E | [E | []]] [E' | [E' | []]]; injection E as <- <-; injection E' as <- <-; left; reflexivity.
  - intros t T. vm_compute in T. injection T as <-. discriminate.
Qed.

(** A positive yield need not give a factor below 1, even if exp is correctly rounded: 2^-60 per year, the next day. *)
Theorem C114_positive_yield_refuted : exists y dc v w, numpy_exp exact_np /\ capped exact_np /\
  f_new_yield_curve tiny_yield LINEAR ACT365 CONTINUOUSLY_COMPOUNDED_YIELD 738521 CONSTANT CONSTANT = Ok y /\ snd (f_to_discount_curve no_spline exact_np y None) = Ok dc /\
  f_interpolate no_spline (fy_curve y) 738522 None = Ok v /\ (0 < B2R v)%R /\ f_interpolate no_spline dc 738522 None = Ok w /\ B2R w = 1%R.
Proof.
  destruct tiny_curve as (y & H & Hc). destruct exact_np_ok as [A B]. pose proof (tiny_ordinary y no_spline H) as O.
  assert (ND : NoDup (List.map fst tiny_yield)) by (repeat constructor; cbn; intuition lia).
  destruct (C114_discount_factors no_spline exact_np tiny_yield LINEAR ACT365 738521 CONSTANT CONSTANT y [] None 738522 A H ND ltac:(right; left; reflexivity)) as (dc & Edc & _ & Fac & _); [intros x [<- | [<- | []]]; cbn [fst]; lia|discriminate|apply march; lia|apply march; lia|exact O|].
  destruct (C88_knots no_spline tiny_yield LINEAR ACT365 738521 CONSTANT CONSTANT (fy_curve y) 738522 (flit 1 (-60)) (or_introl eq_refl) Hc ND) as (v & Ev & Q).
  { split; [discriminate|]. split; [apply march; lia|]. intros d [<- | [<- | []]]; cbn [fst]; apply march; lia. }
  { right. left. reflexivity. } { apply tiny_val. }
  destruct (O 738522 ltac:(lia)) as (v' & t & Ev' & Fv & T & _). assert (v' = v) by congruence. subst v'. apply (feq_val _ _ _ _ (conj Fv eq_refl) tiny_val) in Q.
  destruct (Fac 738522 v t ltac:(lia) Ev T) as (w & Ew & Fw & _). clear Fac.
  exists y, dc, v, w. split; [exact A|]. split; [exact B|]. split; [exact H|]. split; [exact Edc|]. split; [exact Ev|]. split; [rewrite Q; apply bpow_gt_0|]. split; [exact Ew|].
  pose proof H as H'. apply new_fyc in H'. destruct H' as (_ & Sp & _ & Fr). cbn [f_history fold_left] in Edc. pose proof (f_new_ok _ _ _ _ _ _ _ Hc) as (V & _ & EC & ER & _ & _ & _).
  destruct (last_knot tiny_yield 738522 (flit 1 (-60)) ND ltac:(right; left; reflexivity)) as [NE La]; [intros x [<- | [<- | []]]; cbn [fst]; lia|].
  destruct (pos_near ACT365 738521 738522 t ltac:(discriminate) (march 738521 ltac:(lia)) (march 738522 ltac:(lia)) ltac:(lia) T) as (x & Vx & Ex & Gt & _).
  assert (Tt : (Q2R t <= 1)%R). { vm_compute in T. injection T as <-. unfold Q2R. cbn. lra. }
  destruct (f_ccy_core no_spline exact_np y None 738522) as (dc' & E' & _ & A' & _); rewrite ?EC, ?ER; try (apply march; lia); try lia; try discriminate; auto.
  - rewrite <- Fr. reflexivity.
  - rewrite V. exact NE.
  - intros kv. rewrite V. apply La.
  - intros d Ld. destruct (O d Ld) as (v1 & t1 & E1 & F1 & T1 & S1). exists v1. split; [exact E1|]. destruct (pos_near ACT365 738521 d t1 ltac:(discriminate) (march 738521 ltac:(lia)) (march d Ld) ltac:(lia) T1) as (x1 & Vx1 & Ex1 & Gt1 & _). apply (factor_near exact_np v1 _ (B2R v1) x1 (Q2R t1) A (conj F1 eq_refl) Vx1 Gt1 Ex1 S1).
  - rewrite EC, ER in A'. assert (dc' = dc) by congruence. subst dc'. destruct (A' 738522 ltac:(lia)) as (v1 & w1 & E1 & Ew1 & [_ Vw]). assert (v1 = v) by congruence. assert (w1 = w) by congruence. subst v1 w1. rewrite Vw.
    set (k := bpow radix2 (-60)) in *. assert (K0 : (0 < k)%R) by apply bpow_gt_0. assert (K1 : (k <= / 1000000)%R) by (apply Rle_trans with (bpow radix2 (-20)); [apply bpow_le; lia|change (bpow radix2 (-20)) with (/ 1048576)%R; lra]).
    pose proof u_tiny as U. assert (Xb : (0 <= x <= 2)%R). { apply Rabs_le_inv in Ex. assert (4 * u * Q2R t <= 1 * Q2R t)%R by (apply Rmult_le_compat_r; lra). lra. }
    assert (Vo : val (Bopp v) (- k)) by (rewrite <- Q; apply val_opp; split; auto). assert (kx : (0 <= k * x <= k * 2)%R) by (split; [apply Rmult_le_pos; lra|apply Rmult_le_compat_l; lra]).
    assert (Vp : val (fmul (Bopp v) (P_FloatCurve.pos ACT365 738521 738522)) (rn (- k * x))). { apply fmul_val; [exact Vo|exact Vx|]. apply big_ok. apply Rabs_le. lra. }
    assert (Ep : (- (2 * k) <= rn (- k * x) <= 0)%R). { split; [|rewrite <- rn_0; apply rn_le; lra]. assert (R2 : rn (- (2 * k)) = (- (2 * k))%R). { rewrite rn_opp. f_equal. apply rn_format. replace (2 * k)%R with (bpow radix2 (-59)) by (unfold k; replace 2%R with (bpow radix2 1) by reflexivity; rewrite <- bpow_plus; reflexivity). apply generic_format_bpow. cbn. unfold FLT_exp. lia. } rewrite <- R2. apply rn_le. lra. }
    destruct Vp as [_ Vp]. destruct (exact_np_val (fmul (Bopp v) (P_FloatCurve.pos ACT365 738521 738522)) ltac:(rewrite Vp; lra)) as [_ ->]. rewrite Vp. apply rn_near_one. split; [|rewrite <- exp_0; apply exp_le; lra].
    pose proof (exp_above (rn (- k * x))). assert (2 * k < / 2 ^ 54)%R; [|lra]. replace (2 * k)%R with (bpow radix2 (-59)) by (unfold k; replace 2%R with (bpow radix2 1) by reflexivity; rewrite <- bpow_plus; reflexivity). change (/ 2 ^ 54)%R with (/ 2 ^ Pos.to_nat 54)%R. rewrite two_pow. apply bpow_lt. lia.
Qed.
Print Assumptions C114_positive_yield_refuted.

Example C114_case : exists y yE, numpy_exp exact_np /\ f_new_yield_curve tiny_yield LINEAR ACT365 CONTINUOUSLY_COMPOUNDED_YIELD 738521 CONSTANT CONSTANT = Ok y /\ NoDup (List.map fst tiny_yield) /\
  ordinary_yields no_spline (fy_curve y) None ACT365 738521 738522 /\ new_yield_curve (List.map (fun kv => (fst kv, B2R (snd kv))) tiny_yield) LINEAR ACT365 CONTINUOUSLY_COMPOUNDED_YIELD 738521 CONSTANT CONSTANT = Ok yE /\
  (forall d, 738521 <= d <= 738522 -> exists e, interpolate (fun _ _ _ => 0%R) (y_curve yE) d None = Ok e).
Proof.
  destruct tiny_curve as (y & H & Hc). exists y. eexists. split; [apply exact_np_ok|]. split; [exact H|]. split; [repeat constructor; cbn; intuition lia|]. split; [apply tiny_ordinary, H|]. split; [unfold tiny_yield; cbn [List.map fst snd]; reflexivity|].
  intros d L. assert (D : d = 738521 \/ d = 738522) by lia. destruct D as [-> | ->]; eexists; reflexivity.
Qed.
