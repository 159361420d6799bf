(** Present values and key rate risk of yield curves in double precision: C115. *)
From Verif Require Import Base PyDate PyDateFacts DayCount DayCountFacts PyList KeyRate KeyRateFacts P_KeyRate Curve CurveFacts P_Curve Cashflow CashflowFacts P_Yield Float FloatFacts FloatDayCount P_FloatDayCount FloatKeyRate P_FloatKeyRate FloatCurve P_FloatCurve FloatCashflow P_FloatCashflow P_FloatStamp P_FloatBond P_FloatLoan P_FloatSwap P_FloatYield FloatVasicek P_FloatVasicek FloatYieldCurve P_FloatYieldCurve.
From Coq Require Import Reals Rpower Qreals Lra Lqa Sorting.Sorted Permutation.
From Flocq Require Import Core BinarySingleNaN.
Ltac lra := first [Lra.lra | Lqa.lra].
Ltac nra := Lra.nra.
Open Scope Z_scope.


(** ---- a key rate with a negative bump ---- *)
Lemma fmul_opp_r (r b b' : f64) v B : val b B -> val b' (- B) -> val (fmul r b) v -> val (fmul r b') (- v).
Proof.
  intros [Fb Eb] [Fb' Eb'] [F V]. unfold fmul in F, V |- *. pose proof (Bmult_correct 53 1024 prec_gt prec_lt mode_NE r b) as C. pose proof (Bmult_correct 53 1024 prec_gt prec_lt mode_NE r b') as C'.
  change (round radix2 _ (round_mode mode_NE) ?x) with (rn x) in C, C'. rewrite Eb in C. rewrite Eb' in C'. rewrite Ropp_mult_distr_r_reverse, rn_opp, Rabs_Ropp in C'.
  destruct (Rlt_bool (Rabs (rn (B2R r * B))) (bpow radix2 1024)).
  - destruct C as (V1 & F1 & _). destruct C' as (V2 & F2 & _). rewrite F1 in F. apply andb_prop in F. split; [rewrite F2; destruct F as [-> _]; exact Fb'|]. rewrite V2. f_equal. rewrite <- V1. exact V.
  - exfalso. rewrite <- (is_finite_SF_B2SF 53 1024 (Bmult mode_NE r b)) in F. rewrite C in F. destruct (xorb (Bsign r) (Bsign b)); discriminate.
Qed.
Lemma fmul_opp_l (r b b' : f64) v B : val b B -> val b' (- B) -> val (fmul b r) v -> val (fmul b' r) (- v).
Proof.
  intros [Fb Eb] [Fb' Eb'] [F V]. unfold fmul in F, V |- *. pose proof (Bmult_correct 53 1024 prec_gt prec_lt mode_NE b r) as C. pose proof (Bmult_correct 53 1024 prec_gt prec_lt mode_NE b' r) as C'.
  change (round radix2 _ (round_mode mode_NE) ?x) with (rn x) in C, C'. rewrite Eb in C. rewrite Eb' in C'. rewrite Ropp_mult_distr_l_reverse, rn_opp, Rabs_Ropp in C'.
  destruct (Rlt_bool (Rabs (rn (B * B2R r))) (bpow radix2 1024)).
  - destruct C as (V1 & F1 & _). destruct C' as (V2 & F2 & _). rewrite F1 in F. apply andb_prop in F. split; [rewrite F2; destruct F as [_ ->]; rewrite Fb'; reflexivity|]. rewrite V2. f_equal. rewrite <- V1. exact V.
  - exfalso. rewrite <- (is_finite_SF_B2SF 53 1024 (Bmult mode_NE b r)) in F. rewrite C in F. destruct (xorb (Bsign b) (Bsign r)); discriminate.
Qed.
Lemma zero_opp : val (of_int 0) (- 0).
Proof. rewrite Ropp_0. exact zero_val. Qed.

Lemma f_adjustment_opp c (b b' : f64) B cap d x v : val b B -> val b' (- B) -> f_adjustment c b cap d = Ok x -> val x v ->
  exists x', f_adjustment c b' cap d = Ok x' /\ val x' (- v).
Proof.
  intros Vb Vb' H V. destruct cap as [[prior middle] next]. cbn [f_adjustment] in *.
  assert (Same : Ok b = Ok x -> exists x', Ok b' = Ok x' /\ val x' (- v)).
  { intros [= <-]. exists b'. split; [reflexivity|]. replace v with B; [exact Vb'|]. destruct V as [_ <-], Vb as [_ E]. symmetry. exact E. }
  assert (Zero : Ok (of_int 0) = Ok x -> exists x', Ok (of_int 0) = Ok x' /\ val x' (- v)).
  { intros E. exists (of_int 0). split; [reflexivity|]. injection E as E. rewrite <- E in V. replace v with 0%R; [exact zero_opp|]. destruct V as [_ <-]. symmetry. apply zero_val. }
  destruct prior as [p|], next as [f|].
  - destruct ((f <=? d) || (d <=? p)); [apply Zero, H|]. destruct (d <=? middle).
    + destruct (f_acc c p d) as [t|]; [|discriminate]. destruct (f_acc c p middle) as [T|]; [|discriminate]. cbn [bind] in *. destruct (fdiv t T) as [r|]; [|discriminate]. cbn [bind] in *. injection H as H. eexists. split; [reflexivity|]. rewrite <- H in V. exact (fmul_opp_r _ _ _ _ _ Vb Vb' V).
    + destruct (f_acc c d f) as [t|]; [|discriminate]. destruct (f_acc c middle f) as [T|]; [|discriminate]. cbn [bind] in *. destruct (fdiv t T) as [r|]; [|discriminate]. cbn [bind] in *. injection H as H. eexists. split; [reflexivity|]. rewrite <- H in V. exact (fmul_opp_r _ _ _ _ _ Vb Vb' V).
  - destruct (middle <=? d); [apply Same, H|]. destruct (d <=? p); [apply Zero, H|].
    destruct (f_acc c p d) as [t|]; [|discriminate]. destruct (f_acc c p middle) as [T|]; [|discriminate]. cbn [bind] in *. destruct (fdiv t T) as [r|]; [|discriminate]. cbn [bind] in *. injection H as H. eexists. split; [reflexivity|]. rewrite <- H in V. exact (fmul_opp_r _ _ _ _ _ Vb Vb' V).
  - destruct (d <=? middle); [apply Same, H|]. destruct (f <=? d); [apply Zero, H|].
    destruct (f_acc c d f) as [t|]; [|discriminate]. destruct (f_acc c middle f) as [T|]; [|discriminate]. cbn [bind] in *. destruct (fdiv t T) as [r|]; [|discriminate]. cbn [bind] in *. injection H as H. eexists. split; [reflexivity|]. rewrite <- H in V. exact (fmul_opp_l _ _ _ _ _ Vb Vb' V).
  - destruct (d <=? middle); [apply Same, H|discriminate].
Qed.

(** scaling an exact adjustment *)
Lemma adjustment_scale c (b q : Q) cap d : adjustment c 1 cap d = Ok q -> exists q', adjustment c b cap d = Ok q' /\ (q' == b * q)%Q.
Proof.
  intros H. destruct cap as [[prior middle] next]. cbn [adjustment] in *.
  assert (Same : Ok 1%Q = Ok q -> exists q', Ok b = Ok q' /\ (q' == b * q)%Q). { intros [= <-]. exists b. split; [reflexivity|ring]. }
  assert (Zero : Ok 0%Q = Ok q -> exists q', Ok 0%Q = Ok q' /\ (q' == b * q)%Q). { intros [= <-]. exists 0%Q. split; [reflexivity|ring]. }
  destruct prior as [p|], next as [f|].
  - destruct ((f <=? d) || (d <=? p)); [apply Zero, H|]. destruct (d <=? middle).
    + destruct (acc c p d) as [t|]; [|discriminate]. destruct (acc c p middle) as [T|]; [|discriminate]. cbn [bind] in *. destruct (qdiv t T) as [r|]; [|discriminate]. cbn [bind] in *. injection H as <-. eexists. split; [reflexivity|ring].
    + destruct (acc c d f) as [t|]; [|discriminate]. destruct (acc c middle f) as [T|]; [|discriminate]. cbn [bind] in *. destruct (qdiv t T) as [r|]; [|discriminate]. cbn [bind] in *. injection H as <-. eexists. split; [reflexivity|ring].
  - destruct (middle <=? d); [apply Same, H|]. destruct (d <=? p); [apply Zero, H|].
    destruct (acc c p d) as [t|]; [|discriminate]. destruct (acc c p middle) as [T|]; [|discriminate]. cbn [bind] in *. destruct (qdiv t T) as [r|]; [|discriminate]. cbn [bind] in *. injection H as <-. eexists. split; [reflexivity|ring].
  - destruct (d <=? middle); [apply Same, H|]. destruct (f <=? d); [apply Zero, H|].
    destruct (acc c d f) as [t|]; [|discriminate]. destruct (acc c middle f) as [T|]; [|discriminate]. cbn [bind] in *. destruct (qdiv t T) as [r|]; [|discriminate]. cbn [bind] in *. injection H as <-. eexists. split; [reflexivity|ring].
  - destruct (d <=? middle); [apply Same, H|discriminate].
Qed.

(** ---- specification ---- *)
(** the double 0.0001 and half of it *)
Definition bp_value : R := (IZR 7378697629483821 * bpow radix2 (-66))%R.
Definition half_bp_Q : Q := 7378697629483821 # (2 ^ 67).
(** what one unit of a key rate adds to the yield on a day, in exact arithmetic; the key rate is used only where this is defined *)
Definition key_weight (k : kr) (d : date) : R := match kr_call (set_bump_val 1 k) d with Ok q => Q2R q | Err _ => 0%R end.
Definition weighs (k : kr) (d : date) : Prop := exists q, kr_call (set_bump_val 1 k) d = Ok q.

Lemma bp_val : val f_basis_point bp_value.
Proof. unfold f_basis_point, bp_value. apply flit_val; lia. Qed.
Lemma bp_bounds : (1 / 10001 <= bp_value <= 1 / 9999)%R.
Proof. unfold bp_value. change (bpow radix2 (-66)) with (/ 73786976294838206464)%R. lra. Qed.
Lemma half_value : (bp_value / 2 = IZR 7378697629483821 * bpow radix2 (-67))%R.
Proof. unfold bp_value. change (bpow radix2 (-66)) with (/ 73786976294838206464)%R. change (bpow radix2 (-67)) with (/ 147573952589676412928)%R. lra. Qed.
Lemma half_rn : rn (bp_value / 2) = (bp_value / 2)%R.
Proof. rewrite half_value. apply (val_format (flit 7378697629483821 (-67))). apply flit_val; lia. Qed.
Lemma half_Q : (Q2R half_bp_Q = bp_value / 2)%R.
Proof. rewrite half_value. unfold half_bp_Q, Q2R. cbn [Qnum Qden]. change (bpow radix2 (-67)) with (/ 147573952589676412928)%R. reflexivity. Qed.
Lemma two_val : val (of_int 2) 2.
Proof. apply of_int_val. lia. Qed.
Lemma half_up : exists h, fdiv f_basis_point (of_int 2) = Ok h /\ val h (bp_value / 2).
Proof. destruct (fdiv_val _ _ _ _ bp_val two_val ltac:(lra)) as (h & E & V); [|exists h; split; [exact E|rewrite half_rn in V; exact V]]. apply big_ok. pose proof bp_bounds. rewrite Rabs_pos_eq by lra. lra. Qed.
Lemma half_down : exists h, fdiv (Bopp f_basis_point) (of_int 2) = Ok h /\ val h (- (bp_value / 2)).
Proof.
  pose proof bp_bounds. destruct (fdiv_val _ _ _ _ (val_opp _ _ bp_val) two_val ltac:(lra)) as (h & E & V).
  - apply big_ok. apply Rabs_le. lra.
  - exists h. split; [exact E|]. replace (- bp_value / 2)%R with (- (bp_value / 2))%R in V by field. rewrite rn_opp, half_rn in V. exact V.
Qed.

Definition key_dates_ok (k : kr) : Prop := reachable k /\ kr_dcc k <> THIRTY360 /\ countable (kr_dcc k) (kr_date k) /\
  (forall p, kr_prior k = Some p -> countable (kr_dcc k) p) /\ (forall f, kr_next k = Some f -> countable (kr_dcc k) f).

Lemma reachable_bump k b : reachable k -> reachable (set_bump_val b k).
Proof.
  intros (c & d & p & n & ops & P & N & ->). exists c, d, p, n, (ops ++ [SetBump b]). split; [exact P|]. split; [exact N|]. unfold kr_run. rewrite fold_left_app. reflexivity.
Qed.

(** the float adjustments by half a basis point either way *)
Lemma key_halves k d h h' : key_dates_ok k -> weighs k d -> val h (bp_value / 2) -> val h' (- (bp_value / 2)) ->
  exists x x' v, f_kr_call h (create_adjustment_function (create_adjustment_function k)) d = Ok x /\ f_kr_call h' (create_adjustment_function (create_adjustment_function k)) d = Ok x' /\
    val x v /\ val x' (- v) /\ (0 <= v <= bp_value / 2)%R /\ (0 <= key_weight k d <= 1001 / 1000)%R /\ (Rabs (v - bp_value / 2 * key_weight k d) <= / 2 ^ 49 * (bp_value / 2 * key_weight k d))%R.
Proof.
  intros (R & NT & Cm & Cp & Cf) (q & W) Vh Vh'. pose proof bp_bounds as BB. unfold key_weight. rewrite W.
  pose proof (reachable_bump k half_bp_Q R) as R'. unfold kr_call in W. cbn [set_bump_val create_adjustment_function kr_dcc kr_bump kr_fun kr_date kr_prior kr_next] in W.
  destruct (adjustment_scale _ half_bp_Q _ _ _ W) as (q' & W' & Eq).
  destruct (C87_one (set_bump_val half_bp_Q k) d h q' R') as (x & Ex & Fx & L0 & L1 & _ & _ & _ & Er); try assumption.
  - apply Vh.
  - destruct Vh as [_ ->]. split; [lra|]. apply Rle_trans with 1%R; [lra|]. change 1%R with (bpow radix2 0). apply bpow_le. lia.
  - cbn [set_bump_val create_adjustment_function kr_bump]. rewrite half_Q. destruct Vh as [_ ->]. reflexivity.
  - unfold f_kr_call in Ex. cbn [set_bump_val create_adjustment_function kr_dcc kr_fun kr_date kr_prior kr_next] in Ex.
    assert (Vx : val x (B2R x)) by (split; [exact Fx|reflexivity]). destruct (f_adjustment_opp _ _ _ _ _ _ _ _ Vh Vh' Ex Vx) as (x' & Ex' & Vx').
    exists x, x', (B2R x). split; [exact Ex|]. split; [exact Ex'|]. split; [exact Vx|]. split; [exact Vx'|].
    apply (fle_val _ _ _ _ zero_val Vx) in L0. apply (fle_val _ _ _ _ Vx Vh) in L1. split; [lra|].
    assert (Eqr : (Q2R q' = bp_value / 2 * Q2R q)%R). { apply Qeq_eqR in Eq. rewrite Eq, Q2R_mult, half_Q. reflexivity. }
    rewrite Eqr in Er. specialize (Er ltac:(right; destruct Vh as [_ ->]; apply Rle_trans with (bpow radix2 (-20)); [apply bpow_le; lia|change (bpow radix2 (-20)) with (/ 1048576)%R; lra])). split; [|exact Er].
    assert (P49 : (0 < / 2 ^ 49 <= / 1000000)%R). { split; [apply Rinv_0_lt_compat, pow_lt; lra|]. change (/ 2 ^ 49)%R with (/ 2 ^ Pos.to_nat 49)%R. rewrite two_pow. apply Rle_trans with (bpow radix2 (-20)); [apply bpow_le; lia|change (bpow radix2 (-20)) with (/ 1048576)%R; lra]. }
    set (e := (/ 2 ^ 49)%R) in *. set (hb := (bp_value / 2)%R) in *. assert (Hb : (0 < hb)%R) by (unfold hb; lra). set (w := Q2R q) in *.
    pose proof (Rabs_pos (B2R x - hb * w)) as A0. assert (Hw : (0 <= hb * w)%R). { destruct (Rle_or_lt 0 (hb * w)); [assumption|]. exfalso. assert (e * (hb * w) < 0)%R; [|lra]. replace 0%R with (e * 0)%R by ring. apply Rmult_lt_compat_l; lra. }
    split; [apply Rmult_le_reg_l with hb; lra|]. apply Rabs_le_inv in Er. apply Rmult_le_reg_l with hb; [exact Hb|]. assert (e * (hb * w) <= / 1000000 * (hb * w))%R by (apply Rmult_le_compat_r; lra). lra.
Qed.


(** ---- specification ---- *)
(** accrued years from the reference date *)
Definition years (c : dcc) (ref d : date) : R := match acc c ref d with Ok t => Q2R t | Err _ => 0%R end.
(** value of the payments [l] at the yields [yv], and its gross value: the same with absolute amounts *)
Definition value_at (yv : date -> R) (c : dcc) (ref : date) (l : list (date * f64)) : R := sumR (List.map (fun p => B2R (snd p) * exp (- (yv (fst p) * years c ref (fst p))))%R l).
Definition gross_at (yv : date -> R) (c : dcc) (ref : date) (l : list (date * f64)) : R := sumR (List.map (fun p => Rabs (B2R (snd p)) * exp (- (yv (fst p) * years c ref (fst p))))%R l).
(** amounts that are zero or of ordinary size *)
Definition amount_ok (a : f64) : Prop := is_finite a = true /\ (B2R a = 0 \/ bpow radix2 (-200) <= Rabs (B2R a) <= bpow radix2 140)%R.

Lemma exp_low400 x : (-402 <= x)%R -> (bpow radix2 (-648) <= exp x)%R.
Proof.
  intros H. assert (Z : (exp (- (402)) <= exp x)%R) by (apply exp_le; lra). apply Rle_trans with (2 := Z). clear Z.
  rewrite exp_Ropp. change (-648) with (Z.opp 648). rewrite bpow_opp. apply Rinv_le_contravar; [apply exp_pos|].
  assert (G : forall n, (exp (INR n) <= 3 ^ n)%R). { induction n as [|n IH]; [cbn; rewrite exp_0; lra|]. rewrite S_INR, exp_plus. cbn [pow]. rewrite (Rmult_comm 3). pose proof exp_le_3. apply Rmult_le_compat; [apply Rlt_le, exp_pos|apply Rlt_le, exp_pos|exact IH|lra]. }
  apply Rle_trans with (exp (INR (5 * 81))); [apply exp_le; rewrite INR_IZR_INZ; cbn; lra|]. apply Rle_trans with (1 := G (5 * 81)%nat). rewrite pow_mult. replace (bpow radix2 648) with ((2 ^ 8) ^ 81)%R; [apply pow_incr; lra|].
  rewrite <- pow_mult. change (8 * 81)%nat with (Pos.to_nat 648). rewrite pow_two. reflexivity.
Qed.
Lemma exp_high x : (x <= 402)%R -> (exp x <= bpow radix2 648)%R.
Proof.
  intros H. pose proof (exp_low400 (- x) ltac:(lra)) as L. rewrite exp_Ropp in L. change (-648) with (Z.opp 648) in L. rewrite bpow_opp in L. pose proof (exp_pos x). pose proof (bpow_gt_0 radix2 648). rewrite <- (Rinv_inv (exp x)), <- (Rinv_inv (bpow radix2 648)). apply Rinv_le_contravar; [apply Rinv_0_lt_compat; assumption|exact L].
Qed.

(** one factor against a nearby yield *)
Lemma near_factor w v t e g K : (Rabs (w - exp (- (v * t))) <= / 2 ^ 50 * (3 + Rabs (v * t)) * exp (- (v * t)))%R -> (Rabs (v * t - e * t) <= g)%R -> (0 <= g <= 1 / 4)%R -> (Rabs (e * t) <= K)%R ->
  (Rabs (w - exp (- (e * t))) <= (/ 2 ^ 49 * (4 + K) + 3 / 2 * g) * exp (- (e * t)))%R.
Proof.
  intros Nw D Hg HK. set (E := exp (- (e * t))) in *. assert (E0 : (0 < E)%R) by apply exp_pos. set (dl := (e * t - v * t)%R). assert (Hd : (Rabs dl <= g)%R) by (unfold dl; rewrite Rabs_minus_sym; exact D).
  assert (Ex : (exp (- (v * t)) = E * exp dl)%R) by (unfold E; rewrite <- exp_plus; f_equal; unfold dl; ring). pose proof (exp_one dl ltac:(lra)) as X. rewrite Ex in Nw.
  assert (Xe : (exp dl <= 4 / 3)%R) by (apply Rabs_le_inv in X; lra). pose proof (exp_pos dl) as Xp.
  assert (Tv : (Rabs (v * t) <= K + 1 / 4)%R). { replace (v * t)%R with (e * t - dl)%R by (unfold dl; ring). apply Rle_trans with (1 := Rabs_triang _ _). rewrite Rabs_Ropp. lra. }
  replace (w - E)%R with ((w - E * exp dl) + E * (exp dl - 1))%R by ring. apply Rle_trans with (1 := Rabs_triang _ _). rewrite (Rabs_mult E), (Rabs_pos_eq E) by lra.
  assert (Z1 : (E * Rabs (exp dl - 1) <= E * (4 / 3 * g))%R) by (apply Rmult_le_compat_l; lra).
  assert (P50 : (/ 2 ^ 49 = 2 * / 2 ^ 50)%R) by (change (/ 2 ^ 49)%R with (/ 2 ^ Pos.to_nat 49)%R; change (/ 2 ^ 50)%R with (/ 2 ^ Pos.to_nat 50)%R; rewrite !two_pow; replace 2%R with (bpow radix2 1) by reflexivity; rewrite <- bpow_plus; reflexivity).
  assert (P5 : (0 < / 2 ^ 50)%R) by (apply Rinv_0_lt_compat, pow_lt; lra). rewrite P50. set (k := (/ 2 ^ 50)%R) in *. pose proof (Rabs_pos (e * t)) as Q0. pose proof (Rabs_pos (v * t)) as Q1.
  assert (Z2 : (k * (3 + Rabs (v * t)) * (E * exp dl) <= k * (3 + (K + 1 / 4)) * (E * (4 / 3)))%R).
  { apply Rmult_le_compat; [apply Rmult_le_pos; lra|apply Rmult_le_pos; lra|apply Rmult_le_compat_l; lra|apply Rmult_le_compat_l; lra]. }
  assert (kE0 : (0 <= k * E)%R) by (apply Rmult_le_pos; lra). assert (kT : (0 <= k * K * E)%R) by (apply Rmult_le_pos; [apply Rmult_le_pos; lra|lra]). assert (Eg : (0 <= E * g)%R) by (apply Rmult_le_pos; lra).
  replace (k * (3 + (K + 1 / 4)) * (E * (4 / 3)))%R with (13 / 3 * (k * E) + 4 / 3 * (k * K * E))%R in Z2 by field. replace ((2 * k * (4 + K) + 3 / 2 * g) * E)%R with (8 * (k * E) + 2 * (k * K * E) + 3 / 2 * (E * g))%R by ring. lra.
Qed.

Lemma sums_near {A} (f g : A -> R) (w : A -> R) (k : R) (l : list A) : (forall a, In a l -> Rabs (f a - w a * g a) <= k * Rabs (w a) * g a)%R -> (forall a, 0 <= g a)%R ->
  (Rabs (sumR (List.map f l) - sumR (List.map (fun a => w a * g a) l)) <= k * sumR (List.map (fun a => Rabs (w a) * g a) l))%R /\
  (sum_abs (List.map f l) <= (1 + k) * sumR (List.map (fun a => Rabs (w a) * g a) l))%R.
Proof.
  intros H G. unfold sum_abs, sumR. induction l as [|a l IH]; cbn [List.map fold_right]; [rewrite Rminus_0_r, Rabs_R0; lra|].
  destruct IH as [I1 I2]; [intros x Hx; apply H; right; exact Hx|]. specialize (H a (or_introl eq_refl)). specialize (G a).
  set (s := fold_right Rplus 0%R (List.map f l)) in *. set (s' := fold_right Rplus 0%R (List.map (fun a => w a * g a)%R l)) in *. set (T := fold_right Rplus 0%R (List.map (fun a => Rabs (w a) * g a)%R l)) in *.
  split.
  - replace (f a + s - (w a * g a + s'))%R with ((f a - w a * g a) + (s - s'))%R by ring. apply Rle_trans with (1 := Rabs_triang _ _). lra.
  - assert (Rabs (f a) <= k * Rabs (w a) * g a + Rabs (w a) * g a)%R; [|lra]. replace (f a) with ((f a - w a * g a) + w a * g a)%R by ring. apply Rle_trans with (1 := Rabs_triang _ _). rewrite (Rabs_mult (w a)), (Rabs_pos_eq (g a)) by exact G. lra.
Qed.

Lemma yc_pv_state spline ex total y c a dc : snd (f_to_discount_curve spline ex y a) = Ok dc -> snd (f_yc_present_value spline ex y (f_cashflow_instrument spline total c) a) = f_cf_present_value total c (f_as_discount spline dc).
Proof. unfold f_yc_present_value. destruct (f_to_discount_curve spline ex y a) as [y' r]. cbn [snd]. intros ->. reflexivity. Qed.

Lemma pv_near : forall spline ex total kvs m c ref l r y hist a dl pays yv g K, numpy_exp ex -> either_sum total -> f_new_yield_curve kvs m c CONTINUOUSLY_COMPOUNDED_YIELD ref l r = Ok y ->
  NoDup (List.map fst kvs) -> In dl (List.map fst kvs) -> (forall x, In x (List.map fst kvs) -> x <= dl) -> c <> THIRTY360 -> countable c ref -> countable c dl -> ordinary_yields spline (fy_curve y) a c ref dl ->
  (Z.of_nat (List.length pays) <= 2 ^ 30)%Z -> (forall p, In p (received ref pays) -> fst p <= dl /\ amount_ok (snd p)) ->
  (0 <= g <= 1 / 4)%R -> (0 <= K <= 401)%R ->
  (forall d v, ref <= d <= dl -> f_interpolate spline (fy_curve y) d a = Ok v -> (Rabs (B2R v * years c ref d - yv d * years c ref d) <= g)%R /\ (Rabs (yv d * years c ref d) <= K)%R) ->
  exists x, snd (f_yc_present_value spline ex (f_history spline ex y hist) (f_cashflow_instrument spline total pays) a) = Ok x /\ is_finite x = true /\
    (Rabs (B2R x - value_at yv c ref (received ref pays)) <= ((INR (List.length (received ref pays)) + K + 2) / 2 ^ 46 + 2 * g) * gross_at yv c ref (received ref pays))%R.
Proof.
  intros spline ex total kvs m c ref l r y hist a dl pays yv g K HE ES H ND Il Ml N Rf Dl All Le Am Hg HK Near.
  destruct (C114_discount_factors spline ex kvs m c ref l r y hist a dl HE H ND Il Ml N Rf Dl All) as (dc & Edc & Rdc & A & _).
  rewrite (yc_pv_state spline ex total _ pays a dc Edc). set (D := f_as_discount spline dc). assert (RD : fd_ref D = ref) by exact Rdc.
  assert (kp : (0 < / 2 ^ 49 <= / 1000000)%R). { split; [apply Rinv_0_lt_compat, pow_lt; lra|]. change (/ 2 ^ 49)%R with (/ 2 ^ Pos.to_nat 49)%R. rewrite two_pow. apply Rle_trans with (bpow radix2 (-20)); [apply bpow_le; lia|change (bpow radix2 (-20)) with (/ 1048576)%R; lra]. }
  set (k := (/ 2 ^ 49 * (4 + K) + 3 / 2 * g)%R). assert (Hk : (0 <= k <= 1 / 2)%R). { unfold k. assert (0 <= / 2 ^ 49 * (4 + K) <= / 1000000 * 405)%R by (split; [apply Rmult_le_pos; lra|apply Rmult_le_compat; lra]). lra. }
  assert (Fac : forall p, In p (received ref pays) -> exists w, fd_call D (fst p) = Ok w /\ is_finite w = true /\ (0 < B2R w)%R /\ (bpow radix2 (-649) <= B2R w <= bpow radix2 649)%R /\
      (Rabs (B2R w - exp (- (yv (fst p) * years c ref (fst p)))) <= k * exp (- (yv (fst p) * years c ref (fst p))))%R).
  { intros p I. destruct (Am p I) as [Lp _]. assert (Rp : ref <= fst p). { unfold received in I. apply in_flat_map in I. destruct I as (q & _ & I). destruct (fp_amount q); [|destruct I]. destruct (Z.leb_spec ref (fp_date q)); [|destruct I]. destruct I as [<- | []]. assumption. }
    destruct (All (fst p) (conj Rp Lp)) as (v & t & Ev & Fv & T & _). destruct (A (fst p) v t (conj Rp Lp) Ev T) as (w & Ew & Fw & Pw & Nw & _).
    assert (Ye : years c ref (fst p) = Q2R t) by (unfold years, acc; unfold accrual in T; rewrite T; reflexivity). destruct (Near (fst p) v (conj Rp Lp) Ev) as [N1 N2]. rewrite Ye in *.
    pose proof (near_factor (B2R w) (B2R v) (Q2R t) (yv (fst p)) g K Nw N1 Hg N2) as X. fold k in X. exists w. split; [exact Ew|]. split; [exact Fw|]. split; [exact Pw|]. split; [|exact X].
    apply Rabs_le_inv in N2. pose proof (exp_low400 (- (yv (fst p) * Q2R t)) ltac:(lra)) as L1. pose proof (exp_high (- (yv (fst p) * Q2R t)) ltac:(lra)) as L2. set (E := exp (- (yv (fst p) * Q2R t))) in *. assert (E0 : (0 < E)%R) by apply exp_pos.
    assert (kE : (k * E <= 1 / 2 * E)%R) by (apply Rmult_le_compat_r; lra). apply Rabs_le_inv in X.
    replace (bpow radix2 (-649)) with (/ 2 * bpow radix2 (-648))%R by (change (-649) with (-1 + -648); rewrite bpow_plus; reflexivity). replace (bpow radix2 649) with (2 * bpow radix2 648)%R by (change 649 with (1 + 648); rewrite bpow_plus; reflexivity). lra. }
  destruct (C91_present_value total pays D ES Le) as (x & Ex & Fx & Er).
  { intros p I. rewrite RD in I. destruct (Fac p I) as (w & Ew & Fw & Pw & [B1 B2] & _). destruct (Am p I) as [_ [Fa Ra]]. exists w. split; [exact Ew|]. split; [exact Fw|]. split; [exact Fa|].
    destruct Ra as [-> | [R1 R2]]; [left; ring|right]. rewrite Rabs_mult, (Rabs_pos_eq (B2R w)) by lra. split.
    - apply Rle_trans with (bpow radix2 (-649) * bpow radix2 (-200))%R; [rewrite <- bpow_plus; apply bpow_le; lia|]. apply Rmult_le_compat; try assumption; apply bpow_ge_0.
    - apply Rle_trans with (bpow radix2 649 * bpow radix2 140)%R; [|rewrite <- bpow_plus; apply bpow_le; lia]. apply Rmult_le_compat; try assumption; [lra|apply Rabs_pos]. }
  exists x. split; [exact Ex|]. split; [exact Fx|]. rewrite RD in Er. cbn zeta in Er. set (L := received ref pays) in *.
  set (gg := fun p : date * f64 => exp (- (yv (fst p) * years c ref (fst p)))).
  destruct (sums_near (worth D) gg (fun p => B2R (snd p)) k L) as [S1 S2].
  { intros p I. destruct (Fac p I) as (w & Ew & _ & _ & _ & X). unfold worth. rewrite Ew. fold (gg p) in X. replace (B2R w * B2R (snd p) - B2R (snd p) * gg p)%R with (B2R (snd p) * (B2R w - gg p))%R by ring. rewrite Rabs_mult. replace (k * Rabs (B2R (snd p)) * gg p)%R with (Rabs (B2R (snd p)) * (k * gg p))%R by ring. apply Rmult_le_compat_l; [apply Rabs_pos|exact X]. }
  { intros p. apply Rlt_le, exp_pos. }
  change (sumR (List.map (fun a => B2R (snd a) * gg a)%R L)) with (value_at yv c ref L) in S1. change (sumR (List.map (fun a => Rabs (B2R (snd a)) * gg a)%R L)) with (gross_at yv c ref L) in S1, S2.
  set (G := gross_at yv c ref L) in *. set (V := value_at yv c ref L) in *. set (W := sumR (List.map (worth D) L)) in *. set (SA := sum_abs (List.map (worth D) L)) in *.
  assert (SA0 : (0 <= SA)%R) by apply sum_abs_pos. assert (G0 : (0 <= G)%R). { destruct (Rle_or_lt 0 G); [assumption|]. exfalso. assert ((1 + k) * G < 0)%R; [|lra]. replace 0%R with ((1 + k) * 0)%R by ring. apply Rmult_lt_compat_l; lra. }
  set (n := INR (List.length L)) in *. assert (n0 : (0 <= n)%R) by apply pos_INR.
  assert (P49 : (/ 2 ^ 49 = / 8 * / 2 ^ 46)%R) by (rewrite <- Rinv_mult; f_equal; ring). assert (P47 : (/ 2 ^ 47 = / 2 * / 2 ^ 46)%R) by (rewrite <- Rinv_mult; f_equal; ring).
  assert (p46 : (0 < / 2 ^ 46)%R) by (apply Rinv_0_lt_compat, pow_lt; lra). unfold k in S1. unfold Rdiv in *. rewrite P47 in Er. rewrite P49 in S1. set (h := (/ 2 ^ 46)%R) in *.
  replace (B2R x - V)%R with ((B2R x - W) + (W - V))%R by ring. apply Rle_trans with (1 := Rabs_triang _ _).
  assert (E1 : ((n + 1) * (/ 2 * h) * SA <= (n + 1) * (/ 2 * h) * (2 * G))%R). { apply Rmult_le_compat_l; [apply Rmult_le_pos; lra|]. apply Rle_trans with (1 := S2). apply Rmult_le_compat_r; lra. }
  assert (hG : (0 <= h * G)%R) by (apply Rmult_le_pos; lra). assert (nG : (0 <= n * (h * G))%R) by (apply Rmult_le_pos; lra). assert (KG : (0 <= K * (h * G))%R) by (apply Rmult_le_pos; lra). assert (gG : (0 <= g * G)%R) by (apply Rmult_le_pos; lra).
  replace ((n + 1) * (/ 2 * h) * (2 * G))%R with (n * (h * G) + h * G)%R in E1 by field. replace ((/ 8 * h * (4 + K) + 3 * / 2 * g) * G)%R with (/ 2 * (h * G) + / 8 * (K * (h * G)) + 3 / 2 * (g * G))%R in S1 by field.
  replace (((n + K + 2) * h + 2 * g) * G)%R with (n * (h * G) + K * (h * G) + 2 * (h * G) + 2 * (g * G))%R by ring. lra.
Qed.


(** the yield of the curve on a day, and the yield with [s] units of a key rate added *)
Definition yield_at spline (cv : f_curve) (d : date) : R := match f_interpolate spline cv d None with Ok v => B2R v | Err _ => 0%R end.
Definition bumped spline (cv : f_curve) (k : kr) (s : R) (d : date) : R := (yield_at spline cv d + s * key_weight k d)%R.
(** every day has a yield of size at most 2^30, at most 400 years away, with |yield * years| at most [K] *)
Definition plain_yields spline (cv : f_curve) (c : dcc) (ref dl : date) (K : R) : Prop := forall d, ref <= d <= dl ->
  exists v t, f_interpolate spline cv d None = Ok v /\ is_finite v = true /\ (Rabs (B2R v) <= bpow radix2 30)%R /\ accrual c ref d t /\ (Q2R t <= 400)%R /\ (Rabs (B2R v * Q2R t) <= K)%R.

Theorem C115_present_value : forall spline ex total kvs m c ref l r y hist a dl pays yv g K, numpy_exp ex -> either_sum total -> f_new_yield_curve kvs m c CONTINUOUSLY_COMPOUNDED_YIELD ref l r = Ok y ->
  NoDup (List.map fst kvs) -> In dl (List.map fst kvs) -> (forall x, In x (List.map fst kvs) -> x <= dl) -> c <> THIRTY360 -> countable c ref -> countable c dl -> ordinary_yields spline (fy_curve y) a c ref dl ->
  (Z.of_nat (List.length pays) <= 2 ^ 30)%Z -> (forall p, In p (received ref pays) -> fst p <= dl /\ amount_ok (snd p)) ->
  (0 <= g <= 1 / 4)%R -> (0 <= K <= 401)%R ->
  (forall d v, ref <= d <= dl -> f_interpolate spline (fy_curve y) d a = Ok v -> (Rabs (B2R v * years c ref d - yv d * years c ref d) <= g)%R /\ (Rabs (yv d * years c ref d) <= K)%R) ->
  exists x, snd (f_yc_present_value spline ex (f_history spline ex y hist) (f_cashflow_instrument spline total pays) a) = Ok x /\ is_finite x = true /\
    (Rabs (B2R x - value_at yv c ref (received ref pays)) <= ((INR (List.length (received ref pays)) + K + 2) / 2 ^ 46 + 2 * g) * gross_at yv c ref (received ref pays))%R.
Proof. exact pv_near. Qed.
Print Assumptions C115_present_value.

(** A payment after the last knot, with an amount, is the only obstacle. *)
Theorem C115_late_payment : forall spline ex total kvs m c ref l r y hist a dl pays e, numpy_exp ex -> f_new_yield_curve kvs m c CONTINUOUSLY_COMPOUNDED_YIELD ref l r = Ok y ->
  NoDup (List.map fst kvs) -> In dl (List.map fst kvs) -> (forall x, In x (List.map fst kvs) -> x <= dl) -> c <> THIRTY360 -> countable c ref -> countable c dl -> ordinary_yields spline (fy_curve y) a c ref dl ->
  snd (f_yc_present_value spline ex (f_history spline ex y hist) (f_cashflow_instrument spline total pays) a) = Err e <-> e = ValueError /\ exists p, In p (received ref pays) /\ dl < fst p.
Proof.
  intros spline ex total kvs m c ref l r y hist a dl pays e HE H ND Il Ml N Rf Dl All.
  destruct (C114_discount_factors spline ex kvs m c ref l r y hist a dl HE H ND Il Ml N Rf Dl All) as (dc & Edc & Rdc & A & B).
  rewrite (yc_pv_state spline ex total _ pays a dc Edc). set (D := f_as_discount spline dc). assert (RD : fd_ref D = ref) by exact Rdc.
  assert (Rp : forall p, In p (received ref pays) -> ref <= fst p). { intros p I. unfold received in I. apply in_flat_map in I. destruct I as (q & _ & I). destruct (fp_amount q); [|destruct I]. destruct (Z.leb_spec ref (fp_date q)); [|destruct I]. destruct I as [<- | []]. assumption. }
  assert (In1 : forall p, In p (received ref pays) -> fst p <= dl -> exists w, fd_call D (fst p) = Ok w).
  { intros p I Lp. specialize (Rp p I). destruct (All (fst p) (conj Rp Lp)) as (v & t & Ev & _ & T & _). destruct (A (fst p) v t (conj Rp Lp) Ev T) as (w & Ew & _). exists w. exact Ew. }
  assert (Out : forall p : date * f64, dl < fst p -> fd_call D (fst p) = Err ValueError) by (intros p L; apply B; right; exact L).
  rewrite (C91_raises total pays D e), RD. split.
  - intros (before & p & after & E & Ep & _). assert (I : In p (received ref pays)) by (rewrite E; apply in_or_app; right; left; reflexivity). destruct (Z.le_gt_cases (fst p) dl) as [L|L].
    + destruct (In1 p I L) as (w & Ew). congruence.
    + rewrite (Out p) in Ep by lia. split; [congruence|]. exists p. split; [exact I|lia].
  - intros [-> (p & I & L)]. assert (G : forall l0, (forall q, In q l0 -> In q (received ref pays)) -> (exists q, In q l0 /\ dl < fst q) -> exists before p0 after, l0 = before ++ p0 :: after /\ dl < fst p0 /\ forall q, In q before -> In q l0 /\ fst q <= dl).
    { induction l0 as [|q l0 IH]; intros S1 (x & Ix & Lx); [destruct Ix|]. destruct (Z.le_gt_cases (fst q) dl) as [Lq|Lq].
      - destruct Ix as [<- | Ix]; [lia|]. destruct IH as (b & p0 & a0 & E & L0 & Bf); [intros z Hz; apply S1; right; exact Hz|exists x; auto|]. exists (q :: b), p0, a0. split; [cbn; rewrite E; reflexivity|]. split; [exact L0|]. intros z [<- | Hz]; [split; [left; reflexivity|exact Lq]|]. destruct (Bf z Hz) as [X1 X2]. split; [right; exact X1|exact X2].
      - exists [], q, l0. split; [reflexivity|]. split; [lia|]. intros z []. }
    destruct (G (received ref pays) (fun q h => h) (ex_intro _ p (conj I L))) as (b & p0 & a0 & E & L0 & Bf). exists b, p0, a0. split; [exact E|]. split; [apply Out, L0|]. intros q Hq. destruct (Bf q Hq) as [Iq Lq]. exact (In1 q Iq Lq).
Qed.
Print Assumptions C115_late_payment.

(** ---- one bumped yield ---- *)
Lemma bumped_ok spline kvs m c ref l r y dl k (h : f64) (ad : date -> res f64) (s K : R) : f_new_yield_curve kvs m c CONTINUOUSLY_COMPOUNDED_YIELD ref l r = Ok y ->
  NoDup (List.map fst kvs) -> In dl (List.map fst kvs) -> (forall x, In x (List.map fst kvs) -> x <= dl) -> c <> THIRTY360 -> countable c ref -> countable c dl -> plain_yields spline (fy_curve y) c ref dl K -> (0 <= K <= 399)%R ->
  (Rabs s <= bp_value / 2)%R -> (forall d, ref <= d <= dl -> exists x v, ad d = Ok x /\ val x v /\ (Rabs v <= bp_value / 2)%R /\ (0 <= key_weight k d <= 1001 / 1000)%R /\ (Rabs (v - s * key_weight k d) <= / 2 ^ 49 * (bp_value / 2 * key_weight k d))%R) ->
  let a : f_adjust := Some (fun x => match x with ADate d => ad d | TheClass => Err TypeError end) in
  ordinary_yields spline (fy_curve y) a c ref dl /\
  forall d v, ref <= d <= dl -> f_interpolate spline (fy_curve y) d a = Ok v -> (Rabs (B2R v * years c ref d - bumped spline (fy_curve y) k s d * years c ref d) <= u * (K + 1))%R /\ (Rabs (bumped spline (fy_curve y) k s d * years c ref d) <= K + 1 / 10)%R.
Proof.
  intros H ND Il Ml N Rf Dl All HK Hs Ad a. pose proof bp_bounds as BB. pose proof u_tiny as U.
  assert (G : forall d, ref <= d <= dl -> exists v t, f_interpolate spline (fy_curve y) d a = Ok v /\ is_finite v = true /\ accrual c ref d t /\ (Rabs (B2R v * Q2R t) <= 400)%R /\
      (Rabs (B2R v * years c ref d - bumped spline (fy_curve y) k s d * years c ref d) <= u * (K + 1))%R /\ (Rabs (bumped spline (fy_curve y) k s d * years c ref d) <= K + 1 / 10)%R).
  { intros d Ld. destruct (All d Ld) as (v0 & t & Ev & Fv & Bv & T & Tt & Kv). destruct (Ad d Ld) as (x & xv & Ex & Vx & Bx & Wb & Ne).
    assert (Gt : (0 <= Q2R t)%R). { destruct (pos_near c ref d t N Rf) as (_ & _ & _ & G & _); [eapply countable_between; [exact Rf|exact Dl|lia]|lia|exact T|exact G]. }
    pose proof H as H'. apply new_fyc in H'. destruct H' as (Hc & _). pose proof (f_new_ok _ _ _ _ _ _ _ Hc) as (V & _).
    apply in_map_iff in Il. destruct Il as ([dl' vl] & Edl & Il). cbn [fst] in Edl. subst dl'.
    destruct (last_knot kvs dl vl ND Il Ml) as [NE La].
    destruct (f_adjusted spline (fy_curve y) d (fun x => match x with ADate d => ad d | TheClass => Err TypeError end) v0 x Ev Fv) as (v1 & E1 & V1).
    { intros kv. rewrite V. rewrite La. lia. } { exact Ex. }
    assert (Big : (Rabs (B2R v0 + xv) <= big)%R). { apply big_ok. apply Rle_trans with (1 := Rabs_triang _ _). assert (bpow radix2 30 <= 10 ^ 199)%R; [change (bpow radix2 30) with 1073741824%R; apply Rle_trans with (10 ^ 10)%R; [lra|apply Rle_pow; [lra|lia]]|]. assert (10 ^ 200 = 10 * 10 ^ 199)%R by reflexivity. pose proof (pow_lt 10 199 ltac:(lra)). assert (1 <= 10 ^ 199)%R by (apply pow_R1_Rle; lra). lra. }
    pose proof (fadd_val _ _ _ _ V1 Vx Big) as [F2 V2]. pose proof (rn_plus_err _ _ _ _ V1 Vx) as Re.
    exists (fadd v1 x), t. split; [exact E1|]. split; [exact F2|]. split; [exact T|]. rewrite V2.
    assert (Ye : years c ref d = Q2R t) by (unfold years, acc; unfold accrual in T; rewrite T; reflexivity). rewrite Ye. unfold bumped, yield_at. rewrite Ev. set (tt := Q2R t) in *. set (b := B2R v0) in *. set (w := key_weight k d) in *. set (hb := (bp_value / 2)%R) in *.
    assert (Hb : (1 / 20002 <= hb <= 1 / 19998)%R) by (unfold hb; lra).
    assert (P49 : (/ 2 ^ 49 = 16 * u)%R). { change (/ 2 ^ 49)%R with (/ 2 ^ Pos.to_nat 49)%R. rewrite two_pow. unfold u. replace 16%R with (bpow radix2 4) by reflexivity. rewrite <- bpow_plus. reflexivity. } rewrite P49 in Ne.
    assert (Ht : (0 <= hb * tt <= 1 / 19998 * 400)%R) by (split; [apply Rmult_le_pos; lra|apply Rmult_le_compat; lra]).
    assert (Bt : (Rabs b * tt <= K)%R) by (rewrite <- (Rabs_pos_eq tt) by exact Gt; rewrite <- Rabs_mult; exact Kv).
    assert (Xt : (Rabs xv * tt <= hb * tt)%R) by (apply Rmult_le_compat_r; assumption).
    assert (E2 : (Rabs (rn (b + xv) - (b + xv)) * tt <= u * (K + 3 / 100))%R).
    { apply Rle_trans with (u * Rabs (b + xv) * tt)%R; [apply Rmult_le_compat_r; assumption|]. rewrite Rmult_assoc. apply Rmult_le_compat_l; [lra|]. apply Rle_trans with ((Rabs b + Rabs xv) * tt)%R; [apply Rmult_le_compat_r; [exact Gt|apply Rabs_triang]|]. lra. }
    assert (Wt : (0 <= hb * w * tt <= 1001 / 1000 * (1 / 19998 * 400))%R). { replace (hb * w * tt)%R with (w * (hb * tt))%R by ring. split; [apply Rmult_le_pos; lra|apply Rmult_le_compat; lra]. }
    assert (E3 : (Rabs (xv - s * w) * tt <= 16 * u * (hb * w * tt))%R). { replace (16 * u * (hb * w * tt))%R with (16 * u * (hb * w) * tt)%R by ring. apply Rmult_le_compat_r; assumption. }
    assert (E3' : (16 * u * (hb * w * tt) <= 16 * u * (3 / 100))%R) by (apply Rmult_le_compat_l; lra).
    assert (D : (Rabs (rn (b + xv) * tt - (b + s * w) * tt) <= u * (K + 1))%R).
    { replace (rn (b + xv) * tt - (b + s * w) * tt)%R with ((rn (b + xv) - (b + xv)) * tt + (xv - s * w) * tt)%R by ring. apply Rle_trans with (1 := Rabs_triang _ _). rewrite !Rabs_mult, (Rabs_pos_eq tt) by exact Gt. lra. }
    assert (Sw : (Rabs (s * w) * tt <= 3 / 100)%R). { rewrite Rabs_mult, (Rabs_pos_eq w) by lra. assert (Rabs s * w * tt <= hb * w * tt)%R by (apply Rmult_le_compat_r; [exact Gt|]; apply Rmult_le_compat_r; lra). lra. }
    assert (D2 : (Rabs ((b + s * w) * tt) <= K + 3 / 100)%R). { rewrite Rabs_mult, (Rabs_pos_eq tt) by exact Gt. apply Rle_trans with ((Rabs b + Rabs (s * w)) * tt)%R; [apply Rmult_le_compat_r; [exact Gt|apply Rabs_triang]|]. lra. }
    split; [|split; [exact D|lra]].
    replace (rn (b + xv) * tt)%R with ((rn (b + xv) * tt - (b + s * w) * tt) + (b + s * w) * tt)%R by ring. apply Rle_trans with (1 := Rabs_triang _ _). assert (u * (K + 1) <= / 1000 * (400))%R by (apply Rmult_le_compat; lra). lra. }
  split.
  - intros d Ld. destruct (G d Ld) as (v & t & E & F & T & B & _). exists v, t. auto.
  - intros d v Ld Ev. destruct (G d Ld) as (v' & t & E & _ & _ & _ & B). assert (v' = v) by congruence. subst v'. exact B.
Qed.


(** ---- sums of exponentials under a small shift of the yields ---- *)
Lemma gross_pos yv c ref l : (0 <= gross_at yv c ref l)%R.
Proof. unfold gross_at, sumR. induction l as [|p l IH]; cbn [List.map fold_right]; [lra|]. apply Rplus_le_le_0_compat; [apply Rmult_le_pos; [apply Rabs_pos|apply Rlt_le, exp_pos]|exact IH]. Qed.
Lemma value_le_gross yv c ref l : (Rabs (value_at yv c ref l) <= gross_at yv c ref l)%R.
Proof.
  unfold value_at, gross_at, sumR. induction l as [|p l IH]; cbn [List.map fold_right]; [rewrite Rabs_R0; lra|]. apply Rle_trans with (1 := Rabs_triang _ _). apply Rplus_le_compat; [|exact IH]. rewrite Rabs_mult, (Rabs_pos_eq (exp _)) by (apply Rlt_le, exp_pos). lra.
Qed.
Lemma gross_shift yv yv' c ref l : (forall p, In p l -> (yv (fst p) - yv' (fst p)) * years c ref (fst p) <= 21 / 1000)%R -> (gross_at yv' c ref l <= 103 / 100 * gross_at yv c ref l)%R.
Proof.
  unfold gross_at, sumR. induction l as [|p l IH]; intros H; cbn [List.map fold_right]; [lra|]. specialize (IH (fun q I => H q (or_intror I))). specialize (H p (or_introl eq_refl)).
  set (t := years c ref (fst p)) in *. assert (E : (exp (- (yv' (fst p) * t)) <= 103 / 100 * exp (- (yv (fst p) * t)))%R).
  { replace (- (yv' (fst p) * t))%R with ((yv (fst p) - yv' (fst p)) * t + - (yv (fst p) * t))%R by ring. rewrite exp_plus. apply Rmult_le_compat_r; [apply Rlt_le, exp_pos|]. apply Rle_trans with (exp (21 / 1000)); [apply exp_le, H|]. apply Rle_trans with (1 := exp_upper (21 / 1000) ltac:(lra)). lra. }
  pose proof (Rabs_pos (B2R (snd p))) as P. rewrite Rmult_plus_distr_l. apply Rplus_le_compat; [|exact IH]. apply Rle_trans with (1 := Rmult_le_compat_l _ _ _ P E). right. rewrite <- !Rmult_assoc. f_equal. apply Rmult_comm.
Qed.
(** gross values are zero or of ordinary size *)
Lemma gross_size yv c ref l : (forall p, In p l -> amount_ok (snd p) /\ (Rabs (yv (fst p) * years c ref (fst p)) <= 402)%R) -> gross_at yv c ref l = 0%R \/ (bpow radix2 (-848) <= gross_at yv c ref l)%R.
Proof.
  induction l as [|p l IH]; intros H; [left; reflexivity|]. destruct (H p (or_introl eq_refl)) as [[_ Am] K]. pose proof (gross_pos yv c ref l) as P. change (gross_at yv c ref (p :: l)) with (Rabs (B2R (snd p)) * exp (- (yv (fst p) * years c ref (fst p))) + gross_at yv c ref l)%R.
  destruct Am as [-> | [A1 A2]].
  - rewrite Rabs_R0, Rmult_0_l, Rplus_0_l. apply IH. intros q I. apply H. right. exact I.
  - right. apply Rabs_le_inv in K. pose proof (exp_low400 (- (yv (fst p) * years c ref (fst p))) ltac:(lra)) as L. change (-848) with (-200 + -648). rewrite bpow_plus. assert (bpow radix2 (-200) * bpow radix2 (-648) <= Rabs (B2R (snd p)) * exp (- (yv (fst p) * years c ref (fst p))))%R by (apply Rmult_le_compat; try assumption; apply bpow_ge_0). lra.
Qed.

(** ---- the two divisions ---- *)
Lemma fdiv_near (p q D G e : R) (fp fq : f64) : val fp p -> val fq q -> (Rabs D <= 207 / 100 * G)%R -> (Rabs (p - q - D) <= 21 / 10 * e)%R -> (3 * (/ 2 ^ 46 * G) <= e)%R -> (e <= bpow radix2 900)%R -> (0 <= G <= bpow radix2 900)%R -> e = 0%R \/ (bpow radix2 (-900) <= e)%R ->
  exists x, fdiv (fsub fp fq) f_basis_point = Ok x /\ is_finite x = true /\ (Rabs (B2R x - D / bp_value) <= 65536 * e)%R /\
    is_finite (fmul x f_basis_point) = true /\ (Rabs (B2R (fmul x f_basis_point) - D) <= 8 * e)%R.
Proof.
  intros Vp Vq HD Hpq He Be Bg Ez. pose proof bp_bounds as BB. pose proof u_tiny as U.
  assert (P46 : (/ 2 ^ 46 = 128 * u)%R). { change (/ 2 ^ 46)%R with (/ 2 ^ Pos.to_nat 46)%R. rewrite two_pow. unfold u. replace 128%R with (bpow radix2 7) by reflexivity. rewrite <- bpow_plus. reflexivity. } rewrite P46 in He.
  assert (B900 : (100000000 * bpow radix2 900 <= big)%R). { unfold big. apply Rle_trans with (bpow radix2 27 * bpow radix2 900)%R; [apply Rmult_le_compat_r; [apply bpow_ge_0|change (bpow radix2 27) with 134217728%R; lra]|]. rewrite <- bpow_plus. apply bpow_le. lia. }
  assert (uG0 : (0 <= u * G)%R) by (apply Rmult_le_pos; lra). assert (e0 : (0 <= e)%R) by lra.
  assert (Sd : (Rabs (p - q) <= 207 / 100 * G + 21 / 10 * e)%R). { replace (p - q)%R with (D + (p - q - D))%R by ring. apply Rle_trans with (1 := Rabs_triang _ _). lra. }
  pose proof (bpow_gt_0 radix2 900) as b9.
  assert (V1 : val (fsub fp fq) (rn (p - q))) by (apply fsub_val; [exact Vp|exact Vq|]; lra).
  pose proof (rn_minus_err _ _ _ _ Vp Vq) as E1. set (s := rn (p - q)) in *.
  assert (ue : (u * e <= / 1000000 * e)%R) by (apply Rmult_le_compat_r; lra).
  assert (E2 : (u * Rabs (p - q) <= 3 / 100 * e)%R). { assert (u * Rabs (p - q) <= u * (207 / 100 * G + 21 / 10 * e))%R by (apply Rmult_le_compat_l; lra). lra. }
  assert (Es : (Rabs (s - D) <= 214 / 100 * e)%R). { replace (s - D)%R with ((s - (p - q)) + (p - q - D))%R by ring. apply Rle_trans with (1 := Rabs_triang _ _). lra. }
  assert (Ss : (Rabs s <= 207 / 100 * G + 214 / 100 * e)%R). { replace s with (D + (s - D))%R by ring. apply Rle_trans with (1 := Rabs_triang _ _). lra. }
  assert (Ib : (9999 <= / bp_value <= 10001)%R). { split; [replace 9999%R with (/ (1 / 9999))%R by field|replace 10001%R with (/ (1 / 10001))%R by field]; apply Rinv_le_contravar; lra. }
  assert (Sb : (Rabs (s / bp_value) <= 10001 * (207 / 100 * G + 214 / 100 * e))%R). { unfold Rdiv. rewrite Rabs_mult, (Rabs_pos_eq (/ bp_value)) by lra. rewrite Rmult_comm. apply Rmult_le_compat; try lra. apply Rabs_pos. }
  destruct (fdiv_val _ _ _ _ V1 bp_val ltac:(lra)) as (x & Ex & Vx); [lra|]. exists x. split; [exact Ex|]. split; [apply Vx|].
  assert (Vy : val (fmul x f_basis_point) (rn (rn (s / bp_value) * bp_value)) /\ (Rabs (rn (s / bp_value) - D / bp_value) <= 22000 * e)%R /\ (Rabs (rn (rn (s / bp_value) * bp_value) - D) <= 8 * e)%R).
  { destruct Ez as [Z | Gl].
    - assert (G0 : G = 0%R). { rewrite Z in He. apply Rmult_eq_reg_l with u; lra. } rewrite Z, G0 in *. assert (D0 : D = 0%R) by (apply Rabs_le_inv in HD; lra). assert (s0 : s = 0%R) by (apply Rabs_le_inv in Ss; lra).
      rewrite s0, D0 in *. replace (0 / bp_value)%R with 0%R in * by (field; lra). rewrite rn_0 in *. split; [|split; [rewrite Rminus_0_r, Rabs_R0; lra|rewrite Rmult_0_l, rn_0, Rminus_0_r, Rabs_R0; lra]].
      apply fmul_val; [exact Vx|exact bp_val|]. rewrite Rmult_0_l, Rabs_R0. lra.
    - assert (Sm : (2 * small <= / 1000000 * e)%R). { apply Rle_trans with (bpow radix2 (-20) * bpow radix2 (-900))%R; [unfold small; change 2%R with (bpow radix2 1); rewrite <- !bpow_plus; apply bpow_le; lia|]. apply Rmult_le_compat; try apply bpow_ge_0; [change (bpow radix2 (-20)) with (/ 1048576)%R; lra|exact Gl]. }
      pose proof (rn_abs (s / bp_value)) as R1. set (z := rn (s / bp_value)) in *. assert (U1 : (u * Rabs (s / bp_value) <= 150 * e)%R). { assert (u * Rabs (s / bp_value) <= u * (10001 * (207 / 100 * G + 214 / 100 * e)))%R by (apply Rmult_le_compat_l; lra). lra. }
      assert (R2 : (Rabs (z - s / bp_value) <= 151 * e)%R) by lra.
      assert (Q1 : (Rabs (s / bp_value - D / bp_value) <= 10001 * (214 / 100 * e))%R). { replace (s / bp_value - D / bp_value)%R with (/ bp_value * (s - D))%R by (field; lra). rewrite Rabs_mult, (Rabs_pos_eq (/ bp_value)) by lra. apply Rmult_le_compat; try lra. apply Rabs_pos. }
      assert (Q2 : (Rabs (z - D / bp_value) <= 22000 * e)%R). { replace (z - D / bp_value)%R with ((z - s / bp_value) + (s / bp_value - D / bp_value))%R by ring. apply Rle_trans with (1 := Rabs_triang _ _). lra. }
      assert (Q3 : (Rabs (z * bp_value - D) <= 3 * e)%R). { replace (z * bp_value - D)%R with (bp_value * (z - D / bp_value))%R by (field; lra). rewrite Rabs_mult, (Rabs_pos_eq bp_value) by lra. apply Rle_trans with (1 / 9999 * (22000 * e))%R; [apply Rmult_le_compat; try lra; apply Rabs_pos|lra]. }
      assert (Q4 : (Rabs (z * bp_value) <= 207 / 100 * G + 3 * e)%R). { replace (z * bp_value)%R with (D + (z * bp_value - D))%R by ring. apply Rle_trans with (1 := Rabs_triang _ _). lra. }
      split; [apply fmul_val; [exact Vx|exact bp_val|lra]|]. split; [exact Q2|]. pose proof (rn_abs (z * bp_value)) as R3. assert (U3 : (u * Rabs (z * bp_value) <= u * (207 / 100 * G + 3 * e))%R) by (apply Rmult_le_compat_l; lra).
      replace (rn (z * bp_value) - D)%R with ((rn (z * bp_value) - z * bp_value) + (z * bp_value - D))%R by ring. apply Rle_trans with (1 := Rabs_triang _ _). lra. }
  destruct Vy as (Vy & Q & Q'). split; [destruct Vx as [_ ->]; lra|]. split; [apply Vy|]. destruct Vy as [_ ->]. exact Q'.
Qed.


Definition f_key_adjust (b : f64) (k : kr) : f_adjust := Some (fun x => match x with ADate d => f_kr_call b (create_adjustment_function (create_adjustment_function k)) d | TheClass => Err TypeError end).
Lemma create_twice k : create_adjustment_function (create_adjustment_function k) = create_adjustment_function k.
Proof. reflexivity. Qed.

Lemma deriv_steps spline ex Y k b0 (i : f_instrument) h h' neg ps : fdiv (Bopp f_basis_point) (of_int 2) = Ok h' -> fdiv f_basis_point (of_int 2) = Ok h ->
  snd (f_yc_present_value spline ex Y i (f_key_adjust h' k)) = Ok neg -> snd (f_yc_present_value spline ex (fst (f_yc_present_value spline ex Y i (f_key_adjust h' k))) i (f_key_adjust h k)) = Ok ps ->
  exists Y', f_calculate_key_rate_deriv spline ex Y (k, b0) i = (Y', (create_adjustment_function k, h), fdiv (fsub ps neg) f_basis_point).
Proof.
  intros E' E N P. unfold f_calculate_key_rate_deriv. rewrite E'. change (f_kr_adjust (f_set_bump_val h' (f_create_adjustment_function (k, b0)))) with (f_key_adjust h' k).
  destruct (f_yc_present_value spline ex Y i (f_key_adjust h' k)) as [Y1 r1] eqn:E1. cbn [fst snd] in *. subst r1. rewrite E.
  match goal with |- context [f_yc_present_value spline ex Y1 i ?a] => change a with (f_key_adjust h k) end.
  destruct (f_yc_present_value spline ex Y1 i (f_key_adjust h k)) as [Y2 r2] eqn:E2. cbn [fst snd] in *. subst r2. exists Y2. reflexivity.
Qed.
Lemma pv_history spline ex y hist i a : fst (f_yc_present_value spline ex (f_history spline ex y hist) i a) = f_history spline ex y (hist ++ [a]).
Proof. unfold f_yc_present_value, f_history. rewrite fold_left_app. cbn [fold_left]. destruct (f_to_discount_curve spline ex (fold_left (fun y a => fst (f_to_discount_curve spline ex y a)) hist y) a). reflexivity. Qed.

Lemma gross_le yv c ref l : (Z.of_nat (List.length l) <= 2 ^ 30)%Z -> (forall p, In p l -> amount_ok (snd p) /\ (Rabs (yv (fst p) * years c ref (fst p)) <= 402)%R) -> (gross_at yv c ref l <= INR (List.length l) * bpow radix2 788)%R.
Proof.
  intros _. unfold gross_at, sumR. induction l as [|p l IH]; intros H; cbn [List.map fold_right]; [cbn; lra|]. specialize (IH (fun q I => H q (or_intror I))). destruct (H p (or_introl eq_refl)) as [[_ Am] K].
  assert (A' : (Rabs (B2R (snd p)) <= bpow radix2 140)%R) by (destruct Am as [-> | [_ A2]]; [rewrite Rabs_R0; apply bpow_ge_0|exact A2]).
  change (List.length (p :: l)) with (S (List.length l)). rewrite S_INR, Rmult_plus_distr_r, Rmult_1_l, Rplus_comm. apply Rplus_le_compat; [exact IH|]. apply Rabs_le_inv in K. pose proof (exp_high (- (yv (fst p) * years c ref (fst p))) ltac:(lra)) as L.
  change 788 with (140 + 648). rewrite bpow_plus. apply Rmult_le_compat; [apply Rabs_pos|apply Rlt_le, exp_pos| |exact L]. exact A'.
Qed.

(** the central difference over one basis point *)
Definition central spline (cv : f_curve) (k : kr) (c : dcc) (ref : date) (l : list (date * f64)) : R :=
  (value_at (bumped spline cv k (bp_value / 2)) c ref l - value_at (bumped spline cv k (- (bp_value / 2))) c ref l)%R.

Lemma key_deriv_core : forall spline ex total kvs m c ref l r y hist dl pays k b0 K, numpy_exp ex -> either_sum total -> f_new_yield_curve kvs m c CONTINUOUSLY_COMPOUNDED_YIELD ref l r = Ok y ->
  NoDup (List.map fst kvs) -> In dl (List.map fst kvs) -> (forall x, In x (List.map fst kvs) -> x <= dl) -> c <> THIRTY360 -> countable c ref -> countable c dl -> plain_yields spline (fy_curve y) c ref dl K -> (0 <= K <= 399)%R ->
  (Z.of_nat (List.length pays) <= 2 ^ 30)%Z -> (forall p, In p (received ref pays) -> fst p <= dl /\ amount_ok (snd p)) -> key_dates_ok k -> (forall d, ref <= d <= dl -> weighs k d) ->
  let L := received ref pays in let G := gross_at (yield_at spline (fy_curve y)) c ref L in
  exists y' h x, f_calculate_key_rate_deriv spline ex (f_history spline ex y hist) (k, b0) (f_cashflow_instrument spline total pays) = (y', (create_adjustment_function k, h), Ok x) /\ val h (bp_value / 2) /\ is_finite x = true /\
    (Rabs (B2R x - central spline (fy_curve y) k c ref L / bp_value) <= (INR (List.length L) + K + 3) / 2 ^ 30 * G)%R /\
    is_finite (fmul x f_basis_point) = true /\ (Rabs (B2R (fmul x f_basis_point) - central spline (fy_curve y) k c ref L) <= (INR (List.length L) + K + 3) / 2 ^ 43 * G)%R.
Proof.
  intros spline ex total kvs m c ref l r y hist dl pays k b0 K HE ES H ND Il Ml N Rf Dl All HK Le Am KD We L G. pose proof bp_bounds as BB. pose proof u_tiny as U.
  destruct half_up as (h & Eh & Vh). destruct half_down as (h' & Eh' & Vh').
  set (hb := (bp_value / 2)%R) in *. assert (Hb : (1 / 20002 <= hb <= 1 / 19998)%R) by (unfold hb; lra).
  assert (Up : forall d, ref <= d <= dl -> exists x v, f_kr_call h (create_adjustment_function (create_adjustment_function k)) d = Ok x /\ val x v /\ (Rabs v <= bp_value / 2)%R /\ (0 <= key_weight k d <= 1001 / 1000)%R /\ (Rabs (v - hb * key_weight k d) <= / 2 ^ 49 * (bp_value / 2 * key_weight k d))%R).
  { intros d Ld. destruct (key_halves k d h h' KD (We d Ld) Vh Vh') as (x & x' & v & Ex & _ & Vx & _ & Bv & Bw & Er). exists x, v. split; [exact Ex|]. split; [exact Vx|]. split; [rewrite Rabs_pos_eq; lra|]. split; [exact Bw|exact Er]. }
  assert (Down : forall d, ref <= d <= dl -> exists x v, f_kr_call h' (create_adjustment_function (create_adjustment_function k)) d = Ok x /\ val x v /\ (Rabs v <= bp_value / 2)%R /\ (0 <= key_weight k d <= 1001 / 1000)%R /\ (Rabs (v - - hb * key_weight k d) <= / 2 ^ 49 * (bp_value / 2 * key_weight k d))%R).
  { intros d Ld. destruct (key_halves k d h h' KD (We d Ld) Vh Vh') as (x & x' & v & _ & Ex & _ & Vx & Bv & Bw & Er). exists x', (- v)%R. split; [exact Ex|]. split; [exact Vx|]. split; [rewrite Rabs_Ropp, Rabs_pos_eq; lra|]. split; [exact Bw|]. replace (- v - - hb * key_weight k d)%R with (- (v - hb * key_weight k d))%R by ring. rewrite Rabs_Ropp. exact Er. }
  destruct (bumped_ok spline kvs m c ref l r y dl k h' _ (- hb)%R K H ND Il Ml N Rf Dl All HK ltac:(rewrite Rabs_Ropp, Rabs_pos_eq; unfold hb in *; lra) Down) as [O1 N1].
  destruct (bumped_ok spline kvs m c ref l r y dl k h _ hb K H ND Il Ml N Rf Dl All HK ltac:(rewrite Rabs_pos_eq; unfold hb in *; lra) Up) as [O2 N2].
  cbn zeta in O1, N1, O2, N2. set (cv := fy_curve y) in *.
  assert (g1 : (0 <= u * (K + 1) <= 1 / 4)%R). { split; [apply Rmult_le_pos; lra|]. apply Rle_trans with (/ 1000000 * 400)%R; [apply Rmult_le_compat; lra|lra]. }
  destruct (pv_near spline ex total kvs m c ref l r y hist _ dl pays (bumped spline cv k (- hb)) (u * (K + 1)) (K + 1 / 10) HE ES H ND Il Ml N Rf Dl O1 Le Am g1 ltac:(lra) N1) as (neg & En & Fn & Rn).
  destruct (pv_near spline ex total kvs m c ref l r y (hist ++ [f_key_adjust h' k]) _ dl pays (bumped spline cv k hb) (u * (K + 1)) (K + 1 / 10) HE ES H ND Il Ml N Rf Dl O2 Le Am g1 ltac:(lra) N2) as (ps & Ep & Fp & Rp).
  rewrite <- (pv_history spline ex y hist (f_cashflow_instrument spline total pays)) in Ep.
  destruct (deriv_steps spline ex (f_history spline ex y hist) k b0 (f_cashflow_instrument spline total pays) h h' neg ps Eh' Eh En Ep) as (y' & Ed).
  fold L in Rn, Rp. set (n := INR (List.length L)) in *. assert (n0 : (0 <= n)%R) by apply pos_INR.
  assert (Rl : forall p, In p L -> ref <= fst p). { intros p I. unfold L, received in I. apply in_flat_map in I. destruct I as (q & _ & I). destruct (fp_amount q); [|destruct I]. destruct (Z.leb_spec ref (fp_date q)); [|destruct I]. destruct I as [<- | []]. assumption. }
  (* per payment *)
  assert (Per : forall p, In p L -> (Rabs (yield_at spline cv (fst p) * years c ref (fst p)) <= 402)%R /\ (0 <= hb * key_weight k (fst p) * years c ref (fst p) <= 21 / 1000)%R).
  { intros p I. destruct (Am p I) as [Lp _]. specialize (Rl p I). destruct (All (fst p) (conj Rl Lp)) as (v0 & t & Ev & Fv & Bv & T & Tt & Kv). destruct (Up (fst p) (conj Rl Lp)) as (_ & _ & _ & _ & _ & Bw & _).
    assert (Gt : (0 <= Q2R t)%R). { destruct (pos_near c ref (fst p) t N Rf) as (_ & _ & _ & G0 & _); [eapply countable_between; [exact Rf|exact Dl|lia]|lia|exact T|exact G0]. }
    assert (Ye : years c ref (fst p) = Q2R t) by (unfold years, acc; unfold accrual in T; rewrite T; reflexivity). rewrite Ye. unfold yield_at. rewrite Ev. split; [lra|]. set (w := key_weight k (fst p)) in *.
    assert (Hw : (0 <= hb * w <= 1 / 19998 * (1001 / 1000))%R) by (split; [apply Rmult_le_pos; lra|apply Rmult_le_compat; lra]). split; [apply Rmult_le_pos; lra|]. apply Rle_trans with (1 / 19998 * (1001 / 1000) * 400)%R; [apply Rmult_le_compat; lra|lra]. }
  assert (S1 : (gross_at (bumped spline cv k (- hb)) c ref L <= 103 / 100 * G)%R). { apply gross_shift. intros p I. destruct (Per p I) as [_ X]. unfold bumped. replace ((yield_at spline cv (fst p) - (yield_at spline cv (fst p) + - hb * key_weight k (fst p))) * years c ref (fst p))%R with (hb * key_weight k (fst p) * years c ref (fst p))%R by ring. apply X. }
  assert (S2 : (gross_at (bumped spline cv k hb) c ref L <= 103 / 100 * G)%R). { apply gross_shift. intros p I. destruct (Per p I) as [_ X]. unfold bumped. replace ((yield_at spline cv (fst p) - (yield_at spline cv (fst p) + hb * key_weight k (fst p))) * years c ref (fst p))%R with (- (hb * key_weight k (fst p) * years c ref (fst p)))%R by ring. lra. }
  assert (G0 : (0 <= G)%R) by apply gross_pos. set (Vm := value_at (bumped spline cv k (- hb)) c ref L) in *. set (Vp := value_at (bumped spline cv k hb) c ref L) in *.
  assert (B1 : (Rabs Vm <= 103 / 100 * G)%R) by (apply Rle_trans with (1 := value_le_gross _ _ _ _); exact S1). assert (B2 : (Rabs Vp <= 103 / 100 * G)%R) by (apply Rle_trans with (1 := value_le_gross _ _ _ _); exact S2).
  assert (P46 : (u = / 128 * / 2 ^ 46)%R). { change (/ 2 ^ 46)%R with (/ 2 ^ Pos.to_nat 46)%R. rewrite two_pow. unfold u. replace (/ 128)%R with (bpow radix2 (-7)) by reflexivity. rewrite <- bpow_plus. reflexivity. }
  assert (p46 : (0 < / 2 ^ 46 <= / 1000000)%R) by (rewrite P46 in U; split; [apply Rinv_0_lt_compat, pow_lt; lra|lra]).
  assert (P30 : (/ 2 ^ 30 = 65536 * / 2 ^ 46)%R). { replace (2 ^ 46)%R with (65536 * 2 ^ 30)%R by ring. field. }
  assert (P43 : (/ 2 ^ 43 = 8 * / 2 ^ 46)%R). { replace (2 ^ 46)%R with (8 * 2 ^ 43)%R by ring. field. }
  unfold Rdiv in Rn, Rp |- *. fold hb in Rn, Rp. rewrite P30, P43. rewrite P46 in Rn, Rp. set (eps := (/ 2 ^ 46)%R) in *. set (e := ((n + K + 3) * (eps * G))%R).
  assert (eG0 : (0 <= eps * G)%R) by (apply Rmult_le_pos; lra). assert (nG : (0 <= n * (eps * G))%R) by (apply Rmult_le_pos; lra). assert (KG : (0 <= K * (eps * G))%R) by (apply Rmult_le_pos; lra).
  assert (Fac : forall g, (0 <= g <= 103 / 100 * G)%R -> (((n + (K + 1 / 10) + 2) * eps + 2 * (/ 128 * eps * (K + 1))) * g <= 105 / 100 * e)%R).
  { intros g Hg. apply Rle_trans with (((n + (K + 1 / 10) + 2) * eps + 2 * (/ 128 * eps * (K + 1))) * (103 / 100 * G))%R.
    - apply Rmult_le_compat_l; [|apply Hg]. apply Rplus_le_le_0_compat; [apply Rmult_le_pos; lra|]. apply Rmult_le_pos; [lra|]. apply Rmult_le_pos; lra.
    - unfold e. replace (((n + (K + 1 / 10) + 2) * eps + 2 * (/ 128 * eps * (K + 1))) * (103 / 100 * G))%R with (103 / 100 * (n * (eps * G)) + 103 / 100 * (1 + / 64) * (K * (eps * G)) + 103 / 100 * (1 / 10 + 2 + / 64) * (eps * G))%R by field. replace ((n + K + 3) * (eps * G))%R with (n * (eps * G) + K * (eps * G) + 3 * (eps * G))%R by ring. lra. }
  pose proof (Fac _ (conj (gross_pos _ c ref L) S1)) as F1. pose proof (Fac _ (conj (gross_pos _ c ref L) S2)) as F2.
  assert (NLz : (Z.of_nat (List.length L) <= 2 ^ 30)%Z). { apply Z.le_trans with (2 := Le). unfold L, received. clear. induction pays as [|[d oa] pays IH]; [apply Z.le_refl|]. cbn [flat_map fp_amount fp_date]. destruct oa as [a|]; [destruct (ref <=? d)|]; cbn [app List.length] in *; lia. }
  assert (NL : (n <= 2 ^ 30)%R). { unfold n. rewrite INR_IZR_INZ. apply Rle_trans with (IZR (2 ^ 30)); [apply IZR_le, NLz|]. change (2 ^ 30)%Z with 1073741824%Z. lra. }
  assert (Gb : (G <= bpow radix2 820)%R).
  { apply Rle_trans with (INR (List.length L) * bpow radix2 788)%R; [apply gross_le|].
    - exact NLz.
    - intros p I. split; [apply Am, I|apply Per, I].
    - apply Rle_trans with (bpow radix2 32 * bpow radix2 788)%R; [|rewrite <- bpow_plus; apply bpow_le; lia]. apply Rmult_le_compat_r; [apply bpow_ge_0|].
      assert (Hn : (n <= 2 ^ 30)%R); [|change (bpow radix2 32) with 4294967296%R; fold n; lra]. exact NL. }
  destruct (fdiv_near (B2R ps) (B2R neg) (Vp - Vm) G e ps neg (conj Fp eq_refl) (conj Fn eq_refl)) as (x & Ex & Fx & E1 & F2' & E2).
  - apply Rle_trans with (1 := Rabs_triang _ _). rewrite Rabs_Ropp. lra.
  - replace (B2R ps - B2R neg - (Vp - Vm))%R with ((B2R ps - Vp) - (B2R neg - Vm))%R by ring. apply Rle_trans with (1 := Rabs_triang _ _). rewrite Rabs_Ropp. pose proof (Rle_trans _ _ _ Rn F1) as A1. pose proof (Rle_trans _ _ _ Rp F2) as A2. lra.
  - fold eps. unfold e. replace ((n + K + 3) * (eps * G))%R with (n * (eps * G) + K * (eps * G) + 3 * (eps * G))%R by ring. lra.
  - unfold e. apply Rle_trans with (bpow radix2 32 * (bpow radix2 0 * bpow radix2 820))%R; [|rewrite <- !bpow_plus; apply bpow_le; lia]. apply Rmult_le_compat; [lra|lra| |apply Rmult_le_compat; try lra; change (bpow radix2 0) with 1%R; lra]. change (bpow radix2 32) with 4294967296%R. lra.
  - split; [exact G0|]. apply Rle_trans with (1 := Gb). apply bpow_le. lia.
  - destruct (gross_size (yield_at spline cv) c ref L) as [Z | Z]; [intros p I; split; [apply Am, I|apply Per, I]| |].
    + left. unfold e. change (G = 0%R) in Z. rewrite Z. ring.
    + right. fold G in Z. unfold e. apply Rle_trans with (bpow radix2 0 * (bpow radix2 (-46) * bpow radix2 (-848)))%R; [rewrite <- !bpow_plus; apply bpow_le; lia|]. apply Rmult_le_compat; [apply bpow_ge_0|apply Rmult_le_pos; apply bpow_ge_0|change (bpow radix2 0) with 1%R; lra|]. apply Rmult_le_compat; [apply bpow_ge_0|apply bpow_ge_0| |exact Z]. right. unfold eps. change (/ 2 ^ 46)%R with (/ 2 ^ Pos.to_nat 46)%R. rewrite two_pow. reflexivity.
  - exists y', h, x. split; [rewrite Ed, Ex; reflexivity|]. split; [exact Vh|]. split; [exact Fx|]. unfold central. fold hb Vp Vm. split; [|split; [exact F2'|]].
    + apply Rle_trans with (1 := E1). unfold e. right. ring.
    + apply Rle_trans with (1 := E2). unfold e. right. ring.
Qed.


Theorem C115_key_rate_risk : forall spline ex total kvs m c ref l r y hist dl pays k b0 K, numpy_exp ex -> either_sum total -> f_new_yield_curve kvs m c CONTINUOUSLY_COMPOUNDED_YIELD ref l r = Ok y ->
  NoDup (List.map fst kvs) -> In dl (List.map fst kvs) -> (forall x, In x (List.map fst kvs) -> x <= dl) -> c <> THIRTY360 -> countable c ref -> countable c dl -> plain_yields spline (fy_curve y) c ref dl K -> (0 <= K <= 399)%R ->
  (Z.of_nat (List.length pays) <= 2 ^ 30)%Z -> (forall p, In p (received ref pays) -> fst p <= dl /\ amount_ok (snd p)) -> key_dates_ok k -> (forall d, ref <= d <= dl -> weighs k d) ->
  let L := received ref pays in let G := gross_at (yield_at spline (fy_curve y)) c ref L in let D := central spline (fy_curve y) k c ref L in
  exists k' x p, snd (fst (f_calculate_key_rate_deriv spline ex (f_history spline ex y hist) (k, b0) (f_cashflow_instrument spline total pays))) = k' /\ B2R (snd k') = (bp_value / 2)%R /\
    snd (f_calculate_key_rate_deriv spline ex (f_history spline ex y hist) (k, b0) (f_cashflow_instrument spline total pays)) = Ok x /\ is_finite x = true /\
    (Rabs (B2R x - D / bp_value) <= (INR (List.length L) + K + 3) / 2 ^ 30 * G)%R /\
    snd (f_calculate_pv01_risk spline ex (f_history spline ex y hist) (k, b0) (f_cashflow_instrument spline total pays)) = Ok (kr_date k, p) /\ is_finite p = true /\
    (Rabs (B2R p - D) <= (INR (List.length L) + K + 3) / 2 ^ 43 * G)%R.
Proof.
  intros spline ex total kvs m c ref l r y hist dl pays k b0 K HE ES H ND Il Ml N Rf Dl All HK Le Am KD We L G D.
  destruct (key_deriv_core spline ex total kvs m c ref l r y hist dl pays k b0 K HE ES H ND Il Ml N Rf Dl All HK Le Am KD We) as (y' & h & x & E & Vh & Fx & E1 & Fp & E2).
  exists (create_adjustment_function k, h), x, (fmul x f_basis_point). unfold f_calculate_pv01_risk. rewrite E. cbn [fst snd bind].
  split; [reflexivity|]. split; [apply Vh|]. split; [reflexivity|]. split; [exact Fx|]. split; [exact E1|]. split; [reflexivity|]. split; [exact Fp|exact E2].
Qed.
Print Assumptions C115_key_rate_risk.

(** ---- the central difference against the derivative ---- *)
Lemma mvt f f' a b : (forall x, a <= x <= b -> derivable_pt_lim f x (f' x))%R -> (a < b)%R -> exists x, (a < x < b)%R /\ (f b - f a = f' x * (b - a))%R.
Proof. intros H L. destruct (MVT_cor2 f f' a b L H) as (x & E & B). exists x. auto. Qed.
Lemma exp_diff_small z : (0 <= z <= 21 / 1000 -> 0 <= exp z - exp (- z) <= 21 / 10 * z)%R.
Proof.
  intros H. assert (L : (exp (- z) <= exp z)%R) by (apply exp_le; lra). split; [lra|]. pose proof (exp_one z) as A. rewrite Rabs_pos_eq in A by lra. specialize (A ltac:(lra)). apply Rabs_le_inv in A. pose proof (exp_above (- z)).
  pose proof (exp_one_small z) as B. pose proof (exp_upper z ltac:(lra)) as U. assert (/ (1 - z) <= 1 + 11 / 10 * z)%R; [|lra]. apply Rmult_le_reg_r with (1 - z)%R; [lra|]. rewrite Rinv_l by lra. nra.
Qed.
Lemma sinh_cubic z : (0 <= z <= 21 / 1000 -> 0 <= exp z - exp (- z) - 2 * z <= 12 / 10 * z ^ 3)%R.
Proof.
  intros H. destruct (Req_dec z 0) as [-> | Nz]; [rewrite Ropp_0, exp_0; lra|].
  destruct (mvt (fun x => exp x - exp (- x) - 2 * x)%R (fun x => exp x + exp (- x) - 2)%R 0 z) as (x & Bx & E); [|lra|].
  - intros x _. replace (exp x + exp (- x) - 2)%R with (exp x - exp (- x) * (- 1) - 2 * 1)%R by ring.
    apply (derivable_pt_lim_minus (fun x => exp x - exp (- x))%R (fun x => 2 * x)%R); [|apply (derivable_pt_lim_scal id 2 x 1), derivable_pt_lim_id].
    apply (derivable_pt_lim_minus exp (fun x => exp (- x))%R); [apply derivable_pt_lim_exp|]. apply (derivable_pt_lim_comp Ropp exp); [apply (derivable_pt_lim_opp id x 1), derivable_pt_lim_id|apply derivable_pt_lim_exp].
  - cbn beta in E. rewrite Ropp_0, exp_0 in E. replace (exp z - exp (- z) - 2 * z)%R with ((exp x + exp (- x) - 2) * z)%R by (rewrite Rminus_0_r in E; lra).
    pose proof (exp_diff_small (x / 2) ltac:(lra)) as D. assert (S : (exp x + exp (- x) - 2 = (exp (x / 2) - exp (- (x / 2))) ^ 2)%R).
    { replace (exp x) with (exp (x / 2) * exp (x / 2))%R by (rewrite <- exp_plus; f_equal; field). replace (exp (- x)) with (exp (- (x / 2)) * exp (- (x / 2)))%R by (rewrite <- exp_plus; f_equal; field). pose proof (P_FloatVasicek.exp_inv (x / 2)) as X1. replace ((exp (x / 2) - exp (- (x / 2))) ^ 2)%R with (exp (x / 2) * exp (x / 2) + exp (- (x / 2)) * exp (- (x / 2)) - 2 * (exp (x / 2) * exp (- (x / 2))))%R by ring. rewrite X1. ring. }
    rewrite S. set (q := (exp (x / 2) - exp (- (x / 2)))%R) in *. assert (Q : (0 <= q ^ 2 <= 111 / 100 * x ^ 2)%R). { replace (q ^ 2)%R with (q * q)%R by ring. split; [apply Rmult_le_pos; lra|]. apply Rle_trans with ((21 / 10 * (x / 2)) * (21 / 10 * (x / 2)))%R; [apply Rmult_le_compat; lra|]. replace (x ^ 2)%R with (x * x)%R by ring. assert (0 <= x * x)%R by (apply Rmult_le_pos; lra). lra. }
    split; [apply Rmult_le_pos; lra|]. assert (X2 : (x ^ 2 <= z ^ 2)%R) by (apply pow_incr; lra). replace (z ^ 3)%R with (z ^ 2 * z)%R by ring. rewrite <- Rmult_assoc. apply Rmult_le_compat_r; lra.
Qed.

(** first and third order sensitivities to the key rate *)
Definition slope_at spline cv (k : kr) (c : dcc) (ref : date) (l : list (date * f64)) : R :=
  sumR (List.map (fun p => - (B2R (snd p) * (key_weight k (fst p) * years c ref (fst p)) * exp (- (yield_at spline cv (fst p) * years c ref (fst p)))))%R l).
Definition third_at spline cv (k : kr) (c : dcc) (ref : date) (l : list (date * f64)) : R :=
  sumR (List.map (fun p => Rabs (B2R (snd p)) * (key_weight k (fst p) * years c ref (fst p)) ^ 3 * exp (- (yield_at spline cv (fst p) * years c ref (fst p))))%R l).

Lemma one_term (a w t v : R) : (0 <= w * t <= 410)%R -> (Rabs ((a * exp (- ((v + bp_value / 2 * w) * t)) - a * exp (- ((v + - (bp_value / 2) * w) * t))) / bp_value - - (a * (w * t) * exp (- (v * t)))) <= 2 / 10 ^ 9 * (Rabs a * (w * t) ^ 3 * exp (- (v * t))))%R.
Proof.
  intros H. pose proof bp_bounds as BB. set (E := exp (- (v * t))). assert (E0 : (0 < E)%R) by apply exp_pos.
      set (z := (bp_value / 2 * (w * t))%R). assert (Hz : (0 <= z <= 21 / 1000)%R). { unfold z. split; [apply Rmult_le_pos; lra|]. apply Rle_trans with (1 / 19998 * 410)%R; [apply Rmult_le_compat; lra|lra]. }
      replace (exp (- ((v + bp_value / 2 * w) * t))) with (E * exp (- z))%R by (unfold E; rewrite <- exp_plus; f_equal; unfold z; field). replace (exp (- ((v + - (bp_value / 2) * w) * t))) with (E * exp z)%R by (unfold E; rewrite <- exp_plus; f_equal; unfold z; field).
      pose proof (sinh_cubic z Hz) as S. set (q := (exp z - exp (- z) - 2 * z)%R) in *.
      replace ((a * (E * exp (- z)) - a * (E * exp z)) / bp_value - - (a * (w * t) * E))%R with (- (a * E * (q / bp_value)))%R by (unfold q, z; field; lra).
      rewrite Rabs_Ropp, !Rabs_mult, (Rabs_pos_eq E) by lra. assert (Q0 : (0 <= q / bp_value)%R) by (apply Rmult_le_pos; [lra|apply Rlt_le, Rinv_0_lt_compat; lra]). rewrite (Rabs_pos_eq (q / bp_value)) by exact Q0.
      replace (2 / 10 ^ 9 * (Rabs a * (w * t) ^ 3 * E))%R with (Rabs a * E * (2 / 10 ^ 9 * (w * t) ^ 3))%R by ring. apply Rmult_le_compat_l; [apply Rmult_le_pos; [apply Rabs_pos|lra]|].
      apply Rmult_le_reg_r with bp_value; [lra|]. replace (q / bp_value * bp_value)%R with q by (field; lra). apply Rle_trans with (1 := proj2 S). unfold z. rewrite Rpow_mult_distr.
      assert (W3 : (0 <= (w * t) ^ 3)%R) by (apply pow_le; lra). set (W := ((w * t) ^ 3)%R) in *. replace (12 / 10 * ((bp_value / 2) ^ 3 * W))%R with (12 / 80 * (bp_value * bp_value) * (W * bp_value))%R by field. replace (2 / 10 ^ 9 * W * bp_value)%R with (2 / 10 ^ 9 * (W * bp_value))%R by ring.
      apply Rmult_le_compat_r; [apply Rmult_le_pos; lra|]. assert (bp_value * bp_value <= 1 / 9999 * (1 / 9999))%R by (apply Rmult_le_compat; lra). lra.
Qed.

Theorem C115_central_difference : forall spline cv k c ref l, (forall p, In p l -> 0 <= key_weight k (fst p) * years c ref (fst p) <= 410)%R ->
  (Rabs (central spline cv k c ref l / bp_value - slope_at spline cv k c ref l) <= 2 / 10 ^ 9 * third_at spline cv k c ref l)%R.
Proof.
  intros spline cv k c ref l H. pose proof bp_bounds as BB. unfold central, value_at, slope_at, third_at, bumped, sumR. induction l as [|p l IH]; cbn [List.map fold_right].
  - replace ((0 - 0) / bp_value - 0)%R with 0%R by (field; lra). rewrite Rabs_R0. lra.
  - specialize (IH (fun q I => H q (or_intror I))). specialize (H p (or_introl eq_refl)).
    match goal with |- (Rabs ((?a1 + ?s1 - (?a2 + ?s2)) / ?b - (?a3 + ?s3)) <= ?c0 * (?a4 + ?s4))%R => set (S1 := s1) in *; set (S2 := s2) in *; set (S3 := s3) in *; set (S4 := s4) in *; set (A1 := a1); set (A2 := a2); set (A3 := a3); set (A4 := a4) end.
    assert (T : (Rabs ((A1 - A2) / bp_value - A3) <= 2 / 10 ^ 9 * A4)%R).
    { apply one_term, H. }
    replace ((A1 + S1 - (A2 + S2)) / bp_value - (A3 + S3))%R with (((A1 - A2) / bp_value - A3) + ((S1 - S2) / bp_value - S3))%R by (field; lra). apply Rle_trans with (1 := Rabs_triang _ _). lra.
Qed.
Print Assumptions C115_central_difference.


Definition two_yields : list f_knot := [(738521, flit 3 (-6)); (738522, flit 1 (-4))].
Lemma two_yields_val : val (flit 3 (-6)) (3 / 64) /\ val (flit 1 (-4)) (1 / 16).
Proof. split; [replace (3 / 64)%R with (3 * bpow radix2 (-6))%R|replace (1 / 16)%R with (1 * bpow radix2 (-4))%R]; try (apply flit_val; lia); [change (bpow radix2 (-6)) with (/ 64)%R|change (bpow radix2 (-4)) with (/ 16)%R]; lra. Qed.
Lemma two_curve : exists y, f_new_yield_curve two_yields LINEAR ACT365 CONTINUOUSLY_COMPOUNDED_YIELD 738521 CONSTANT CONSTANT = Ok y /\ f_new_curve two_yields LINEAR ACT365 738521 CONSTANT CONSTANT = Ok (fy_curve y).
Proof.
  assert (AX : axis_ok ACT365 738521 (List.map fst two_yields)). { split; [discriminate|]. split; [apply march; lia|]. intros d [<- | [<- | []]]; cbn [fst]; apply march; lia. }
  destruct (proj1 (C88_built two_yields LINEAR ACT365 738521 CONSTANT CONSTANT AX)) as (cv & E); [intros d [<- | [<- | []]]; cbn [fst]; lia|].
  exists (FYC cv CONTINUOUSLY_COMPOUNDED_YIELD None). unfold f_new_yield_curve. rewrite E. split; reflexivity.
Qed.
Lemma two_plain y : f_new_yield_curve two_yields LINEAR ACT365 CONTINUOUSLY_COMPOUNDED_YIELD 738521 CONSTANT CONSTANT = Ok y -> f_new_curve two_yields LINEAR ACT365 738521 CONSTANT CONSTANT = Ok (fy_curve y) -> plain_yields no_spline (fy_curve y) ACT365 738521 738522 1.
Proof.
  intros H Hc d Ld. destruct two_yields_val as [V1 V2]. assert (ND : NoDup (List.map fst two_yields)) by (repeat constructor; cbn; intuition lia).
  assert (AX : axis_ok ACT365 738521 (List.map fst two_yields)). { split; [discriminate|]. split; [apply march; lia|]. intros d' [<- | [<- | []]]; cbn [fst]; apply march; lia. }
  assert (K : forall k x, In (d, k) two_yields -> val k x -> (0 <= x <= 1)%R -> forall t, accrual ACT365 738521 d t -> (0 <= Q2R t <= 1)%R -> exists v t, f_interpolate no_spline (fy_curve y) d None = Ok v /\ is_finite v = true /\ (Rabs (B2R v) <= bpow radix2 30)%R /\ accrual ACT365 738521 d t /\ (Q2R t <= 400)%R /\ (Rabs (B2R v * Q2R t) <= 1)%R).
  { intros k x I Vk Bx t T Bt. destruct (looked_up no_spline two_yields LINEAR ACT365 738521 CONSTANT CONSTANT (fy_curve y) d k d (or_introl eq_refl) Hc ND AX I (or_introl eq_refl)) as (_ & _ & Kn & _).
    pose proof (keep k (proj1 Vk)) as [F V]. eexists. exists t. split; [apply Kn; left; reflexivity|]. split; [exact F|]. rewrite V. destruct Vk as [_ ->]. rewrite Rabs_pos_eq by lra. split; [change (bpow radix2 30) with 1073741824%R; lra|]. split; [exact T|]. split; [lra|]. rewrite Rabs_pos_eq by (apply Rmult_le_pos; lra). apply Rle_trans with (1 * 1)%R; [apply Rmult_le_compat; lra|lra]. }
  assert (D : d = 738521 \/ d = 738522) by lia. destruct D as [-> | ->].
  - eapply (K _ _ (or_introl eq_refl) V1); [lra|vm_compute; reflexivity|unfold Q2R; cbn; lra].
  - eapply (K _ _ (or_intror (or_introl eq_refl)) V2); [lra|vm_compute; reflexivity|unfold Q2R; cbn; lra].
Qed.
Definition two_payments : list f_payment := [FPayment 738521 (Some (of_int 5)); FPayment 738522 None; FPayment 738522 (Some (of_int 100))].
Definition case_key : kr := new_key_rate ACT365 738521 None (Some 738524).

Example C115_case : exists y, numpy_exp exact_np /\ either_sum f_sum /\ f_new_yield_curve two_yields LINEAR ACT365 CONTINUOUSLY_COMPOUNDED_YIELD 738521 CONSTANT CONSTANT = Ok y /\ NoDup (List.map fst two_yields) /\
  plain_yields no_spline (fy_curve y) ACT365 738521 738522 1 /\ (forall p, In p (received 738521 two_payments) -> fst p <= 738522 /\ amount_ok (snd p)) /\ List.length (received 738521 two_payments) = 2%nat /\
  key_dates_ok case_key /\ (forall d, 738521 <= d <= 738522 -> weighs case_key d) /\ key_weight case_key 738522 = (2 / 3)%R.
Proof.
  destruct two_curve as (y & H & Hc). exists y. split; [apply exact_np_ok|]. split; [left; reflexivity|]. split; [exact H|]. split; [repeat constructor; cbn; intuition lia|]. split; [apply two_plain; assumption|].
  assert (R : received 738521 two_payments = [(738521, of_int 5); (738522, of_int 100)]) by reflexivity.
  split; [|split; [rewrite R; reflexivity|]].
  - intros p I. rewrite R in I.
    assert (A : forall n, 1 <= n <= 1000 -> amount_ok (of_int n)).
    { intros n Bn. destruct (of_int_val n) as [F V]; [lia|]. split; [exact F|]. right. rewrite V. assert (1 <= IZR n <= 1000)%R by (split; apply IZR_le; lia). rewrite Rabs_pos_eq by lra. split; [apply Rle_trans with (bpow radix2 0); [apply bpow_le; lia|change (bpow radix2 0) with 1%R; lra]|apply Rle_trans with (bpow radix2 20); [change (bpow radix2 20) with 1048576%R; lra|apply bpow_le; lia]]. }
    destruct I as [<- | [<- | []]]; cbn [fst snd]; (split; [lia|apply A; lia]).
  - split; [|split].
    + split; [|split; [discriminate|split; [exact (march 738521 ltac:(lia))|split; [discriminate|intros f [= <-]; split; [unfold date_ok, min_date, max_date; cbn; lia|discriminate]]]]]. exists ACT365, 738521, None, (Some 738524), []. split; [discriminate|]. split; [intros x [= <-]; lia|reflexivity].
    + intros d Ld. assert (D : d = 738521 \/ d = 738522) by lia. destruct D as [-> | ->]; eexists; vm_compute; reflexivity.
    + unfold key_weight. match goal with |- match ?x with Ok _ => _ | Err _ => _ end = _ => let v := eval vm_compute in x in change x with v end. cbn iota. unfold Q2R. cbn. lra.
Qed.
