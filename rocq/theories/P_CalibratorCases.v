(** Factorised calibration: concrete cases meeting the hypotheses of C75, and the cases showing what it loses. *)
From Verif Require Import Base PyClass PyDate PyDateFacts DayCount DayCountFacts PyList KeyRate Curve Loan RVec Stochastic StochasticFacts P_Stochastic ShortRate Vasicek Multi MultiFacts P_Multi P_Multi2 P_Multi3 P_MultiCases YieldFactory P_YieldFit Calibrator P_Calibrator.
From Coq Require Import Reals Lra.
Open Scope R_scope.

(** The long-term rate reverts at speed 1 and has no volatility, the short rate reverts at speed 2. *)
Definition params (v : R) : list R := [1; 0; 2; v; 0].
Definition day4 : moment := Stamp (t_day 4).
Definition rate_coefficient (a : R) : R := - ((1 - exp (- (2 * a))) / 2).
Lemma demo_decomposed d v mean : new_doubly la_demo (fun _ => 0) 2 v mean 1 0 0 (t_day 0) (t_day 4) one_day = Ok d ->
  mv_lam (do_multi d) = vec_of [2; 1] /\ mv_V (do_multi d) = mat_of [[0; 1 - 2]; [1; - (2)]] /\ mv_g (do_multi d) = vec_of [0; 1] /\ mv_n (do_multi d) = 2%nat /\
  (mv_Vi (do_multi d) 0%nat 0%nat = - (2) /\ mv_Vi (do_multi d) 0%nat 1%nat = 1 /\ mv_Vi (do_multi d) 1%nat 0%nat = - 1 /\ mv_Vi (do_multi d) 1%nat 1%nat = 0) /\
  (forall i j, (i < 2)%nat -> (j < 2)%nat -> mv_C (do_multi d) i j = pair_covariance 0 v 0 i j).
Proof.
  intros N. pose proof (new_doubly_inv _ _ _ _ _ _ _ _ _ _ _ _ la_demo_ok N) as (S & L & Cs & _ & Nm & _). unfold new_multi in Nm. cbn [bm_dim new_brownian Nat.eqb andb negb la_demo la_eig demo_eig] in Nm.
  destruct (eqm 2 _ _) in Nm; [|discriminate]. cbn [la_demo la_inv demo_inv] in Nm. match type of Nm with context [if ?b then _ else _] => destruct b; [|discriminate] end. cbn [or_lin bind] in Nm. injection Nm as <-. cbn [mv_lam mv_V mv_g mv_n mv_Vi mv_C mv_model].
  split; [reflexivity|]. split; [reflexivity|]. split; [reflexivity|]. split; [reflexivity|]. split; [cbn; repeat split; field; lra|]. intros i j I J. apply Cs; assumption.
Qed.
Lemma demo_with v mean q : 0 <= v -> compute_accrual_length (Stamp (t_day 0)) day4 ACTACT = Ok q -> 0 < Q2R q ->
  exists A c0, forall state, exists m, model_with la_demo ones (t_day 0) (t_day 4) one_day (params v) mean state = Ok m /\
    mv_yield_volatility m day4 None = Ok (v * ((1 - exp (- (2 * Q2R q))) / 2 / Q2R q)) /\
    mv_price m day4 None = Ok (exp (A + (c0 * state 0%nat + rate_coefficient (Q2R q) * state 1%nat))).
Proof.
  intros V Q P. set (a := Q2R q) in *.
  assert (N : exists d, new_doubly la_demo (fun _ => 0) 2 v mean 1 0 0 (t_day 0) (t_day 4) one_day = Ok d).
  { destruct (demo_doubly 2 1 0 v mean) as [d N]; try lra. pose proof (garbage_irrelevant la_demo (vec_of []) (fun _ => 0) 2 v mean 1 0 0 (t_day 0) (t_day 4) one_day) as G. rewrite N in G. destruct (new_doubly la_demo (fun _ => 0) 2 v mean 1 0 0 _ _ _); [eauto|contradiction]. }
  destruct N as (d & N). destruct (demo_decomposed d v mean N) as (El & Ev & Eg & En & (V00 & V01 & V10 & V11) & Ec). exists (intercept_term (do_multi d) a), (coefficient_term (do_multi d) a 0%nat). intros state.
  destruct (new_doubly_inv _ _ _ _ _ _ _ _ _ _ _ _ la_demo_ok N) as (S & L & _ & _ & Nm & _).
  destruct (mv_total la_demo _ _ _ _ _ _ (new_brownian (t_day 0) (t_day 4) 2 L ACTACT) 86400000000 (do_multi d) (Arrays (fun b => if Nat.eqb b 0 then state else fun _ => 0) 1) 0 ones la_demo_ok Nm ltac:(lia) (day_ok_aa 0 ltac:(lia)) (day_ok_aa 4 ltac:(lia))) as (m & h & G & Gm & Sx & Es & Ed).
  { apply Z.leb_le. vm_compute. reflexivity. } { eexists. vm_compute. reflexivity. } { cbn. lia. }
  exists m. pose proof (generated_same _ _ Gm) as Sm. cbn [arr Nat.eqb] in Sx.
  assert (Ac : mv_accrual m day4 None = Ok a) by (unfold mv_accrual, mv_purchase; rewrite Es, Ed; cbn [bm_start bm_dcc new_brownian]; rewrite Q; reflexivity).
  assert (B1 : coefficient_term (do_multi d) a 1%nat = rate_coefficient a).
  { unfold coefficient_term, reversion_inv, exp_reversion. rewrite En, El, Ev, Eg. unfold mvec, dot, mmul, msub, tr, diag. cbn [sumn]. rewrite V00, V01, V10, V11. cbn. unfold delta. cbn [Nat.eqb]. unfold rate_coefficient.
    replace (- (2) * a) with (- (2 * a)) by ring. set (e := exp (- (2 * a))). clearbody e. set (e1 := exp _). clearbody e1. field. }
  split; [|split].
  - unfold model_with, params. rewrite N. cbn [bind]. rewrite G. reflexivity.
  - unfold mv_yield_volatility, yield_covariance, mv_yield_coeffs, mv_price_coeffs. cbn [mapM]. rewrite Ac. cbn [bind fst snd]. unfold gram. rewrite (sm_n _ _ Sm), En, (sm_C _ _ Sm). unfold mmul, tr. cbn [sumn nth].
    assert (Cm : coefficient_term m a 1%nat = rate_coefficient a) by (rewrite <- B1; unfold coefficient_term, exp_reversion, reversion_inv; rewrite (sm_n _ _ Sm), (sm_lam _ _ Sm), (sm_V _ _ Sm), (sm_Vi _ _ Sm), (sm_g _ _ Sm); reflexivity).
    rewrite !Ec by lia. rewrite Cm. unfold pair_covariance. cbn. set (c := coefficient_term m a 0%nat). set (k := (1 - exp (- (2 * a))) / 2 / a).
    assert (K : 0 < k). { unfold k, Rdiv. apply Rmult_lt_0_compat; [|apply Rinv_0_lt_compat; exact P]. apply Rmult_lt_0_compat; [|lra]. assert (exp (- (2 * a)) < 1) by (rewrite <- exp_0 at 1; apply exp_increasing; lra). lra. }
    match goal with |- msqrt ?x = _ => replace x with (Rsqr (v * k)) by (unfold Rsqr, k, rate_coefficient; field; lra) end. unfold msqrt. pose proof (Rle_0_sqr (v * k)) as Sq. destruct (Rlt_dec _ 0) as [X|_]; [lra|]. f_equal. apply sqrt_Rsqr. apply Rmult_le_pos; lra.
  - rewrite (price_value m day4 None a state Ac Sx). unfold Fm. rewrite (sm_n _ _ Sm), En. unfold dot. cbn [sumn].
    assert (Ci : intercept_term m a = intercept_term (do_multi d) a) by (unfold intercept_term, reversion_inv; rewrite (sm_n _ _ Sm), (sm_lam _ _ Sm), (sm_V _ _ Sm), (sm_Vi _ _ Sm), (sm_g _ _ Sm), (sm_C _ _ Sm), (sm_mu _ _ Sm), (sm_level _ _ Sm); reflexivity).
    assert (Ce : forall i, coefficient_term m a i = coefficient_term (do_multi d) a i) by (intros i; unfold coefficient_term, exp_reversion, reversion_inv; rewrite (sm_n _ _ Sm), (sm_lam _ _ Sm), (sm_V _ _ Sm), (sm_Vi _ _ Sm), (sm_g _ _ Sm); reflexivity).
    rewrite Ci, !Ce, B1. f_equal. f_equal. ring.
Qed.
Lemma misfit_one f q v : f day4 = Ok v -> misfit f [(day4, q)] = Ok (Rabs (v - q)).
Proof. intros E. unfold misfit. cbn [square_errors]. rewrite E. cbn [bind]. rewrite Rplus_0_r, sqrt_Rsqr_abs. reflexivity. Qed.

(** A model with volatility 1%, to be calibrated to the four-day yield volatility and price of the model with volatility v,
    mean 4%, long-term rate 6% and short rate 2%. *)
Definition demo_target : target := Target (params (1 / 100)) [1 / 20] [1 / 20; 3 / 100] (t_day 0) (t_day 4) one_day ACTACT.
Definition wanted : list R := [1 / 25; 3 / 50; 1 / 50].
Definition at_start : vec := vec_of [3 / 50; 1].
Lemma demo_calibration v w : 0 <= v -> 0 <= w ->
  exists k qv qp A c0 b, 0 < k /\ b < 0 /\ qv = v * k /\ 
    (forall x, 0 <= x -> vol_misfit la_demo ones (t_day 0) (t_day 4) one_day [(day4, qv)] (1 / 20) (vec_of [1 / 20; 3 / 100]) (params x) = Ok (Rabs (x * k - qv))) /\
    qp = exp (A + (c0 * (3 / 50) + b * (1 / 50))) /\
    price_misfit la_demo ones (t_day 0) (t_day 4) one_day [(day4, qp)] (params w) wanted = Ok 0 /\
    forall s1 vs r1, conversation (vol_misfit la_demo ones (t_day 0) (t_day 4) one_day [(day4, qv)] (1 / 20) (vec_of [1 / 20; 3 / 100])) s1 vs r1 -> params w = last (List.map fst vs) (params (1 / 100)) ->
      exists d d', calibrate la_demo ones true (fun _ => 0) s1 (Ask wanted (fun _ => Done wanted)) at_start at_start (Calibrator [(day4, qv)] [(day4, qp)]) demo_target = (put_vol demo_target (params w), Ok d) /\
        mv_yield_volatility (do_multi d) day4 None = Ok (w * k) /\ mv_price (do_multi d) day4 None = Ok qp /\
        build la_demo ones at_start (doubly_target d) = Ok d' /\ mv_price (do_multi d') day4 None = Ok (exp (A + (c0 * (3 / 50) + b * 1))).
Proof.
  intros V W. destruct (accrual_aa 4 ltac:(lia)) as (q & Q & P). destruct (demo_with w (1 / 25) q W Q P) as (A & c0 & M). set (k := (1 - exp (- (2 * Q2R q))) / 2 / Q2R q). set (b := rate_coefficient (Q2R q)) in *.
  assert (E1 : exp (- (2 * Q2R q)) < 1) by (rewrite <- exp_0 at 1; apply exp_increasing; lra).
  assert (K : 0 < k). { unfold k, Rdiv. apply Rmult_lt_0_compat; [|apply Rinv_0_lt_compat; exact P]. apply Rmult_lt_0_compat; lra. }
  set (qp := exp (A + (c0 * (3 / 50) + b * (1 / 50)))).
  exists k, (v * k), qp, A, c0, b. split; [exact K|]. split; [unfold b, rate_coefficient; lra|]. split; [reflexivity|].
  assert (Vm : forall x, 0 <= x -> vol_misfit la_demo ones (t_day 0) (t_day 4) one_day [(day4, v * k)] (1 / 20) (vec_of [1 / 20; 3 / 100]) (params x) = Ok (Rabs (x * k - v * k))).
  { intros x X. unfold vol_misfit. destruct (demo_with x (1 / 20) q X Q P) as (A' & c0' & M'). destruct (M' (vec_of [1 / 20; 3 / 100])) as (m & -> & Yv & _). cbn [bind]. apply misfit_one. exact Yv. }
  split; [exact Vm|]. split; [reflexivity|].
  destruct (M (vec_of [3 / 50; 1 / 50])) as (m2 & Mw & Yv & Pr).
  assert (Pm : price_misfit la_demo ones (t_day 0) (t_day 4) one_day [(day4, qp)] (params w) wanted = Ok 0).
  { unfold price_misfit, wanted. rewrite Mw. cbn [bind]. rewrite (misfit_one _ _ _ Pr). change (vec_of [3 / 50; 1 / 50] 0%nat) with (3 / 50). change (vec_of [3 / 50; 1 / 50] 1%nat) with (1 / 50). fold qp. rewrite Rminus_diag_eq, Rabs_R0; reflexivity. }
  split; [exact Pm|]. intros s1 vs r1 C1 El.
  destruct (demo_with w (1 / 20) q W Q P) as (A1 & c1 & M1). destruct (M1 (vec_of [1 / 20; 3 / 100])) as (m1 & Mw1 & _).
  assert (C2 : conversation (price_misfit la_demo ones (t_day 0) (t_day 4) one_day [(day4, qp)] (params w)) (Ask wanted (fun _ => Done wanted)) [(wanted, 0)] wanted) by (constructor; [exact Pm|constructor]).
  destruct (C75_defined la_demo ones (fun _ => 0) s1 (Ask wanted (fun _ => Done wanted)) at_start at_start (Calibrator [(day4, v * k)] [(day4, qp)]) demo_target (1 / 20) vs r1 [(wanted, 0)] wanted (params w) m1 (1 / 25) (3 / 50) (1 / 50) m2) as (d & Cd & Ed);
    try reflexivity; try assumption.
  { intros u q' [X|[]]. injection X as <- _. eauto. } { intros u q' [X|[]]. injection X as <- _. eauto. }
  destruct (M (vec_of [3 / 50; 1])) as (m4 & Mw4 & _ & Pr4).
  assert (B : exists d', build la_demo ones at_start (doubly_target d) = Ok d' /\ do_multi d' = m4).
  { destruct (C75_calibrated la_demo ones true _ _ _ _ _ _ demo_target (1 / 20) _ d eq_refl eq_refl Cd) as (tr1 & r1' & x & tr2 & r2 & m' & th & r & D1 & Ex & D2 & Ey & Mw' & Ev & Es & Est & Ep). 
    injection Ep as Ep. 
    assert (Em : m' = 1 / 25). { inversion D2; subst. match goal with H : conversation _ (Done _) _ _ |- _ => inversion H; subst end. cbn in Ey. injection Ey as -> _ _. reflexivity. }
    subst m'. rewrite <- Ep in *. 
    assert (Tg : doubly_target d = Target (params w) [1 / 25] [3 / 50; 1] (t_day 0) (t_day 4) one_day ACTACT).
    { unfold model_with, params in Mw. destruct (new_doubly la_demo (fun _ => 0) 2 w (1 / 25) 1 0 0 _ _ _) as [d0|] eqn:N; [|discriminate]. cbn [bind] in Mw. destruct (mv_generate (do_multi d0) _ 0 true ones) as [[mg hg] [u|]] eqn:G; [|discriminate]. injection Mw as Mg.
      pose proof (garbage_irrelevant la_demo (fun _ => 0) (fun _ => 0) 2 w (1 / 25) 1 0 0 (t_day 0) (t_day 4) one_day) as Gi. rewrite N in Gi. destruct Gi as (_ & _ & _ & _ & K1 & K2 & K3 & K4). pose proof (generate_same _ _ _ _ _ _ _ _ G) as Sm. pose proof (generate_dt _ _ _ _ _ _ _ _ G) as Dt.
      pose proof (sm_start _ _ Sm) as X1. pose proof (sm_end _ _ Sm) as X2. pose proof (sm_dcc _ _ Sm) as X3. unfold doubly_target, model_target. rewrite Ed, <- Mg, Ev, Es, Est. unfold mv_start, mv_dcc in *. rewrite X1, X2, X3, Dt, K1, K2, K3, K4. reflexivity. }
    pose proof (build_spec la_demo ones at_start (Target (params w) [1 / 25] [3 / 50; 1] (t_day 0) (t_day 4) one_day ACTACT) (params w) (1 / 25) [3 / 50; 1] eq_refl eq_refl eq_refl eq_refl) as Bs. cbn [tg_start tg_end tg_dt] in Bs.
    rewrite Tg.
    rewrite Mw4 in Bs. destruct (build la_demo ones at_start _) as [d'|]; [|contradiction]. exists d'. split; [reflexivity|]. exact (proj1 Bs). }
  destruct B as (d' & B & Ed'). exists d, d'. split; [exact Cd|]. rewrite Ed, Ed'. split; [exact Yv|]. split; [exact Pr|]. split; [exact B|]. exact Pr4.
Qed.
Lemma ask_inv {X Y} (f : X -> res Y) x k tr r : conversation f (Ask x k) tr r -> exists y tr', f x = Ok y /\ tr = (x, y) :: tr' /\ conversation f (k y) tr' r.
Proof. intros H. inversion H. subst. eauto. Qed.
(** Both optimisations end on an exact fit, after the optimiser has tried another point. *)
Example C75_case : exists s1 s2 c d, ca_vols c <> [] /\ ca_prices c <> [] /\
  (forall tr r, conversation (vol_misfit la_demo ones (t_day 0) (t_day 4) one_day (ca_vols c) (1 / 20) (vec_of (tg_state demo_target))) s1 tr r ->
    exists tr' x, tr = tr' ++ [(x, 0)] /\
      forall tr2 r2, conversation (price_misfit la_demo ones (t_day 0) (t_day 4) one_day (ca_prices c) x) s2 tr2 r2 -> exists tr2' y, tr2 = tr2' ++ [(y, 0)]) /\
  calibrate la_demo ones true (fun _ => 0) s1 s2 at_start at_start c demo_target = (put_vol demo_target (params (1 / 50)), Ok d) /\
  params (1 / 50) <> tg_vol demo_target.
Proof.
  destruct (demo_calibration (1 / 50) (1 / 50)) as (k & qv & qp & A & c0 & b & K & B & Ev & Vm & Ep & Pm & F); try lra.
  assert (Z : vol_misfit la_demo ones (t_day 0) (t_day 4) one_day [(day4, qv)] (1 / 20) (vec_of [1 / 20; 3 / 100]) (params (1 / 50)) = Ok 0) by (rewrite Vm by lra; rewrite Ev, Rminus_diag_eq, Rabs_R0; reflexivity).
  destruct (F (Ask (params 1) (fun _ => Ask (params (1 / 50)) (fun _ => Done (params (1 / 50))))) [(params 1, Rabs (1 * k - qv)); (params (1 / 50), 0)] (params (1 / 50))) as (d & d' & Cd & _).
  { constructor; [apply Vm; lra|]. constructor; [exact Z|constructor]. } { reflexivity. }
  eexists _, _, _, d. split; [|split; [|split; [|split; [exact Cd|]]]]; try discriminate.
  - intros tr r H. apply ask_inv in H. destruct H as (y1 & tr1 & _ & E1 & H). apply ask_inv in H. destruct H as (y2 & tr2 & Y2 & E2 & H). inversion H. subst tr2 tr1 tr. clear H. assert (y2 = 0) as -> by (cbn [ca_vols tg_state demo_target] in Y2; congruence).
    eexists [_], _. split; [reflexivity|]. intros tr4 r4 G. apply ask_inv in G. destruct G as (y3 & tr3 & Y3 & E3 & G). inversion G. subst tr3 tr4. cbn [ca_prices] in Y3. assert (y3 = 0) as -> by congruence. exists [], wanted. reflexivity.
  - cbn. unfold params. intros X. injection X as X. lra.
Qed.
Print Assumptions C75_case.

(** The optimiser's answer is thrown away: it found an exact fit, tried another point, and reported the exact fit; the
    calibrated model has the other point's volatility and misses the quote. *)
Theorem C75_solution_dropped_refuted : exists s1 s2 c d tr best quote,
  conversation (vol_misfit la_demo ones (t_day 0) (t_day 4) one_day (ca_vols c) (1 / 20) (vec_of (tg_state demo_target))) s1 tr best /\
  vol_misfit la_demo ones (t_day 0) (t_day 4) one_day (ca_vols c) (1 / 20) (vec_of (tg_state demo_target)) best = Ok 0 /\
  calibrate la_demo ones true (fun _ => 0) s1 s2 at_start at_start c demo_target = (put_vol demo_target (do_vol_params d), Ok d) /\
  do_vol_params d <> best /\ In (day4, quote) (ca_vols c) /\ mv_yield_volatility (do_multi d) day4 None <> Ok quote.
Proof.
  destruct (demo_calibration (1 / 50) 1) as (k & qv & qp & A & c0 & b & K & B & Ev & Vm & Ep & Pm & F); try lra.
  assert (Z : vol_misfit la_demo ones (t_day 0) (t_day 4) one_day [(day4, qv)] (1 / 20) (vec_of [1 / 20; 3 / 100]) (params (1 / 50)) = Ok 0) by (rewrite Vm by lra; rewrite Ev, Rminus_diag_eq, Rabs_R0; reflexivity).
  set (s1 := Ask (params (1 / 50)) (fun _ => Ask (params 1) (fun _ => Done (params (1 / 50)))) : solver (list R) R). set (tr := [(params (1 / 50), 0); (params 1, Rabs (1 * k - qv))]).
  assert (Cv : conversation (vol_misfit la_demo ones (t_day 0) (t_day 4) one_day [(day4, qv)] (1 / 20) (vec_of [1 / 20; 3 / 100])) s1 tr (params (1 / 50))) by (constructor; [exact Z|]; constructor; [apply Vm; lra|constructor]).
  destruct (F s1 tr (params (1 / 50)) Cv eq_refl) as (d & d' & Cd & Yv & _).
  assert (Dv : do_vol_params d = params 1).
  { destruct (C75_calibrated la_demo ones true _ _ _ _ _ _ demo_target (1 / 20) _ d eq_refl eq_refl Cd) as (tr1 & r1' & x & tr2 & r2 & m' & th & r & D1 & Ex & D2 & Ey & Mw' & Evp & Es & Est & Epx). rewrite Evp. symmetry. exact (f_equal tg_vol Epx). }
  exists s1, (Ask wanted (fun _ => Done wanted)), (Calibrator [(day4, qv)] [(day4, qp)]), d, tr, (params (1 / 50)), qv. rewrite Dv. split; [exact Cv|]. split; [exact Z|]. split; [exact Cd|]. split; [unfold params; intros X; injection X as X; lra|]. split; [left; reflexivity|].
  rewrite Yv, Ev. intros X. injection X as X. assert (K' : (1 - 1 / 50) * k = 0) by lra. apply Rmult_integral in K'. lra.
Qed.
Print Assumptions C75_solution_dropped_refuted.

(** A calibrated model rebuilt from its own dictionary is another model: here it no longer reproduces the price the
    calibration had fitted exactly. *)
Theorem C75_state_lost_refuted : exists s1 s2 c d d' price t', calibrate la_demo ones true (fun _ => 0) s1 s2 at_start at_start c demo_target = (t', Ok d) /\
  In (day4, price) (ca_prices c) /\ mv_price (do_multi d) day4 None = Ok price /\
  build la_demo ones at_start (doubly_target d) = Ok d' /\ mv_price (do_multi d') day4 None <> Ok price.
Proof.
  destruct (demo_calibration (1 / 50) (1 / 100)) as (k & qv & qp & A & c0 & b & K & B & Ev & Vm & Ep & Pm & F); try lra.
  destruct (F (Done (params (1 / 50))) [] (params (1 / 50)) (conv_done _ _) eq_refl) as (d & d' & Cd & _ & Pr & Bd & Pd).
  exists (Done (params (1 / 50))), (Ask wanted (fun _ => Done wanted)), (Calibrator [(day4, qv)] [(day4, qp)]), d, d', qp. eexists. split; [exact Cd|]. split; [left; reflexivity|]. split; [exact Pr|]. split; [exact Bd|]. rewrite Pd, Ep. intros X. injection X as X. apply exp_inv in X. lra.
Qed.
Print Assumptions C75_state_lost_refuted.
