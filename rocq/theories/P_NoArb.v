(** Riskless portfolios earn the short rate: C95. *)
From Verif Require Import Base PyClass PyDate PyDateFacts DayCount DayCountFacts PyList KeyRate Curve CurveFacts Loan P_DayCount RVec Deriv Stochastic StochasticFacts P_Stochastic ShortRate P_ShortRate Vasicek Multi MultiFacts P_Multi P_Multi2 P_Multi3 P_MultiCases.
From Coq Require Import Reals Lra.
Open Scope R_scope.

(** The derivative of a price in the time to maturity, by the term-structure equation *)
Lemma time_derivative m x t : decomposed m -> regular m ->
  derivable_pt_lim (fun t => Fm m t x) t
    (/ 2 * sumn (mv_n m) (fun q => sumn (mv_n m) (fun r => sumn (mv_n m) (fun l => mv_S m q l * mv_S m r l) * (coefficient_term m t q * (coefficient_term m t r * Fm m t x))))
     + sumn (mv_n m) (fun i => sumn (mv_n m) (fun j => mv_K m i j * (mv_level m j - x j)) * (coefficient_term m t i * Fm m t x)) - (mv_mu m + sumn (mv_n m) (fun i => mv_g m i * x i)) * Fm m t x).
Proof.
  intros De Re. eapply d_eq; [|apply Fm_deriv; assumption]. rewrite intercept_deriv_value. set (n := mv_n m). set (B := coefficient_term m t). set (P := Fm m t x).
  assert (E1 : sumn n (fun i => sumn n (fun j => sumn n (fun k => mv_S m i k * mv_S m j k) * (B i * (B j * P)))) = dot n B (mvec n (mv_C m) B) * P).
  { rewrite bil, <- sumn_scal_r. apply sumn_ext. intros i I. rewrite <- sumn_scal_r. apply sumn_ext. intros j J. rewrite (de_C m De). unfold mmul, tr. fold n. ring. }
  assert (E2 : sumn n (fun i => sumn n (fun j => mv_K m i j * (mv_level m j - x j)) * (B i * P)) = (dot n B (mvec n (mv_K m) (mv_level m)) - dot n (mvec n (tr (mv_K m)) B) x) * P).
  { rewrite tr_dot. rewrite <- dot_vsub. unfold dot at 1. rewrite <- sumn_scal_r. apply sumn_ext. intros i I. unfold vsub. rewrite (sumn_ext n _ (fun j => mv_K m i j * mv_level m j - mv_K m i j * x j)) by (intros; ring). rewrite sumn_minus. unfold mvec, dot. ring. }
  assert (E3 : dot n (mvec n (tr (exp_reversion m t)) (mv_g m)) x = dot n (mvec n (tr (mv_K m)) B) x + sumn n (fun i => mv_g m i * x i)).
  { unfold dot. rewrite <- sumn_plus. apply sumn_ext. intros i I. pose proof (B_riccati m De Re t i I) as Rc. fold n B in Rc. fold B. nra. }
  rewrite E1, E2, E3. ring.
Qed.

(** C95.  The portfolio of zero-coupon bonds with the reported weights is riskless and earns the short rate: its reported
    convexity less the weighted derivatives of the prices in the time to maturity is the model's short rate times its
    value.  With the derivatives the code reports this holds for a symmetric reversion matrix; in general they are off by the
    price times the state against the skew part of e^{-K a}. *)
Theorem C95_no_arbitrage : forall la mu g level K S rows b dt m0 m ts p ws, linalg_ok la -> new_multi la mu g level K S rows b dt = Ok m0 -> mean_reverting (bm_dim b) K -> generated m0 m ->
  riskless_weights la m ts p = Ok ws ->
  exists F x c r (a T d : nat -> R) (E : R -> mat), solves_term_structure (bm_dim b) mu g level K S F /\
    mv_state m p = Ok x /\ riskless_convexity la m ts p = Ok c /\ sr_call (mv_model m) (mv_purchase m p) = Ok r /\
    (forall k t, nth_error ts k = Some t -> mv_accrual m t p = Ok (a k) /\ mv_price m t p = Ok (F (a k) x) /\ price_maturity_deriv m t p = Ok (d k)) /\
    (forall k, derivable_pt_lim (fun s => F s x) (a k) (T k)) /\
    c - sumn (bm_dim b + 1) (fun k => nth k ws 0 * T k) = r * sumn (bm_dim b + 1) (fun k => nth k ws 0 * F (a k) x) /\
    matrix_exponential (bm_dim b) K E /\ (forall k, d k = T k - F (a k) x * sumn (bm_dim b) (fun i => sumn (bm_dim b) (fun j => (E (a k) i j - E (a k) j i) * g j) * x i)) /\
    ((forall i j, (i < bm_dim b)%nat -> (j < bm_dim b)%nat -> K i j = K j i) ->
       (forall k, d k = T k) /\ c - sumn (bm_dim b + 1) (fun k => nth k ws 0 * d k) = r * sumn (bm_dim b + 1) (fun k => nth k ws 0 * F (a k) x)).
Proof.
  intros la mu g level K S rows b dt m0 m ts p ws La N Mr G Hw. destruct (prepared _ _ _ _ _ _ _ _ _ _ _ N La Mr G) as (De & Re & En & Em & Eg & El & EK & ES & _ & _ & Ef).
  destruct (riskless_fm la m ts p ws La De Hw) as (Lw & Lt & On & x & a & Hx & Ha & Ze & _ & c & Hc & Ec).
  rewrite <- En, <- Em, <- Eg, <- El, <- EK, <- ES. set (n := mv_n m) in *. set (r := mv_mu m + sumn n (fun i => mv_g m i * x i)).
  set (T := fun k => / 2 * sumn n (fun q => sumn n (fun r => sumn n (fun l => mv_S m q l * mv_S m r l) * (coefficient_term m (a k) q * (coefficient_term m (a k) r * Fm m (a k) x))))
     + sumn n (fun i => sumn n (fun j => mv_K m i j * (mv_level m j - x j)) * (coefficient_term m (a k) i * Fm m (a k) x)) - r * Fm m (a k) x).
  set (d := fun k => Fm m (a k) x * (intercept_deriv m (coefficient_term m (a k)) + dot n (coefficient_deriv m (a k)) x)).
  assert (HT : forall k, derivable_pt_lim (fun s => Fm m s x) (a k) (T k)) by (intros k; apply time_derivative; assumption).
  assert (Eq : c - sumn (n + 1) (fun k => nth k ws 0 * T k) = r * sumn (n + 1) (fun k => nth k ws 0 * Fm m (a k) x)).
  { set (drift := fun i => sumn n (fun j => mv_K m i j * (mv_level m j - x j))).
    assert (Z : sumn (n + 1) (fun k => nth k ws 0 * sumn n (fun i => drift i * (coefficient_term m (a k) i * Fm m (a k) x))) = 0).
    { rewrite (sumn_ext _ _ (fun k => sumn n (fun i => drift i * (nth k ws 0 * (coefficient_term m (a k) i * Fm m (a k) x))))) by (intros k Hk; rewrite <- sumn_scal; apply sumn_ext; intros; ring).
      rewrite sumn_swap. apply sumn_zero. intros i I. rewrite sumn_scal, (Ze i I). ring. }
    rewrite Ec. unfold T. rewrite (sumn_ext (n + 1) (fun k => nth k ws 0 * (_ + _ - _))
      (fun k => / 2 * (nth k ws 0 * sumn n (fun q => sumn n (fun r => sumn n (fun l => mv_S m q l * mv_S m r l) * (coefficient_term m (a k) q * (coefficient_term m (a k) r * Fm m (a k) x)))))
        + nth k ws 0 * sumn n (fun i => drift i * (coefficient_term m (a k) i * Fm m (a k) x)) - r * (nth k ws 0 * Fm m (a k) x))) by (intros k Hk; fold (drift 0%nat); unfold drift; ring).
    rewrite sumn_minus, sumn_plus, !sumn_scal, Z. ring. }
  exists (Fm m), x, c, r, a, T, d, (exp_reversion m). split; [apply Fm_term_structure; assumption|]. split; [exact Hx|]. split; [exact Hc|].
  split; [unfold sr_call; unfold mv_state in Hx; rewrite Hx; cbn [bind]; rewrite Ef; unfold affine_function; rewrite <- En; unfold r; rewrite Em, Eg; reflexivity|].
  split. { intros k t Hk. destruct (Ha k t Hk) as [H1 H2]. split; [exact H1|]. split; [exact H2|]. unfold price_maturity_deriv, mv_coeff_derivs, mv_price_coeffs. rewrite H1. cbn [bind fst snd]. rewrite H2. cbn [bind]. rewrite Hx. reflexivity. }
  split; [exact HT|]. split; [exact Eq|].
  split; [intros i j I J; split; [apply exp_zero; assumption|intros; apply exp_deriv; assumption]|].
  split. { intros k. rewrite (uniqueness_limite _ _ _ _ (HT k) (Fm_deriv m x (a k) De Re)). unfold d. unfold n at 1. rewrite coefficient_deriv_dot. fold n.
    assert (X : sumn n (fun i => sumn n (fun j => (exp_reversion m (a k) i j - exp_reversion m (a k) j i) * mv_g m j) * x i) = dot n (mvec n (exp_reversion m (a k)) (mv_g m)) x - dot n (mvec n (tr (exp_reversion m (a k))) (mv_g m)) x).
    { unfold dot. rewrite <- sumn_minus. apply sumn_ext. intros i I. unfold mvec, dot. rewrite <- Rmult_minus_distr_r. f_equal. rewrite <- sumn_minus. apply sumn_ext. intros j J. unfold tr. ring. }
    rewrite X. ring. }
  intros Sy. assert (D : forall k, d k = T k).
  { intros k. refine (uniqueness_limite _ _ _ _ _ (HT k)). eapply d_eq; [|apply (Fm_deriv m x (a k) De Re)]. unfold d. unfold n at 1. rewrite coefficient_deriv_dot. fold n. f_equal. unfold Rminus. f_equal. f_equal. apply dot_ext; [|reflexivity]. intros i I. symmetry. apply exp_symmetric; assumption. }
  split; [exact D|]. rewrite <- Eq. f_equal. apply sumn_ext. intros k Hk. rewrite D. reflexivity.
Qed.
Print Assumptions C95_no_arbitrage.

(** One factor (a symmetric reversion matrix), bonds of 2 and 4 days: the reported numbers give back the short rate. *)
Example C95_case : exists m x m' h ws c r P2 P4 d2 d4, one_factor = Ok m /\ mv_generate m (level_heap x) 0 true ones = (m', h, Ok tt) /\
  riskless_weights la_demo m' [Stamp (t_day 2); Stamp (t_day 4)] None = Ok ws /\ riskless_convexity la_demo m' [Stamp (t_day 2); Stamp (t_day 4)] None = Ok c /\
  sr_call (mv_model m') (mv_purchase m' None) = Ok r /\ mv_price m' (Stamp (t_day 2)) None = Ok P2 /\ mv_price m' (Stamp (t_day 4)) None = Ok P4 /\
  price_maturity_deriv m' (Stamp (t_day 2)) None = Ok d2 /\ price_maturity_deriv m' (Stamp (t_day 4)) None = Ok d4 /\
  c - (nth 0 ws 0 * d2 + nth 1 ws 0 * d4) = r * (nth 0 ws 0 * P2 + nth 1 ws 0 * P4).
Proof.
  destruct C57_case as (m & x & m' & h & ws & N & Mr & Ge & G & W).
  destruct (C95_no_arbitrage la_demo _ _ _ _ _ _ bm_2024 _ m m' _ _ ws la_demo_ok N Mr G W) as (F & y & c & r & a & T & d & E & _ & _ & Hc & Hr & Hk & _ & _ & _ & _ & Sy).
  destruct (Sy ltac:(intros i j I J; cbn in I, J; replace i with j by lia; reflexivity)) as [_ Q]. destruct (Hk 0%nat _ eq_refl) as (_ & P2 & D2). destruct (Hk 1%nat _ eq_refl) as (_ & P4 & D4).
  exists m, x, m', h, ws, c, r, (F (a 0%nat) y), (F (a 1%nat) y), (d 0%nat), (d 1%nat). repeat (split; [assumption|]). cbn [bm_dim bm_2024 new_brownian Nat.add sumn] in Q. rewrite !Rplus_0_l in Q. exact Q.
Qed.
Print Assumptions C95_case.
