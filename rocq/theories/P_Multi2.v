(** Multivariate Vasicek models, continued: forwards (C67), riskless portfolios (C57), covariances (C58, C68). *)
From Verif Require Import Base PyClass PyDate PyDateFacts DayCount DayCountFacts PyList KeyRate Curve CurveFacts Loan P_DayCount RVec Deriv Stochastic StochasticFacts P_Stochastic ShortRate P_ShortRate Vasicek Multi MultiFacts P_Multi.
From Coq Require Import Reals Lra.
Open Scope R_scope.

(** ---- forwards ---- *)
Lemma intercept_deriv_value m t : intercept_deriv m (coefficient_term m t) = - mv_mu m + dot (mv_n m) (coefficient_term m t) (mvec (mv_n m) (mv_K m) (mv_level m)) + / 2 * dot (mv_n m) (coefficient_term m t) (mvec (mv_n m) (mv_C m) (coefficient_term m t)).
Proof. unfold intercept_deriv. rewrite !vmat_dot, dot_scal. replace (1 / 2) with (/ 2) by field. reflexivity. Qed.
Lemma Fm_log_deriv m x t : decomposed m -> regular m ->
  derivable_pt_lim (fun t => - ln (Fm m t x)) t (- intercept_deriv m (coefficient_term m t) + dot (mv_n m) (mvec (mv_n m) (tr (exp_reversion m t)) (mv_g m)) x).
Proof.
  intros De Re. apply (d_fun (fun t => - (intercept_term m t + dot (mv_n m) (coefficient_term m t) x))); [intros s; unfold Fm; rewrite ln_exp; reflexivity|].
  eapply d_eq; [|apply d_opp, d_plus; [apply (A_deriv m De Re t)|apply (sumn_deriv (mv_n m) (fun i t => coefficient_term m t i * x i) (fun i t => - mvec (mv_n m) (tr (exp_reversion m t)) (mv_g m) i * x i))]].
  - rewrite intercept_deriv_value. assert (X : sumn (mv_n m) (fun i => - mvec (mv_n m) (tr (exp_reversion m t)) (mv_g m) i * x i) = - dot (mv_n m) (mvec (mv_n m) (tr (exp_reversion m t)) (mv_g m)) x).
    { unfold dot. rewrite <- sumn_opp. apply sumn_ext. intros. ring. }
    rewrite X. ring.
  - intros i I. eapply d_eq; [|apply (d_mult (fun t => coefficient_term m t i) (fun _ => x i)); [apply (B_deriv_exp m De Re t i I)|apply d_const]]. ring.
Qed.
Lemma Fm_deriv m x t : decomposed m -> regular m ->
  derivable_pt_lim (fun t => Fm m t x) t (Fm m t x * (intercept_deriv m (coefficient_term m t) - dot (mv_n m) (mvec (mv_n m) (tr (exp_reversion m t)) (mv_g m)) x)).
Proof.
  intros De Re. apply (d_fun (fun t => exp (- - ln (Fm m t x)))); [intros s; rewrite Ropp_involutive, exp_ln by apply exp_pos; reflexivity|].
  eapply d_eq; [|apply (d_exp_of (fun t => - - ln (Fm m t x))); apply d_opp; apply (Fm_log_deriv m x t De Re)]. rewrite Ropp_involutive, exp_ln by apply exp_pos. ring.
Qed.

Lemma exp_entry m t i j : exp_reversion m t i j = mvec (mv_n m) (mv_V m) (fun k => exp (- mv_lam m k * t) * mv_Vi m k j) i.
Proof.
  unfold exp_reversion, mmul, mvec, dot. apply sumn_ext. intros k Hk. rewrite (sumn_ext _ _ (fun l => delta k l * (mv_V m i l * exp (- mv_lam m l * t)))).
  - rewrite (sumn_delta _ k (fun l => mv_V m i l * exp (- mv_lam m l * t)) Hk). ring.
  - intros l Hl. unfold diag. rewrite (delta_sym k l). ring.
Qed.
Lemma exp_zero m i j : decomposed m -> (i < mv_n m)%nat -> (j < mv_n m)%nat -> exp_reversion m 0 i j = delta i j.
Proof.
  intros De I J. rewrite exp_entry. rewrite <- (de_r m De i j I J). apply sumn_ext. intros k Hk. rewrite Rmult_0_r, exp_0. ring.
Qed.
Lemma exp_deriv m t i j : decomposed m -> (i < mv_n m)%nat -> derivable_pt_lim (fun t => exp_reversion m t i j) t (- sumn (mv_n m) (fun k => mv_K m i k * exp_reversion m t k j)).
Proof.
  intros De I. apply (d_fun (fun t => mvec (mv_n m) (mv_V m) (fun k => exp (- mv_lam m k * t) * mv_Vi m k j) i)); [intros; symmetry; apply exp_entry|].
  apply (d_eq _ _ (sumn (mv_n m) (fun k => mv_V m i k * (- mv_lam m k * exp (- mv_lam m k * t) * mv_Vi m k j)))).
  - set (z := fun k => exp (- mv_lam m k * t) * mv_Vi m k j). assert (E : sumn (mv_n m) (fun k => mv_K m i k * exp_reversion m t k j) = mvec (mv_n m) (mv_K m) (mvec (mv_n m) (mv_V m) z) i).
    { apply sumn_ext. intros k Hk. rewrite exp_entry. reflexivity. }
    rewrite E, (K_mvec m De _ i I), <- sumn_opp || rewrite E, (K_mvec m De _ i I). unfold mvec at 1, dot. rewrite <- sumn_opp. apply sumn_ext. intros k Hk. rewrite (inverse_mvec _ _ _ z k (de_l m De) Hk). unfold z. ring.
  - unfold mvec, dot. apply (sumn_deriv (mv_n m) (fun k t => mv_V m i k * (exp (- mv_lam m k * t) * mv_Vi m k j)) (fun k t => mv_V m i k * (- mv_lam m k * exp (- mv_lam m k * t) * mv_Vi m k j))). intros k Hk. apply d_scal.
    eapply d_eq; [|apply (d_mult (fun t => exp (- mv_lam m k * t)) (fun _ => mv_Vi m k j)); [apply d_exp|apply d_const]]. ring.
Qed.
(** E(t) = e^{-K t} *)
Definition matrix_exponential (n : nat) (K : mat) (E : R -> mat) : Prop :=
  forall i j, (i < n)%nat -> (j < n)%nat -> E 0 i j = delta i j /\ forall t, derivable_pt_lim (fun t => E t i j) t (- sumn n (fun k => K i k * E t k j)).

Lemma forward_value m t p a x : mv_accrual m t p = Ok a -> mv_state m p = Ok x -> mv_forward m t p = Ok (- intercept_deriv m (coefficient_term m a) - dot (mv_n m) (coefficient_deriv m a) x).
Proof. intros Ha Hx. unfold mv_forward, mv_coeff_derivs, mv_price_coeffs. rewrite Ha. cbn [bind fst snd]. rewrite Hx. reflexivity. Qed.
Lemma coefficient_deriv_dot m a x : dot (mv_n m) (coefficient_deriv m a) x = - dot (mv_n m) (mvec (mv_n m) (exp_reversion m a) (mv_g m)) x.
Proof. unfold coefficient_deriv, dot at 1 2. rewrite <- sumn_opp. apply sumn_ext. intros. ring. Qed.

(** C67.  The reported instantaneous forward and price derivative in the maturity are exact for a symmetric reversion
    matrix.  In general the transposition is missing: the error is the state against the skew part of e^{-K a}. *)
Theorem C67_forward : forall la mu g level K S rows b dt m0 m t p a x, linalg_ok la -> new_multi la mu g level K S rows b dt = Ok m0 -> mean_reverting (bm_dim b) K -> generated m0 m ->
  mv_accrual m t p = Ok a -> mv_state m p = Ok x ->
  exists F f d true_f E, solves_term_structure (bm_dim b) mu g level K S F /\ mv_price m t p = Ok (F a x) /\
    mv_forward m t p = Ok f /\ price_maturity_deriv m t p = Ok d /\ d = - f * F a x /\
    derivable_pt_lim (fun t => - ln (F t x)) a true_f /\ derivable_pt_lim (fun t => F t x) a (- true_f * F a x) /\
    matrix_exponential (bm_dim b) K E /\
    f = true_f + sumn (bm_dim b) (fun i => sumn (bm_dim b) (fun j => (E a i j - E a j i) * g j) * x i) /\
    ((forall i j, (i < bm_dim b)%nat -> (j < bm_dim b)%nat -> K i j = K j i) -> f = true_f).
Proof.
  intros la mu g level K S rows b dt m0 m t p a x La N Mr G Ha Hx. destruct (prepared _ _ _ _ _ _ _ _ _ _ _ N La Mr G) as (De & Re & En & Em & Eg & El & EK & ES & _).
  assert (HP : mv_price m t p = Ok (Fm m a x)) by (unfold mv_price, mv_price_coeffs; rewrite Ha; cbn [bind]; rewrite Hx; reflexivity).
  set (n := mv_n m) in *. set (A' := intercept_deriv m (coefficient_term m a)). set (Eg1 := dot n (mvec n (exp_reversion m a) (mv_g m)) x). set (Eg2 := dot n (mvec n (tr (exp_reversion m a)) (mv_g m)) x).
  exists (Fm m), (- A' + Eg1), (Fm m a x * (A' - Eg1)), (- A' + Eg2), (exp_reversion m). rewrite <- En, <- Em, <- Eg, <- El, <- EK, <- ES.
  split; [apply Fm_term_structure; assumption|]. split; [exact HP|].
  split; [rewrite (forward_value m t p a x Ha Hx), coefficient_deriv_dot; fold n A' Eg1; f_equal; ring|].
  split; [unfold price_maturity_deriv, mv_coeff_derivs, mv_price_coeffs; rewrite Ha; cbn [bind fst snd]; rewrite HP; cbn [bind]; rewrite Hx; cbn [bind]; rewrite coefficient_deriv_dot; reflexivity|].
  split; [ring|]. split; [apply Fm_log_deriv; assumption|]. split; [eapply d_eq; [|apply Fm_deriv; assumption]; fold n A' Eg2; ring|].
  split; [intros i j I J; split; [apply exp_zero; assumption|intros; apply exp_deriv; assumption]|].
  split.
  - rewrite Rplus_assoc. f_equal. unfold Eg1, Eg2, dot. rewrite <- sumn_plus. apply sumn_ext. intros i I. unfold mvec, dot. rewrite <- Rmult_plus_distr_r. f_equal. rewrite <- sumn_plus. apply sumn_ext. intros j J. unfold tr. ring.
  - intros Sy. f_equal. unfold Eg1, Eg2. apply dot_ext; [|reflexivity]. intros i I. apply exp_symmetric; assumption.
Qed.
Print Assumptions C67_forward.

(** ---- C58: covariances ---- *)
Lemma mapM_cols {A} (f : A -> res vec) l cols j x : mapM f l = Ok cols -> nth_error l j = Some x -> exists c, f x = Ok c /\ nth j cols (fun _ => 0) = c.
Proof.
  revert cols j. induction l as [|y l IH]; intros cols j H X; [destruct j; discriminate|]. cbn [mapM] in H. destruct (f y) as [c|] eqn:E; [|discriminate]. cbn [bind] in H. destruct (mapM f l) as [cs|] eqn:E2; [|discriminate]. cbn [bind] in H. injection H as <-.
  destruct j as [|j]; [injection X as <-; eauto|]. apply (IH cs j eq_refl X).
Qed.
Lemma gram_entry m cols i j : gram m cols i j = dot (mv_n m) (nth i cols (fun _ => 0)) (mvec (mv_n m) (mv_C m) (nth j cols (fun _ => 0))).
Proof.
  unfold gram. set (n := mv_n m). set (u := nth i cols (fun _ => 0)). set (v := nth j cols (fun _ => 0)). unfold mmul at 1.
  rewrite <- vmat_dot. unfold dot. apply sumn_ext. intros k Hk. reflexivity.
Qed.
Lemma gram_factor m cols i j : decomposed m -> gram m cols i j = sumn (mv_n m) (fun k => mvec (mv_n m) (tr (mv_S m)) (nth i cols (fun _ => 0)) k * mvec (mv_n m) (tr (mv_S m)) (nth j cols (fun _ => 0)) k).
Proof.
  intros De. rewrite gram_entry, (de_C m De). set (u := nth i cols (fun _ => 0)). set (v := nth j cols (fun _ => 0)).
  rewrite (dot_ext _ u (mvec _ (mmul _ (mv_S m) (tr (mv_S m))) v) u (mvec (mv_n m) (mv_S m) (mvec (mv_n m) (tr (mv_S m)) v))) by (intros; try reflexivity; apply mvec_mmul). rewrite <- tr_dot. reflexivity.
Qed.
(** C is a covariance matrix: symmetric and positive semidefinite *)
Definition covariance_matrix (len : nat) (c : mat) : Prop :=
  (forall i j, c i j = c j i) /\ forall z, 0 <= sumn len (fun i => sumn len (fun j => z i * c i j * z j)).
Lemma gram_covariance m cols len : decomposed m -> covariance_matrix len (gram m cols).
Proof.
  intros De. split.
  - intros i j. rewrite !gram_factor by exact De. apply sumn_ext. intros. ring.
  - intros z. set (n := mv_n m). set (w := fun i k => mvec n (tr (mv_S m)) (nth i cols (fun _ => 0)) k).
    rewrite (sumn_ext len _ (fun i => sumn n (fun k => z i * w i k * sumn len (fun j => w j k * z j)))).
    + rewrite sumn_swap. apply sumn_nonneg. intros k Hk. rewrite sumn_scal_r. rewrite (sumn_ext len (fun i => z i * w i k) (fun j => w j k * z j)) by (intros; ring). apply Rle_0_sqr.
    + intros i I. rewrite (sumn_ext len _ (fun j => sumn n (fun k => z i * w i k * (w j k * z j)))).
      * rewrite sumn_swap. apply sumn_ext. intros k Hk. rewrite sumn_scal. reflexivity.
      * intros j J. rewrite gram_factor by exact De. fold n. change (mvec n (tr (mv_S m)) (nth i cols (fun _ => 0))) with (w i). change (mvec n (tr (mv_S m)) (nth j cols (fun _ => 0))) with (w j).
        rewrite <- sumn_scal, <- sumn_scal_r. apply sumn_ext. intros. ring.
Qed.
Lemma affine_partial n i c B x : (i < n)%nat -> partial_deriv (fun y => c + dot n B y) x i (B i).
Proof.
  intros I. unfold partial_deriv. apply (d_fun (fun t => (c + (dot n B x - B i * x i)) + B i * t)); [intros t; rewrite dot_upd by exact I; ring|]. apply d_affine.
Qed.
Lemma yield_coeffs_value m t p a : mv_accrual m t p = Ok a -> mv_yield_coeffs m t p = Ok (- intercept_term m a / a, fun i => - coefficient_term m a i / a).
Proof. intros Ha. unfold mv_yield_coeffs, mv_price_coeffs. rewrite Ha. reflexivity. Qed.

(** C58.  The yield covariance matrix is a covariance matrix; entry (i, j) pairs the gradients of the two yields through
    S S^T; its diagonal is the squared yield volatility, which is always defined. *)
Theorem C58_yields : forall la mu g level K S rows b dt m0 m ts p c, linalg_ok la -> new_multi la mu g level K S rows b dt = Ok m0 -> mean_reverting (bm_dim b) K -> generated m0 m ->
  yield_covariance m (List.map Stamp ts) p = Ok c ->
  covariance_matrix (List.length ts) c /\
  exists Y : nat -> vec -> R, exists D : nat -> vec,
    (forall i t, nth_error ts i = Some t -> (forall x, mv_state m p = Ok x -> dt_leb t (mv_purchase m p) = false -> mv_yield m (Stamp t) p = Ok (Y i x)) /\
       (forall x k, (k < bm_dim b)%nat -> partial_deriv (Y i) x k (D i k)) /\
       exists v, mv_yield_volatility m (Stamp t) p = Ok v /\ 0 <= v /\ v * v = c i i) /\
    (forall i j, (i < List.length ts)%nat -> (j < List.length ts)%nat -> c i j = sumn (bm_dim b) (fun k => sumn (bm_dim b) (fun l => D i k * sumn (bm_dim b) (fun q => S k q * S l q) * D j l))).
Proof.
  intros la mu g level K S rows b dt m0 m ts p c La N Mr G Hc. destruct (prepared _ _ _ _ _ _ _ _ _ _ _ N La Mr G) as (De & Re & En & Em & Eg & El & EK & ES & _).
  unfold yield_covariance in Hc. destruct (mapM _ _) as [cols|] eqn:Mc; [|discriminate]. cbn [bind] in Hc. injection Hc as <-. split; [apply gram_covariance, De|].
  assert (Col : forall i t, nth_error ts i = Some t -> exists a, mv_accrual m (Stamp t) p = Ok a /\ nth i cols (fun _ => 0) = (fun i => - coefficient_term m a i / a)).
  { intros i t T. destruct (mapM_cols _ _ _ i (Stamp t) Mc) as (cc & Ec & Ev); [rewrite nth_error_map, T; reflexivity|]. destruct (mv_accrual m (Stamp t) p) as [a|] eqn:Ha.
    - exists a. split; [reflexivity|]. rewrite (yield_coeffs_value m (Stamp t) p a Ha) in Ec. cbn in Ec. congruence.
    - unfold mv_yield_coeffs, mv_price_coeffs in Ec. rewrite Ha in Ec. discriminate. }
  exists (fun i x => match nth_error ts i with Some t => match mv_accrual m (Stamp t) p with Ok a => - intercept_term m a / a + dot (mv_n m) (fun i => - coefficient_term m a i / a) x | Err _ => 0 end | None => 0 end), (fun i => nth i cols (fun _ => 0)).
  rewrite <- En, <- ES. split.
  - intros i t T. rewrite T. destruct (Col i t T) as (a & Ha & Ec). rewrite Ha. split; [|split].
    + intros x Hx Ht. unfold mv_yield, matures_by. rewrite Ht. cbn [bind]. rewrite Hx. cbn [bind]. rewrite (yield_coeffs_value m (Stamp t) p a Ha). reflexivity.
    + intros x k Hk. rewrite Ec. apply (affine_partial (mv_n m) k (- intercept_term m a / a) (fun i => - coefficient_term m a i / a) x Hk).
    + unfold mv_yield_volatility, yield_covariance. cbn [mapM]. rewrite (yield_coeffs_value m (Stamp t) p a Ha). cbn [bind fst snd]. set (cc := fun i => - coefficient_term m a i / a) in *.
      assert (V : gram m [cc] 0%nat 0%nat = gram m cols i i) by (rewrite !gram_entry, Ec; reflexivity). assert (P : 0 <= gram m cols i i) by (rewrite gram_entry; apply quad_C_nonneg, De).
      exists (sqrt (gram m cols i i)). split; [change (msqrt (gram m [cc] 0%nat 0%nat) = Ok (sqrt (gram m cols i i))); rewrite V; unfold msqrt; destruct (Rlt_dec (gram m cols i i) 0) as [X|_]; [lra|reflexivity]|]. split; [apply sqrt_pos|apply sqrt_sqrt, P].
  - intros i j I J. rewrite gram_entry, bil. apply sumn_ext. intros k Hk. apply sumn_ext. intros l Hl. rewrite (de_C m De). reflexivity.
Qed.
Print Assumptions C58_yields.

(** The same for the reported instantaneous forwards. *)
Theorem C58_forwards : forall la mu g level K S rows b dt m0 m ts p, linalg_ok la -> new_multi la mu g level K S rows b dt = Ok m0 -> mean_reverting (bm_dim b) K -> generated m0 m ->
  (ts = [] \/ Exists (fun t => dt_leb t (mv_purchase m p) = true) ts -> forward_covariance m ts p = Err ValueError) /\
  forall c, forward_covariance m ts p = Ok c ->
  covariance_matrix (List.length ts) c /\
  exists Y : nat -> vec -> R, exists D : nat -> vec,
    (forall i t, nth_error ts i = Some t -> (forall x, mv_state m p = Ok x -> mv_forward m (Stamp t) p = Ok (Y i x)) /\
       (forall x k, (k < bm_dim b)%nat -> partial_deriv (Y i) x k (D i k)) /\
       exists v, mv_forward_volatility m t p = Ok v /\ 0 <= v /\ v * v = c i i) /\
    (forall i j, (i < List.length ts)%nat -> (j < List.length ts)%nat -> c i j = sumn (bm_dim b) (fun k => sumn (bm_dim b) (fun l => D i k * sumn (bm_dim b) (fun q => S k q * S l q) * D j l))).
Proof.
  intros la mu g level K S rows b dt m0 m ts p La N Mr G. destruct (prepared _ _ _ _ _ _ _ _ _ _ _ N La Mr G) as (De & Re & En & Em & Eg & El & EK & ES & _).
  split.
  { intros H. unfold forward_covariance. replace (some_matures_by ts (mv_purchase m p)) with true; [reflexivity|]. destruct H as [-> | H]; [reflexivity|]. unfold some_matures_by. destruct ts as [|t0 ts]; [reflexivity|].
    symmetry. apply existsb_exists. apply Exists_exists in H. exact H. }
  intros c Hc. unfold forward_covariance in Hc. destruct (some_matures_by ts (mv_purchase m p)) eqn:Sm; [discriminate|]. destruct (mapM _ _) as [cols|] eqn:Mc; [|discriminate]. cbn [bind] in Hc. injection Hc as <-. split; [apply gram_covariance, De|].
  assert (Col : forall i t, nth_error ts i = Some t -> exists a, mv_accrual m (Stamp t) p = Ok a /\ nth i cols (fun _ => 0) = (fun i => - coefficient_deriv m a i)).
  { intros i t T. destruct (mapM_cols _ _ _ i t Mc T) as (cc & Ec & Ev). destruct (mv_accrual m (Stamp t) p) as [a|] eqn:Ha.
    - exists a. split; [reflexivity|]. rewrite (yield_coeffs_value m (Stamp t) p a Ha) in Ec. cbn [bind] in Ec. unfold mv_coeff_derivs, mv_price_coeffs in Ec. rewrite Ha in Ec. cbn [bind fst snd] in Ec. injection Ec as Ec. exact (eq_trans Ev (eq_sym Ec)).
    - unfold mv_yield_coeffs, mv_price_coeffs in Ec. rewrite Ha in Ec. discriminate. }
  exists (fun i x => match nth_error ts i with Some t => match mv_accrual m (Stamp t) p with Ok a => - intercept_deriv m (coefficient_term m a) + dot (mv_n m) (fun i => - coefficient_deriv m a i) x | Err _ => 0 end | None => 0 end), (fun i => nth i cols (fun _ => 0)).
  rewrite <- En, <- ES. split.
  - intros i t T. rewrite T. destruct (Col i t T) as (a & Ha & Ec). rewrite Ha. split; [|split].
    + intros x Hx. rewrite (forward_value m (Stamp t) p a x Ha Hx). f_equal. unfold Rminus. f_equal. unfold dot. rewrite <- sumn_opp. apply sumn_ext. intros. ring.
    + intros x k Hk. rewrite Ec. apply (affine_partial (mv_n m) k (- intercept_deriv m (coefficient_term m a)) (fun i => - coefficient_deriv m a i) x Hk).
    + unfold mv_forward_volatility, forward_covariance. assert (St : some_matures_by [t] (mv_purchase m p) = false).
      { unfold some_matures_by in *. cbn [existsb]. rewrite orb_false_r. destruct ts as [|t0 ts]; [destruct i; discriminate|]. destruct (dt_leb t (mv_purchase m p)) eqn:Ht; [|reflexivity]. assert (X : existsb (fun t => dt_leb t (mv_purchase m p)) (t0 :: ts) = true) by (apply existsb_exists; exists t; split; [eapply nth_error_In; eauto|exact Ht]). congruence. }
      rewrite St. cbn [mapM]. rewrite (yield_coeffs_value m (Stamp t) p a Ha). cbn [bind]. unfold mv_coeff_derivs, mv_price_coeffs. rewrite Ha. cbn [bind fst snd]. set (cc := fun i => - coefficient_deriv m a i) in *.
      assert (V : gram m [cc] 0%nat 0%nat = gram m cols i i) by (rewrite !gram_entry, Ec; reflexivity). assert (P : 0 <= gram m cols i i) by (rewrite gram_entry; apply quad_C_nonneg, De).
      exists (sqrt (gram m cols i i)). split; [change (msqrt (gram m [cc] 0%nat 0%nat) = Ok (sqrt (gram m cols i i))); rewrite V; unfold msqrt; destruct (Rlt_dec (gram m cols i i) 0) as [X|_]; [lra|reflexivity]|]. split; [apply sqrt_pos|apply sqrt_sqrt, P].
  - intros i j I J. rewrite gram_entry, bil. apply sumn_ext. intros k Hk. apply sumn_ext. intros l Hl. rewrite (de_C m De). reflexivity.
Qed.
Print Assumptions C58_forwards.

(** ---- second derivatives of prices ---- *)
(** H is the matrix of second partial derivatives of F at x *)
Definition hessian (n : nat) (F : vec -> R) (x : vec) (H : mat) : Prop :=
  exists F1 : vec -> vec, (forall y i, (i < n)%nat -> partial_deriv F y i (F1 y i)) /\ forall i j, (i < n)%nat -> (j < n)%nat -> partial_deriv (fun y => F1 y i) x j (H i j).
Lemma Fm_hessian m t x : hessian (mv_n m) (Fm m t) x (fun i j => coefficient_term m t i * (coefficient_term m t j * Fm m t x)).
Proof.
  exists (fun y i => coefficient_term m t i * Fm m t y). split; [intros; apply Fm_partial; assumption|]. intros i j I J. unfold partial_deriv.
  apply (d_fun (fun s => coefficient_term m t i * Fm m t (upd x j s))); [reflexivity|]. apply d_scal. apply Fm_partial, J.
Qed.
Lemma price_value m t p a x : mv_accrual m t p = Ok a -> mv_state m p = Ok x -> mv_price m t p = Ok (Fm m a x).
Proof. intros Ha Hx. unfold mv_price, mv_price_coeffs. rewrite Ha. cbn [bind]. rewrite Hx. reflexivity. Qed.
Lemma price_inv m t p P : mv_price m t p = Ok P -> exists a x, mv_accrual m t p = Ok a /\ mv_state m p = Ok x /\ P = Fm m a x.
Proof.
  unfold mv_price, mv_price_coeffs. destruct (mv_accrual m t p) as [a|]; [|discriminate]. destruct (mv_state m p) as [x|]; [|discriminate]. cbn [bind fst snd]. intros E. injection E as <-. exists a, x. auto.
Qed.
Lemma mapM_get {A} (f : A -> res R) l ys j x : mapM f l = Ok ys -> nth_error l j = Some x -> f x = Ok (nth j ys 0).
Proof.
  revert ys j. induction l as [|y l IH]; intros ys j H X; [destruct j; discriminate|]. cbn [mapM] in H. destruct (f y) as [c|] eqn:E; [|discriminate]. cbn [bind] in H. destruct (mapM f l) as [cs|] eqn:E2; [|discriminate]. cbn [bind] in H. injection H as <-.
  destruct j as [|j]; [injection X as <-; exact E|]. apply (IH cs j eq_refl X).
Qed.

Lemma nth_map_seq (f : nat -> R) n i : (i < n)%nat -> nth i (List.map f (seq 0 n)) 0 = f i.
Proof. intros I. rewrite (nth_indep _ 0 (f 0%nat)) by (rewrite map_length, seq_length; exact I). rewrite map_nth, seq_nth by exact I. reflexivity. Qed.

(** C58.  Each price convexity is -1/2 times the second derivatives of that bond's price contracted with S S^T; matured
    bonds and an empty list are refused. *)
Theorem C58_price_convexities : forall la mu g level K S rows b dt m0 m ts p, linalg_ok la -> new_multi la mu g level K S rows b dt = Ok m0 -> mean_reverting (bm_dim b) K -> generated m0 m ->
  (ts = [] \/ Exists (fun t => dt_leb t (mv_purchase m p) = true) ts -> mv_price_convexities m ts p = Err ValueError) /\
  exists F, solves_term_structure (bm_dim b) mu g level K S F /\
    forall l, mv_price_convexities m ts p = Ok l -> List.length l = List.length ts /\
      exists x, mv_state m p = Ok x /\
      forall i t a, nth_error ts i = Some t -> mv_accrual m (Stamp t) p = Ok a -> a <> 0 -> mv_price m (Stamp t) p = Ok (F a x) /\
        exists H, hessian (bm_dim b) (F a) x H /\
          nth i l 0 = - / 2 * sumn (bm_dim b) (fun q => sumn (bm_dim b) (fun r => sumn (bm_dim b) (fun k => S q k * S r k) * H q r)).
Proof.
  intros la mu g level K S rows b dt m0 m ts p La N Mr G. destruct (prepared _ _ _ _ _ _ _ _ _ _ _ N La Mr G) as (De & Re & En & Em & Eg & El & EK & ES & _).
  split.
  { intros H. unfold mv_price_convexities. replace (some_matures_by ts (mv_purchase m p)) with true; [reflexivity|]. destruct H as [-> | H]; [reflexivity|]. unfold some_matures_by. destruct ts as [|t0 ts]; [reflexivity|].
    symmetry. apply existsb_exists. apply Exists_exists in H. exact H. }
  exists (Fm m). rewrite <- En, <- Em, <- Eg, <- El, <- EK, <- ES. split; [apply Fm_term_structure; assumption|].
  intros l Hl. unfold mv_price_convexities in Hl. destruct (some_matures_by ts (mv_purchase m p)) eqn:Sm; [discriminate|]. destruct (yield_covariance m (List.map Stamp ts) p) as [cov|] eqn:Hc; [|discriminate]. cbn [bind] in Hl.
  destruct (mapM (fun t => mv_accrual m (Stamp t) p) ts) as [accs|] eqn:Ma; [|discriminate]. cbn [bind] in Hl. destruct (mapM (fun t => mv_price m (Stamp t) p) ts) as [prices|] eqn:Mp; [|discriminate]. cbn [bind] in Hl. injection Hl as <-.
  split; [rewrite map_length, seq_length; reflexivity|].
  assert (St : exists x, mv_state m p = Ok x). { destruct ts as [|t0 ts]; [discriminate|]. destruct (price_inv _ _ _ _ (mapM_get _ _ _ 0%nat t0 Mp eq_refl)) as (a & x & _ & Hx & _). eauto. }
  destruct St as [x Hx]. exists x. split; [exact Hx|]. intros i t a T Ha Na. pose proof (price_value m (Stamp t) p a x Ha Hx) as HP. split; [exact HP|].
  exists (fun i j => coefficient_term m a i * (coefficient_term m a j * Fm m a x)). split; [apply Fm_hessian|].
  assert (I : (i < List.length ts)%nat) by (apply nth_error_Some; congruence).
  rewrite nth_map_seq by exact I. pose proof (mapM_get _ _ _ i t Mp T) as E1. pose proof (mapM_get _ _ _ i t Ma T) as E2. cbv beta in E1, E2. rewrite HP in E1. rewrite Ha in E2. injection E1 as E1. injection E2 as E2. rewrite <- E1, <- E2.
  assert (Cv : cov i i = dot (mv_n m) (coefficient_term m a) (mvec (mv_n m) (mv_C m) (coefficient_term m a)) / (a * a)).
  { unfold yield_covariance in Hc. destruct (mapM _ (List.map Stamp ts)) as [cols|] eqn:Mc; [|discriminate]. cbn [bind] in Hc. injection Hc as <-. destruct (mapM_cols _ _ _ i (Stamp t) Mc) as (cc & Ec & Ev); [rewrite nth_error_map, T; reflexivity|].
    rewrite (yield_coeffs_value m (Stamp t) p a Ha) in Ec. cbn [bind snd] in Ec. injection Ec as Ec. rewrite gram_entry, Ev, <- Ec. rewrite !bil. unfold Rdiv. rewrite <- sumn_scal_r. apply sumn_ext. intros q Hq. rewrite <- sumn_scal_r. apply sumn_ext. intros r Hr. field. exact Na. }
  rewrite Cv. set (P := Fm m a x). set (n := mv_n m). set (B := coefficient_term m a).
  assert (E3 : sumn n (fun q => sumn n (fun r => sumn n (fun k => mv_S m q k * mv_S m r k) * (B q * (B r * P)))) = dot n B (mvec n (mv_C m) B) * P).
  { rewrite bil, <- sumn_scal_r. apply sumn_ext. intros q Hq. rewrite <- sumn_scal_r. apply sumn_ext. intros r Hr. rewrite (de_C m De). unfold mmul, tr. fold n. ring. }
  rewrite E3. set (d := dot n B (mvec n (mv_C m) B)). clearbody d P. field. exact Na.
Qed.
Print Assumptions C58_price_convexities.

(** ---- C57: riskless portfolios ---- *)
Lemma gradient_value m t p a x : mv_accrual m t p = Ok a -> mv_state m p = Ok x -> price_gradient m t p = Ok (vscal (Fm m a x) (coefficient_term m a)).
Proof. intros Ha Hx. unfold price_gradient. rewrite (price_value m t p a x Ha Hx). cbn [bind]. unfold mv_price_coeffs. rewrite Ha. reflexivity. Qed.
Lemma gradient_inv m t p d : price_gradient m t p = Ok d -> exists a x, mv_accrual m t p = Ok a /\ mv_state m p = Ok x /\ d = vscal (Fm m a x) (coefficient_term m a).
Proof.
  unfold price_gradient. destruct (mv_price m t p) as [P|] eqn:HP; [|discriminate]. destruct (price_inv _ _ _ _ HP) as (a & x & Ha & Hx & ->). cbn [bind]. unfold mv_price_coeffs. rewrite Ha. cbn [bind snd]. intros E. injection E as <-. exists a, x. auto.
Qed.
Lemma fold_sumn (w : nat -> R) n : fold_left Rplus (List.map w (seq 0 n)) 0 = sumn n w.
Proof. induction n as [|n IH]; [reflexivity|]. rewrite seq_S, map_app, fold_left_app, IH. reflexivity. Qed.
Lemma sumn_first n f : sumn (Datatypes.S n) f = f 0%nat + sumn n (fun i => f (Datatypes.S i)).
Proof. induction n as [|n IH]; [cbn; ring|]. change (sumn (Datatypes.S (Datatypes.S n)) f) with (sumn (Datatypes.S n) f + f (Datatypes.S n)). rewrite IH. cbn [sumn]. ring. Qed.
Lemma weights_inv la m ts p ws : linalg_ok la -> riskless_weights la m ts p = Ok ws ->
  List.length ts = (mv_n m + 1)%nat /\ exists x (D : nat -> vec) w, mv_state m p = Ok x /\
    (forall k t, nth_error ts k = Some t -> exists a, mv_accrual m t p = Ok a /\ D k = vscal (Fm m a x) (coefficient_term m a)) /\
    (forall i, (i < mv_n m)%nat -> sumn (mv_n m) (fun k => (D k i - D (mv_n m) i) * w k) = - D (mv_n m) i) /\ ws = List.map w (seq 0 (mv_n m)) ++ [1 - sumn (mv_n m) w].
Proof.
  intros La. unfold riskless_weights. destruct (Nat.eqb_spec (List.length ts) (mv_n m + 1)) as [Ln|]; [|discriminate]. cbn [negb]. intros H. split; [exact Ln|].
  destruct (nth_error ts (mv_n m)) as [last|] eqn:El; [|discriminate]. destruct (price_gradient m last p) as [dl|] eqn:Gl; [|discriminate]. cbn [bind] in H.
  destruct (mapM _ (firstn (mv_n m) ts)) as [cols|] eqn:Mc; [|discriminate]. cbn [bind] in H. destruct (la_solve la _ _ _) as [w|] eqn:So; [|discriminate]. cbn [or_lin bind] in H. injection H as <-.
  destruct (gradient_inv _ _ _ _ Gl) as (al & x & Hal & Hx & Edl). set (n := mv_n m) in *.
  assert (Fi : forall k, (k < n)%nat -> nth_error (firstn n ts) k = nth_error ts k).
  { intros k Hk. rewrite <- (firstn_skipn n ts) at 2. symmetry. apply nth_error_app1. rewrite firstn_length. lia. }
  exists x, (fun k => if Nat.eqb k n then dl else vadd (nth k cols (fun _ => 0)) dl), w. split; [exact Hx|]. split; [|split].
  - intros k t T. destruct (Nat.eqb_spec k n) as [->|Nk]; [rewrite El in T; injection T as <-; exists al; auto|].
    assert (Hk : (k < n)%nat) by (assert (k < List.length ts)%nat by (apply nth_error_Some; congruence); lia).
    destruct (mapM_cols _ _ _ k t Mc) as (cc & Ec & Ev); [rewrite Fi by exact Hk; exact T|]. destruct (price_gradient m t p) as [d|] eqn:Gd; [|discriminate]. cbn [bind] in Ec. injection Ec as <-.
    destruct (gradient_inv _ _ _ _ Gd) as (a & x' & Ha & Hx' & Ed). rewrite Hx in Hx'. injection Hx' as <-. exists a. split; [exact Ha|]. rewrite Ev, <- Ed. apply FunctionalExtensionality.functional_extensionality. intros i. unfold vadd, vsub. ring.
  - intros i I. rewrite Nat.eqb_refl. pose proof (solve_ok la La _ _ _ _ So i I) as E. rewrite <- E. apply sumn_ext. intros k Hk. destruct (Nat.eqb_spec k n) as [->|_]; [lia|]. unfold vadd. ring.
  - rewrite fold_sumn. reflexivity.
Qed.
Lemma weights_nth (w : nat -> R) n c k : (k <= n)%nat -> nth k (List.map w (seq 0 n) ++ [c]) 0 = if Nat.eqb k n then c else w k.
Proof.
  intros Hk. assert (L : List.length (List.map w (seq 0 n)) = n) by (rewrite map_length, seq_length; reflexivity). destruct (Nat.eqb_spec k n) as [->|Nk].
  - rewrite app_nth2 by lia. rewrite L, Nat.sub_diag. reflexivity.
  - rewrite app_nth1 by lia. apply nth_map_seq. lia.
Qed.
Lemma weighted_total (w : nat -> R) n c (f : nat -> R) : sumn (n + 1) (fun k => nth k (List.map w (seq 0 n) ++ [c]) 0 * f k) = sumn n (fun k => w k * f k) + c * f n.
Proof.
  rewrite Nat.add_1_r. cbn [sumn]. rewrite weights_nth, Nat.eqb_refl by lia. f_equal. apply sumn_ext. intros k Hk. rewrite weights_nth by lia. destruct (Nat.eqb_spec k n); [lia|reflexivity].
Qed.

Lemma riskless_fm la m ts p ws : linalg_ok la -> decomposed m -> riskless_weights la m ts p = Ok ws ->
  List.length ws = (mv_n m + 1)%nat /\ List.length ts = (mv_n m + 1)%nat /\ sumn (mv_n m + 1) (fun k => nth k ws 0) = 1 /\
  exists (x : vec) (a : nat -> R), mv_state m p = Ok x /\
    (forall k t, nth_error ts k = Some t -> mv_accrual m t p = Ok (a k) /\ mv_price m t p = Ok (Fm m (a k) x)) /\
    (forall i, (i < mv_n m)%nat -> sumn (mv_n m + 1) (fun k => nth k ws 0 * (coefficient_term m (a k) i * Fm m (a k) x)) = 0) /\
    (forall i, (i < mv_n m)%nat -> partial_deriv (fun y => sumn (mv_n m + 1) (fun k => nth k ws 0 * Fm m (a k) y)) x i 0) /\
    exists c, riskless_convexity la m ts p = Ok c /\
      c = / 2 * sumn (mv_n m + 1) (fun k => nth k ws 0 * sumn (mv_n m) (fun q => sumn (mv_n m) (fun r => sumn (mv_n m) (fun l => mv_S m q l * mv_S m r l) * (coefficient_term m (a k) q * (coefficient_term m (a k) r * Fm m (a k) x))))).
Proof.
  intros La De Hw. destruct (weights_inv _ _ _ _ _ La Hw) as (Ln & x & D & w & Hx & HD & So & Ew). set (n := mv_n m) in *.
  assert (Lw : List.length ws = (n + 1)%nat) by (rewrite Ew, app_length, map_length, seq_length; reflexivity).
  split; [exact Lw|]. split; [exact Ln|].
  assert (To : forall f, sumn (n + 1) (fun k => nth k ws 0 * f k) = sumn n (fun k => w k * f k) + (1 - sumn n w) * f n) by (intros f; rewrite Ew; apply weighted_total).
  split; [rewrite (sumn_ext _ _ (fun k => nth k ws 0 * 1)) by (intros; ring); rewrite To; rewrite (sumn_ext n _ w) by (intros; ring); ring|].
  exists x, (fun k => match nth_error ts k with Some t => match mv_accrual m t p with Ok a => a | Err _ => 0 end | None => 0 end).
  set (a := fun k => match nth_error ts k with Some t => match mv_accrual m t p with Ok a => a | Err _ => 0 end | None => 0 end).
  assert (Ac : forall k t, nth_error ts k = Some t -> mv_accrual m t p = Ok (a k) /\ D k = vscal (Fm m (a k) x) (coefficient_term m (a k))).
  { intros k t T. destruct (HD k t T) as (ak & Ha & Ed). unfold a. rewrite T, Ha. auto. }
  assert (Dk : forall k, (k <= n)%nat -> D k = vscal (Fm m (a k) x) (coefficient_term m (a k))).
  { intros k Hk. destruct (nth_error ts k) as [t|] eqn:T; [apply (Ac k t T)|]. apply nth_error_None in T. lia. }
  split; [exact Hx|]. split; [intros k t T; destruct (Ac k t T) as [Ha _]; split; [exact Ha|apply price_value; assumption]|].
  assert (Ze : forall i, (i < n)%nat -> sumn (n + 1) (fun k => nth k ws 0 * D k i) = 0).
  { intros i I. rewrite To. pose proof (So i I) as E. rewrite (sumn_ext n (fun k => w k * D k i) (fun k => (D k i - D n i) * w k + D n i * w k)) by (intros; ring). rewrite sumn_plus, sumn_scal. fold n in E. rewrite E. ring. }
  split; [intros i I; eapply eq_trans; [|exact (Ze i I)]; apply sumn_ext; intros k Hk; change (nth k ws 0 * (coefficient_term m (a k) i * Fm m (a k) x) = nth k ws 0 * D k i); rewrite Dk by lia; unfold vscal; ring|]. split.
  - intros i I. unfold partial_deriv. apply (d_eq _ _ (sumn (n + 1) (fun k => nth k ws 0 * D k i))).
    + rewrite To. pose proof (So i I) as E. rewrite (sumn_ext n (fun k => w k * D k i) (fun k => (D k i - D n i) * w k + D n i * w k)) by (intros; ring). rewrite sumn_plus, sumn_scal. fold n in E. rewrite E. ring.
    + apply (sumn_deriv (n + 1) (fun k t => nth k ws 0 * Fm m (a k) (upd x i t)) (fun k _ => nth k ws 0 * D k i)). intros k Hk. apply d_scal. eapply d_eq; [|apply (Fm_partial m (a k) x i I)]. rewrite Dk by lia. unfold vscal. ring.
  - set (H := fun k i j => coefficient_term m (a k) i * (coefficient_term m (a k) j * Fm m (a k) x)).
    unfold riskless_convexity. replace (Nat.eqb (List.length ts) (mv_n m + 1)) with true by (symmetry; apply Nat.eqb_eq; exact Ln). cbn [negb]. rewrite Hw. cbn [bind].
    set (loop := fix loop (l : list (R * moment)) (D : mat) : res mat := match l with [] => Ok D | (w, t) :: l => do P <- mv_price m t p; do ab <- mv_price_coeffs m t p; loop l (fun i j => D i j + P * w * (snd ab i * snd ab j)) end).
    assert (Lo : forall ws' ts' k0 D0, List.length ws' = List.length ts' -> (forall k t, nth_error ts' k = Some t -> mv_accrual m t p = Ok (a (k0 + k)%nat)) ->
      exists D1, loop (combine ws' ts') D0 = Ok D1 /\ forall i j, D1 i j = D0 i j + sumn (List.length ts') (fun k => nth k ws' 0 * H (k0 + k)%nat i j)).
    { induction ws' as [|w0 ws' IH]; intros ts' k0 D0 L A; destruct ts' as [|t0 ts']; try discriminate; [exists D0; split; [reflexivity|intros; cbn; ring]|].
      pose proof (A 0%nat t0 eq_refl) as A0. rewrite Nat.add_0_r in A0. cbn [combine loop]. fold loop. rewrite (price_value m t0 p _ x A0 Hx). cbn [bind]. unfold mv_price_coeffs. rewrite A0. cbn [bind snd].
      destruct (IH ts' (Datatypes.S k0) (fun i j => D0 i j + Fm m (a k0) x * w0 * (coefficient_term m (a k0) i * coefficient_term m (a k0) j))) as (D1 & L1 & V1); [injection L as L; exact L|intros k t T; rewrite (A (Datatypes.S k) t T); do 2 f_equal; lia|].
      exists D1. split; [exact L1|]. intros i j. rewrite V1. cbn [List.length]. rewrite sumn_first. cbn [nth]. rewrite Nat.add_0_r. unfold H at 2. rewrite (sumn_ext _ (fun i0 => nth i0 ws' 0 * H (k0 + Datatypes.S i0)%nat i j) (fun k => nth k ws' 0 * H (Datatypes.S k0 + k)%nat i j)) by (intros; do 2 f_equal; lia). ring. }
    destruct (Lo ws ts 0%nat (fun _ _ => 0) ltac:(lia)) as (D1 & L1 & V1); [intros k t T; apply (Ac k t T)|]. rewrite L1. cbn [bind]. eexists. split; [reflexivity|].
    replace (1 / 2) with (/ 2) by field. f_equal. change (fun k => nth k ws 0 * sumn n (fun q => sumn n (fun r => sumn n (fun l => mv_S m q l * mv_S m r l) * (coefficient_term m (a k) q * (coefficient_term m (a k) r * Fm m (a k) x))))) with (fun k => nth k ws 0 * sumn n (fun q => sumn n (fun r => sumn n (fun l => mv_S m q l * mv_S m r l) * H k q r))).
    assert (Tr : forall Dm : mat, sumn n (fun i => mmul n (mmul n (tr (mv_S m)) Dm) (mv_S m) i i) = sumn n (fun q => sumn n (fun r => sumn n (fun l => mv_S m q l * mv_S m r l) * Dm q r))).
    { intros Dm. unfold mmul, tr. rewrite (sumn_ext n _ (fun l => sumn n (fun r => sumn n (fun q => mv_S m q l * Dm q r * mv_S m r l)))) by (intros; apply sumn_ext; intros; rewrite <- sumn_scal_r; reflexivity).
      rewrite (sumn_ext n (fun q => sumn n (fun r => sumn n (fun l => mv_S m q l * mv_S m r l) * Dm q r)) (fun q => sumn n (fun r => sumn n (fun l => mv_S m q l * Dm q r * mv_S m r l)))).
      - rewrite (sumn_ext n _ (fun l => sumn n (fun q => sumn n (fun r => mv_S m q l * Dm q r * mv_S m r l)))) by (intros; apply sumn_swap). rewrite sumn_swap. apply sumn_ext. intros q Hq. apply sumn_swap.
      - intros q Hq. apply sumn_ext. intros r Hr. rewrite <- sumn_scal_r. apply sumn_ext. intros. ring. }
    fold n. rewrite Tr. rewrite Ln in V1.
    rewrite (sumn_ext n _ (fun q => sumn (n + 1) (fun k => sumn n (fun r => nth k ws 0 * (sumn n (fun l => mv_S m q l * mv_S m r l) * H k q r))))).
    + rewrite sumn_swap. apply sumn_ext. intros k Hk. rewrite <- sumn_scal. apply sumn_ext. intros q Hq. rewrite <- sumn_scal. reflexivity.
    + intros q Hq. rewrite sumn_swap. apply sumn_ext. intros r Hr. rewrite V1, Rplus_0_l, <- sumn_scal. apply sumn_ext. intros k Hk. cbn [Nat.add]. ring.
Qed.

(** C57.  The weights add up to one, and the gradient in the state variables of the weighted bond prices vanishes.
    The convexity is half the weighted second derivatives contracted with S S^T.  A list of bonds of the wrong length is
    refused. *)
Theorem C57_riskless : forall la mu g level K S rows b dt m0 m ts p, linalg_ok la -> new_multi la mu g level K S rows b dt = Ok m0 -> mean_reverting (bm_dim b) K -> generated m0 m ->
  (List.length ts <> (bm_dim b + 1)%nat -> riskless_weights la m ts p = Err AssertionError /\ riskless_convexity la m ts p = Err AssertionError) /\
  exists F, solves_term_structure (bm_dim b) mu g level K S F /\
    forall ws, riskless_weights la m ts p = Ok ws ->
      List.length ws = (bm_dim b + 1)%nat /\ List.length ts = (bm_dim b + 1)%nat /\ sumn (bm_dim b + 1) (fun k => nth k ws 0) = 1 /\
      exists (x : vec) (a : nat -> R), mv_state m p = Ok x /\
        (forall k t, nth_error ts k = Some t -> mv_accrual m t p = Ok (a k) /\ mv_price m t p = Ok (F (a k) x)) /\
        (forall i, (i < bm_dim b)%nat -> partial_deriv (fun y => sumn (bm_dim b + 1) (fun k => nth k ws 0 * F (a k) y)) x i 0) /\
        exists (c : R) (H : nat -> mat), riskless_convexity la m ts p = Ok c /\ (forall k, (k < bm_dim b + 1)%nat -> hessian (bm_dim b) (F (a k)) x (H k)) /\
          c = / 2 * sumn (bm_dim b + 1) (fun k => nth k ws 0 * sumn (bm_dim b) (fun q => sumn (bm_dim b) (fun r => sumn (bm_dim b) (fun l => S q l * S r l) * H k q r))).
Proof.
  intros la mu g level K S rows b dt m0 m ts p La N Mr G. destruct (prepared _ _ _ _ _ _ _ _ _ _ _ N La Mr G) as (De & Re & En & Em & Eg & El & EK & ES & _).
  rewrite <- En. split.
  { intros H. apply Nat.eqb_neq in H. unfold riskless_weights, riskless_convexity. rewrite H. split; reflexivity. }
  exists (Fm m). rewrite <- Em, <- Eg, <- El, <- EK, <- ES. split; [apply Fm_term_structure; assumption|].
  intros ws Hw. destruct (riskless_fm la m ts p ws La De Hw) as (Lw & Lt & On & x & a & Hx & Ha & _ & Pd & c & Hc & Ec). split; [exact Lw|]. split; [exact Lt|]. split; [exact On|].
  exists x, a. split; [exact Hx|]. split; [exact Ha|]. split; [exact Pd|]. exists c, (fun k i j => coefficient_term m (a k) i * (coefficient_term m (a k) j * Fm m (a k) x)). split; [exact Hc|]. split; [intros k Hk; apply Fm_hessian|exact Ec].
Qed.
Print Assumptions C57_riskless.
