(** Multivariate Vasicek models, continued: covariance of the state (C68), the named models (C59, C67, C69). *)
From Verif Require Import Base PyClass PyDate PyDateFacts DayCount DayCountFacts PyList KeyRate Curve CurveFacts Loan P_DayCount RVec Deriv Stochastic StochasticFacts P_Stochastic ShortRate P_ShortRate Vasicek Multi MultiFacts P_Multi P_Multi2.
From Coq Require Import Reals Lra.
Open Scope R_scope.

(** ---- C68: covariance of the future state ---- *)
(** Sg t is the covariance matrix at time t of dX = K (theta - X) dt + S dW started at a fixed point, C = S S^T *)
Definition covariance_equation (n : nat) (K C : mat) (Sg : R -> mat) : Prop :=
  forall i j, (i < n)%nat -> (j < n)%nat -> Sg 0 i j = 0 /\
    forall t, derivable_pt_lim (fun t => Sg t i j) t (C i j - sumn n (fun k => K i k * Sg t k j) - sumn n (fun k => Sg t i k * K j k)).
Definition SSt (n : nat) (S : mat) : mat := fun i j => sumn n (fun k => S i k * S j k).

Lemma new_multi_eig la mu g level K S rows b dt m : new_multi la mu g level K S rows b dt = Ok m -> la_eig la (bm_dim b) K = Some (mv_lam m, mv_V m).
Proof.
  unfold new_multi. destruct rows as [[nS nl] nK]. destruct (negb _); [discriminate|]. destruct (la_eig la (bm_dim b) K) as [[lam V]|] eqn:Ee; [|discriminate]. destruct (or_lin _); [|discriminate]. cbn [bind]. intros E. injection E as <-. reflexivity.
Qed.
Lemma mmul_left_id n (A B : mat) i j : (forall k, (k < n)%nat -> A i k = delta i k) -> (i < n)%nat -> mmul n A B i j = B i j.
Proof. intros H I. unfold mmul. rewrite (sumn_ext n _ (fun k => delta i k * B k j)) by (intros k Hk; rewrite H by exact Hk; ring). apply (sumn_delta n i (fun k => B k j) I). Qed.
Lemma mmul_right_id n (A B : mat) i j : (forall k, (k < n)%nat -> B k j = delta k j) -> (j < n)%nat -> mmul n A B i j = A i j.
Proof. intros H J. unfold mmul. rewrite (sumn_ext n _ (fun k => delta j k * A i k)) by (intros k Hk; rewrite H, delta_sym by exact Hk; ring). apply (sumn_delta n j (fun k => A i k) J). Qed.
Definition reported_covariance (m : multi) (a : R) : mat :=
  fun i j => (1 - exp (- (mv_lam m j + mv_lam m i) * a)) * mmul (mv_n m) (mmul (mv_n m) (mv_Vi m) (mv_C m)) (mv_V m) i j / (mv_lam m j + mv_lam m i).
(** the reported matrix as a function of time *)
Lemma reported_deriv m t i j : regular m -> (i < mv_n m)%nat -> (j < mv_n m)%nat ->
  derivable_pt_lim (fun t => reported_covariance m t i j) t (mmul (mv_n m) (mmul (mv_n m) (mv_Vi m) (mv_C m)) (mv_V m) i j - mv_lam m i * reported_covariance m t i j - mv_lam m j * reported_covariance m t i j).
Proof.
  intros Re I J. set (H := mmul (mv_n m) (mmul (mv_n m) (mv_Vi m) (mv_C m)) (mv_V m) i j). pose proof (proj2 Re i j I J) as N. set (s := mv_lam m j + mv_lam m i) in *.
  apply (d_fun (fun t => H / s * (1 - exp (- s * t)))); [intros u; unfold reported_covariance; fold s H; field; exact N|].
  eapply d_eq; [|apply d_scal, d_minus; [apply d_const|apply d_exp]]. unfold reported_covariance. fold s H. assert (L : mv_lam m j = s - mv_lam m i) by (unfold s; ring). rewrite L. field. exact N.
Qed.
Lemma diag_row n d i (f : nat -> R) : (i < n)%nat -> sumn n (fun k => diag d i k * f k) = d i * f i.
Proof. intros I. rewrite (sumn_ext n _ (fun k => delta i k * (d i * f k))) by (intros; unfold diag; ring). apply (sumn_delta n i (fun k => d i * f k) I). Qed.

(** C68.  When numpy's eigenvectors are the coordinate axes (a diagonal reversion matrix) the reported covariance and
    the reported variance of the short rate are right; when they are orthonormal (a symmetric reversion matrix) the
    reported matrix is the covariance in the eigenvector coordinates V^T X, not of the state. *)
Theorem C68_diagonal : forall la mu g level K S rows b dt m0 m lam V, linalg_ok la -> new_multi la mu g level K S rows b dt = Ok m0 -> mean_reverting (bm_dim b) K -> generated m0 m ->
  la_eig la (bm_dim b) K = Some (lam, V) -> (forall i j, (i < bm_dim b)%nat -> (j < bm_dim b)%nat -> V i j = delta i j) ->
  exists Sg, covariance_equation (bm_dim b) K (SSt (bm_dim b) S) Sg /\
    forall t p a, mv_accrual m t p = Ok a ->
      (exists c, state_covariance m t p = Ok c /\ forall i j, (i < bm_dim b)%nat -> (j < bm_dim b)%nat -> c i j = Sg a i j) /\
      mv_rate_variance m t p = Ok (sumn (bm_dim b) (fun i => sumn (bm_dim b) (fun j => g i * Sg a i j * g j))).
Proof.
  intros la mu g level K S rows b dt m0 m lam V La N Mr G Ee HV. destruct (prepared _ _ _ _ _ _ _ _ _ _ _ N La Mr G) as (De & Re & En & Em & Eg & El & EK & ES & _).
  pose proof (new_multi_eig _ _ _ _ _ _ _ _ _ _ N) as Eg0. rewrite Ee in Eg0. injection Eg0 as EL EV. pose proof (generated_same _ _ G) as Sm. rewrite EL, <- (sm_lam _ _ Sm) in *. rewrite EV, <- (sm_V _ _ Sm) in HV. clear EL EV Ee.
  rewrite <- En, <- Eg, <- EK, <- ES in *. set (n := mv_n m) in *.
  assert (HW : forall i j, (i < n)%nat -> (j < n)%nat -> mv_Vi m i j = delta i j).
  { intros i j I J. pose proof (de_l m De i j I J) as E. fold n in E. rewrite <- E. symmetry. apply mmul_right_id; [|exact J]. intros k Hk. apply HV; assumption. }
  assert (HK : forall i j, (i < n)%nat -> (j < n)%nat -> mv_K m i j = diag (mv_lam m) i j).
  { intros i j I J. pose proof (de_eig m De i j I J) as E. fold n in E. rewrite mmul_right_id in E; [|intros k Hk; apply HV; assumption|exact J]. rewrite E, HV by assumption. unfold diag, delta. destruct (Nat.eqb_spec i j) as [->|]; ring. }
  assert (HH : forall i j, (i < n)%nat -> (j < n)%nat -> mmul n (mmul n (mv_Vi m) (mv_C m)) (mv_V m) i j = SSt n (mv_S m) i j).
  { intros i j I J. rewrite mmul_right_id; [|intros k Hk; apply HV; assumption|exact J]. rewrite mmul_left_id; [|intros k Hk; apply HW; assumption|exact I]. rewrite (de_C m De). reflexivity. }
  exists (reported_covariance m). split.
  - intros i j I J. split; [unfold reported_covariance; rewrite Rmult_0_r, exp_0; unfold Rdiv; ring|]. intros t. eapply d_eq; [|apply (reported_deriv m t i j Re I J)]. fold n. rewrite HH by assumption.
    rewrite (sumn_ext n (fun k => mv_K m i k * _) (fun k => diag (mv_lam m) i k * reported_covariance m t k j)) by (intros k Hk; rewrite HK by assumption; reflexivity).
    rewrite (sumn_ext n (fun k => reported_covariance m t i k * mv_K m j k) (fun k => diag (mv_lam m) j k * reported_covariance m t i k)) by (intros k Hk; rewrite HK by assumption; ring).
    rewrite (diag_row n (mv_lam m) i (fun k => reported_covariance m t k j) I), (diag_row n (mv_lam m) j (fun k => reported_covariance m t i k) J). reflexivity.
  - intros t p a Ha. assert (Hc : state_covariance m t p = Ok (reported_covariance m a)) by (unfold state_covariance; rewrite Ha; reflexivity). split; [exists (reported_covariance m a); split; [exact Hc|reflexivity]|].
    unfold mv_rate_variance. rewrite Hc. cbn [bind]. rewrite vmat_dot, bil. reflexivity.
Qed.
Print Assumptions C68_diagonal.
Theorem C68_orthonormal : forall la mu g level K S rows b dt m0 m lam V, linalg_ok la -> new_multi la mu g level K S rows b dt = Ok m0 -> mean_reverting (bm_dim b) K -> generated m0 m ->
  la_eig la (bm_dim b) K = Some (lam, V) -> (forall i j, (i < bm_dim b)%nat -> (j < bm_dim b)%nat -> sumn (bm_dim b) (fun k => V k i * V k j) = delta i j) ->
  exists Sg, covariance_equation (bm_dim b) (diag lam) (SSt (bm_dim b) (mmul (bm_dim b) (tr V) S)) Sg /\
    forall t p a, mv_accrual m t p = Ok a -> exists c, state_covariance m t p = Ok c /\ forall i j, (i < bm_dim b)%nat -> (j < bm_dim b)%nat -> c i j = Sg a i j.
Proof.
  intros la mu g level K S rows b dt m0 m lam V La N Mr G Ee HV. destruct (prepared _ _ _ _ _ _ _ _ _ _ _ N La Mr G) as (De & Re & En & Em & Eg & El & EK & ES & _).
  pose proof (new_multi_eig _ _ _ _ _ _ _ _ _ _ N) as Eg0. rewrite Ee in Eg0. injection Eg0 as EL EV. pose proof (generated_same _ _ G) as Sm. rewrite EL, <- (sm_lam _ _ Sm) in *. rewrite EV, <- (sm_V _ _ Sm) in *. clear EL EV Ee.
  rewrite <- En, <- EK, <- ES in *. set (n := mv_n m) in *.
  (* the inverse is the transpose *)
  assert (HW : forall i j, (i < n)%nat -> (j < n)%nat -> mv_Vi m i j = mv_V m j i).
  { intros i j I J. transitivity (mmul n (mmul n (tr (mv_V m)) (mv_V m)) (mv_Vi m) i j).
    - symmetry. apply mmul_left_id; [|exact I]. intros k Hk. apply HV; assumption.
    - transitivity (mmul n (tr (mv_V m)) (mmul n (mv_V m) (mv_Vi m)) i j).
      + unfold mmul. rewrite (sumn_ext n _ (fun k => sumn n (fun l => tr (mv_V m) i l * mv_V m l k * mv_Vi m k j))) by (intros; rewrite <- sumn_scal_r; reflexivity). rewrite sumn_swap. apply sumn_ext. intros l Hl. rewrite <- sumn_scal. apply sumn_ext. intros. ring.
      + rewrite mmul_right_id; [reflexivity| |exact J]. intros k Hk. apply (de_r m De); assumption. }
  assert (HH : forall i j, (i < n)%nat -> (j < n)%nat -> mmul n (mmul n (mv_Vi m) (mv_C m)) (mv_V m) i j = SSt n (mmul n (tr (mv_V m)) (mv_S m)) i j).
  { intros i j I J. rewrite (de_C m De). fold n. unfold SSt, mmul, tr.
    transitivity (sumn n (fun l => sumn n (fun k => sumn n (fun q => mv_V m k i * (mv_S m k q * mv_S m l q) * mv_V m l j)))).
    - apply sumn_ext. intros l Hl. rewrite <- sumn_scal_r. apply sumn_ext. intros k Hk. rewrite HW by assumption. rewrite <- sumn_scal, <- sumn_scal_r. reflexivity.
    - rewrite (sumn_ext n _ (fun l => sumn n (fun q => sumn n (fun k => mv_V m k i * (mv_S m k q * mv_S m l q) * mv_V m l j)))) by (intros; apply sumn_swap). rewrite sumn_swap. apply sumn_ext. intros q Hq.
      rewrite <- sumn_scal. apply sumn_ext. intros l Hl. rewrite <- sumn_scal_r. apply sumn_ext. intros. ring. }
  exists (reported_covariance m). split.
  - intros i j I J. split; [unfold reported_covariance; rewrite Rmult_0_r, exp_0; unfold Rdiv; ring|]. intros t. eapply d_eq; [|apply (reported_deriv m t i j Re I J)]. fold n. rewrite HH by assumption.
    rewrite (sumn_ext n (fun k => reported_covariance m t i k * diag (mv_lam m) j k) (fun k => diag (mv_lam m) j k * reported_covariance m t i k)) by (intros; ring).
    rewrite (diag_row n (mv_lam m) i (fun k => reported_covariance m t k j) I), (diag_row n (mv_lam m) j (fun k => reported_covariance m t i k) J). reflexivity.
  - intros t p a Ha. exists (reported_covariance m a). split; [unfold state_covariance; rewrite Ha; reflexivity|reflexivity].
Qed.
Print Assumptions C68_orthonormal.

Lemma cholesky_sym la n M L : linalg_ok la -> la_cholesky la n M = Some L -> (forall i j, (i < n)%nat -> (j < n)%nat -> M i j = M j i) ->
  forall i j, (i < n)%nat -> (j < n)%nat -> mmul n L (tr L) i j = M i j.
Proof.
  intros La C Sy i j I J. destruct (Nat.le_gt_cases j i) as [Le|Gt]; [apply (cholesky_ok la La n M L C i j I Le)|]. rewrite (Sy i j I J), <- (cholesky_ok la La n M L C j i J ltac:(lia)).
  unfold mmul, tr. apply sumn_ext. intros k _. ring.
Qed.

(** ---- the doubly mean reverting model ---- *)
Definition doubly_K (speed long_speed : R) : mat := mat_of [[long_speed; 0]; [- speed; speed]].
Definition pair_covariance (v0 v1 rho : R) : mat := mat_of [[v0 * v0; v1 * v0 * rho]; [v1 * v0 * rho; v1 * v1]].
Lemma new_doubly_inv la garbage speed vol mean long_speed long_vol corr s e dt d : linalg_ok la -> new_doubly la garbage speed vol mean long_speed long_vol corr s e dt = Ok d ->
  exists S L, (forall i j, (i < 2)%nat -> (j < 2)%nat -> SSt 2 S i j = pair_covariance long_vol vol corr i j) /\ (forall i j, (i < 2)%nat -> (j < 2)%nat -> SSt 2 L i j = delta i j) /\
    new_multi la 0 (vec_of [0; 1]) (vec_of [mean; mean]) (doubly_K speed long_speed) S (2, 2, 2)%nat (new_brownian s e 2 L ACTACT) dt = Ok (do_multi d) /\
    do_speed d = speed /\ do_vol d = vol /\ do_mean d = mean /\ do_long_speed d = long_speed /\ do_long_vol d = long_vol /\ do_corr d = corr /\
    do_vol_params d = [long_speed; long_vol; speed; vol; corr] /\ do_shape_params d = [mean] /\ do_initial d = garbage.
Proof.
  intros La N. unfold new_doubly in N. change (instantiate doubly_class ?x) with x in N. destruct (la_cholesky la 2 (mat_of [[long_vol * long_vol; vol * long_vol * corr]; [vol * long_vol * corr; vol * vol]])) as [S|] eqn:CS; [|discriminate]. cbn [or_lin bind] in N.
  destruct (la_cholesky la 2 delta) as [L|] eqn:CL; [|discriminate]. cbn [or_lin bind] in N. destruct (new_multi _ _ _ _ _ _ _ _ _) as [m|] eqn:Nm; [|discriminate]. cbn [bind] in N. injection N as <-. exists S, L.
  split; [intros i j I J; apply (cholesky_sym la 2 _ _ La CS); [intros [|[|]] [|[|]] ? ?; try lia; reflexivity|exact I|exact J]|]. split; [intros i j I J; apply (cholesky_sym la 2 _ _ La CL); [intros; apply delta_sym|exact I|exact J]|]. split; [exact Nm|]. cbn. auto 12.
Qed.
Lemma doubly_eigenvalue speed long_speed l : eigenvalue 2 (doubly_K speed long_speed) l -> l = long_speed \/ l = speed.
Proof.
  intros (x & (i & I & Xi) & E). pose proof (E 0%nat ltac:(lia)) as E0. pose proof (E 1%nat ltac:(lia)) as E1. cbn in E0, E1.
  destruct (Req_EM_T (x 0%nat) 0) as [Z|Z].
  - right. assert (Y : x 1%nat <> 0) by (destruct i as [|[|i]]; [lra|exact Xi|lia]). rewrite Z in E1. apply (Rmult_eq_reg_r (x 1%nat)); [lra|exact Y].
  - left. apply (Rmult_eq_reg_r (x 0%nat)); [lra|exact Z].
Qed.
Lemma doubly_mean_reverting speed long_speed : 0 < speed -> 0 < long_speed -> mean_reverting 2 (doubly_K speed long_speed).
Proof. intros P Q l l' E E'. apply doubly_eigenvalue in E. apply doubly_eigenvalue in E'. destruct E as [-> | ->], E' as [-> | ->]; lra. Qed.

(** C59.  Equal non-zero speeds leave the reversion matrix without a basis of eigenvectors: no such model exists. *)
Theorem C59_equal_speeds : forall la garbage speed vol mean long_vol corr s e dt d, linalg_ok la -> speed <> 0 -> new_doubly la garbage speed vol mean speed long_vol corr s e dt <> Ok d.
Proof.
  intros la garbage speed vol mean long_vol corr s e dt d La Sp N. destruct (new_doubly_inv _ _ _ _ _ _ _ _ _ _ _ _ La N) as (S & L & _ & _ & Nm & _).
  destruct (new_multi_inv _ _ _ _ _ _ _ _ _ _ Nm La) as (_ & De & En & _ & _ & _ & EK & _). set (m := do_multi d) in *. cbn in En.
  assert (Z : forall j, (j < 2)%nat -> mv_V m 0%nat j = 0).
  { intros j J. pose proof (de_eig m De 0%nat j ltac:(rewrite En; lia) ltac:(rewrite En; lia)) as E0. pose proof (de_eig m De 1%nat j ltac:(rewrite En; lia) ltac:(rewrite En; lia)) as E1. rewrite En, EK in E0, E1. cbn in E0, E1.
    destruct (Req_EM_T (mv_V m 0%nat j) 0) as [Z|Z]; [exact Z|]. assert (El : mv_lam m j = speed) by (apply (Rmult_eq_reg_l (mv_V m 0%nat j)); [lra|exact Z]). rewrite El in E1. assert (X : speed * mv_V m 0%nat j = 0) by lra. apply Rmult_integral in X. tauto. }
  pose proof (de_r m De 0%nat 0%nat ltac:(rewrite En; lia) ltac:(rewrite En; lia)) as E. rewrite En in E. unfold mmul in E. rewrite sumn_zero in E; [rewrite delta_refl in E; lra|]. intros k Hk. rewrite Z by exact Hk. ring.
Qed.
Print Assumptions C59_equal_speeds.

(** left eigenvectors of K are left eigenvectors of the exponential *)
Lemma left_eigen m l y a : decomposed m -> (forall i, (i < mv_n m)%nat -> mvec (mv_n m) (tr (mv_K m)) y i = l * y i) -> forall i, (i < mv_n m)%nat -> mvec (mv_n m) (tr (exp_reversion m a)) y i = exp (- l * a) * y i.
Proof.
  intros De H i I. set (n := mv_n m) in *. set (w := mvec n (tr (mv_V m)) y).
  assert (W : forall k, (k < n)%nat -> exp (- mv_lam m k * a) * w k = exp (- l * a) * w k).
  { intros k Hk. assert (E : mv_lam m k * w k = l * w k).
    { transitivity (mvec n (tr (mv_V m)) (mvec n (tr (mv_K m)) y) k).
      - rewrite (mvec_ext n (tr (mv_V m)) _ (mvec n (tr (mv_Vi m)) (fun k => mv_lam m k * w k))) by (intros j J; apply (Kt_mvec m De y j J)). symmetry. apply (inverse_tr n (mv_Vi m) (mv_V m) (fun k => mv_lam m k * w k) k (de_l m De) Hk).
      - rewrite (mvec_ext n (tr (mv_V m)) _ (vscal l y)) by (intros j J; apply (H j J)). apply mvec_vscal. }
    destruct (Req_EM_T (w k) 0) as [Z|Z]; [rewrite Z; ring|]. assert (X : mv_lam m k = l) by (apply (Rmult_eq_reg_r (w k)); assumption). rewrite X. reflexivity. }
  transitivity (mvec n (tr (mv_Vi m)) (fun k => exp (- mv_lam m k * a) * w k) i).
  - unfold exp_reversion. fold n. fold (sandwich n (mv_V m) (fun i => exp (- mv_lam m i * a)) (mv_Vi m)). rewrite sandwich_tr. reflexivity.
  - rewrite (mvec_ext n (tr (mv_Vi m)) _ (vscal (exp (- l * a)) w)) by (intros k Hk; apply (W k Hk)). rewrite mvec_vscal. f_equal. apply (inverse_tr n (mv_V m) (mv_Vi m) y i (de_r m De) I).
Qed.
Lemma doubly_distinct la garbage speed vol mean long_speed long_vol corr s e dt d : linalg_ok la -> 0 < speed -> new_doubly la garbage speed vol mean long_speed long_vol corr s e dt = Ok d -> long_speed <> speed.
Proof. intros La Sp N ->. apply (C59_equal_speeds _ _ _ _ _ _ _ _ _ _ _ La (Rgt_not_eq _ _ Sp) N). Qed.
Lemma exp_strict x y : x <> y -> exp x <> exp y.
Proof. intros N E. apply N, exp_inv, E. Qed.

(** C67.  The reported forward of the doubly mean reverting model is wrong at every maturity after the purchase date, on
    every path whose long-term level is not zero. *)
Theorem C67_forward_refuted : forall la garbage speed vol mean long_speed long_vol corr s e dt d m t p a x, linalg_ok la -> 0 < speed -> 0 < long_speed ->
  new_doubly la garbage speed vol mean long_speed long_vol corr s e dt = Ok d -> generated (do_multi d) m ->
  mv_accrual m t p = Ok a -> 0 < a -> mv_state m p = Ok x -> x 0%nat <> 0 ->
  exists F f S, solves_term_structure 2 0 (vec_of [0; 1]) (vec_of [mean; mean]) (doubly_K speed long_speed) S F /\ mv_price m t p = Ok (F a x) /\ mv_forward m t p = Ok f /\
    forall true_f, derivable_pt_lim (fun t => - ln (F t x)) a true_f ->
      f - true_f = speed / (speed - long_speed) * (exp (- speed * a) - exp (- long_speed * a)) * x 0%nat /\ f <> true_f.
Proof.
  intros la garbage speed vol mean long_speed long_vol corr s e dt d m t p a x La Sp Ls Nd G Ha A0 Hx X0. destruct (new_doubly_inv _ _ _ _ _ _ _ _ _ _ _ _ La Nd) as (S & L & _ & _ & Nm & _).
  pose proof (doubly_distinct _ _ _ _ _ _ _ _ _ _ _ _ La Sp Nd) as Di. pose proof (doubly_mean_reverting speed long_speed Sp Ls) as Mr.
  destruct (prepared _ _ _ _ _ _ _ _ _ _ _ Nm La Mr G) as (De & Re & En & Em & Eg & El & EK & ES & _). cbn in En.
  exists (Fm m), (- intercept_deriv m (coefficient_term m a) - dot 2 (coefficient_deriv m a) x), S.
  pose proof (Fm_term_structure m De Re) as Ts. rewrite En, Em, Eg, El, EK, ES in Ts. split; [exact Ts|]. split; [apply price_value; assumption|]. split; [rewrite (forward_value m t p a x Ha Hx), En; reflexivity|].
  intros f' Hf'. pose proof (Fm_log_deriv m x a De Re) as Hd. pose proof (uniqueness_limite _ _ _ _ Hf' Hd) as ->.
  set (E := exp_reversion m a).
  assert (L1 : forall i, (i < 2)%nat -> mvec 2 (tr E) (vec_of [1; 0]) i = exp (- long_speed * a) * vec_of [1; 0] i).
  { intros i I. unfold E. rewrite <- En. apply left_eigen; [exact De| |rewrite En; exact I]. intros j J. rewrite En in J |- *. rewrite EK. destruct j as [|[|j]]; [cbn; ring|cbn; ring|lia]. }
  assert (L2 : forall i, (i < 2)%nat -> mvec 2 (tr E) (vec_of [speed / (long_speed - speed); 1]) i = exp (- speed * a) * vec_of [speed / (long_speed - speed); 1] i).
  { intros i I. unfold E. rewrite <- En. apply left_eigen; [exact De| |rewrite En; exact I]. intros j J. rewrite En in J |- *. rewrite EK. destruct j as [|[|j]]; [cbn; field; lra|cbn; ring|lia]. }
  pose proof (L1 0%nat ltac:(lia)) as E00. pose proof (L1 1%nat ltac:(lia)) as E01. pose proof (L2 0%nat ltac:(lia)) as E10. cbn in E00, E01, E10. unfold tr in E00, E01, E10.
  assert (V : - intercept_deriv m (coefficient_term m a) - dot 2 (coefficient_deriv m a) x - (- intercept_deriv m (coefficient_term m a) + dot (mv_n m) (mvec (mv_n m) (tr (exp_reversion m a)) (mv_g m)) x) = speed / (speed - long_speed) * (exp (- speed * a) - exp (- long_speed * a)) * x 0%nat).
  { rewrite <- En at 1. rewrite coefficient_deriv_dot, En, Eg. fold E. cbn. unfold tr, Rdiv. rewrite !Rmult_0_r, !Rplus_0_l, !Rmult_1_r.
    assert (A00 : E 0%nat 0%nat = exp (- long_speed * a)) by lra. assert (A01 : E 0%nat 1%nat = 0) by lra.
    assert (A10 : E 1%nat 0%nat = (exp (- speed * a) - exp (- long_speed * a)) * (speed / (long_speed - speed))) by (rewrite A00 in E10; lra). rewrite A01, A10. field. split; lra. }
  split; [exact V|]. intros Q. rewrite Q in V. rewrite Rminus_eq_0 in V. symmetry in V. apply Rmult_integral in V. destruct V as [V|V]; [|lra]. apply Rmult_integral in V. destruct V as [V|V].
  - unfold Rdiv in V. apply Rmult_integral in V. destruct V as [V|V]; [lra|]. apply (Rinv_neq_0_compat (speed - long_speed)); [lra|exact V].
  - apply (exp_strict (- speed * a) (- long_speed * a)); [|lra]. intros Q2. apply Di. apply (Rmult_eq_reg_r a); lra.
Qed.
Print Assumptions C67_forward_refuted.

(** a function with derivative c - k f and zero start, c > 0 after time 0, is positive *)
Lemma positive_after k (c f : R -> R) a : 0 < a -> f 0 = 0 -> (forall t, derivable_pt_lim f t (c t - k * f t)) -> (forall t, 0 < t -> t < a -> 0 < c t) -> 0 < f a.
Proof.
  intros A F0 D P. set (h := fun t => f t * exp (k * t)).
  assert (Dh : forall t, derivable_pt_lim h t (c t * exp (k * t))).
  { intros t. eapply d_eq; [|apply (d_mult f (fun t => exp (k * t))); [apply D|apply d_exp]]. ring. }
  destruct (MVT_cor2 h (fun t => c t * exp (k * t)) 0 a A (fun t _ => Dh t)) as (t & E & [T1 T2]).
  unfold h in E at 2. rewrite F0, Rmult_0_l, !Rminus_0_r in E. assert (Ha : 0 < h a) by (rewrite E; repeat apply Rmult_lt_0_compat; [apply P; assumption|apply exp_pos|exact A]).
  unfold h in Ha. pose proof (exp_pos (k * a)) as Ep. nra.
Qed.
(** C68.  Uncorrelated noises of equal volatility: the model reports covariance 0 between the long-term level and the
    short rate at every horizon; it is positive. *)
Theorem C68_refuted : forall la garbage speed vol mean long_speed s e dt d m t p a, linalg_ok la -> 0 < speed -> 0 < long_speed -> 0 < vol ->
  new_doubly la garbage speed vol mean long_speed vol 0 s e dt = Ok d -> generated (do_multi d) m -> mv_accrual m t p = Ok a -> 0 < a ->
  exists c, state_covariance m t p = Ok c /\ c 0%nat 1%nat = 0 /\
    forall Sg, covariance_equation 2 (doubly_K speed long_speed) (pair_covariance vol vol 0) Sg -> 0 < Sg a 0%nat 1%nat.
Proof.
  intros la garbage speed vol mean long_speed s e dt d m t p a La Sp Ls Vp Nd G Ha A0. destruct (new_doubly_inv _ _ _ _ _ _ _ _ _ _ _ _ La Nd) as (S & L & HS & _ & Nm & _).
  pose proof (doubly_mean_reverting speed long_speed Sp Ls) as Mr. destruct (prepared _ _ _ _ _ _ _ _ _ _ _ Nm La Mr G) as (De & Re & En & Em & Eg & El & EK & ES & _). cbn in En.
  exists (reported_covariance m a). split; [unfold state_covariance; rewrite Ha; reflexivity|]. split.
  - unfold reported_covariance. rewrite En.
    assert (H : mmul 2 (mmul 2 (mv_Vi m) (mv_C m)) (mv_V m) 0%nat 1%nat = vol * vol * mmul 2 (mv_Vi m) (mv_V m) 0%nat 1%nat).
    { assert (C : forall i j, (i < 2)%nat -> (j < 2)%nat -> mv_C m i j = pair_covariance vol vol 0 i j) by (intros i j I J; rewrite (de_C m De), En, ES; apply (HS i j I J)).
      pose proof (C 0 0 ltac:(lia) ltac:(lia))%nat as C00. pose proof (C 0 1 ltac:(lia) ltac:(lia))%nat as C01. pose proof (C 1 0 ltac:(lia) ltac:(lia))%nat as C10. pose proof (C 1 1 ltac:(lia) ltac:(lia))%nat as C11. cbn in C00, C01, C10, C11.
      unfold mmul. cbn [sumn]. rewrite C00, C01, C10, C11. ring. }
    rewrite H. pose proof (de_l m De 0%nat 1%nat ltac:(rewrite En; lia) ltac:(rewrite En; lia)) as I. rewrite En in I. rewrite I. unfold delta. cbn [Nat.eqb]. unfold Rdiv. ring.
  - intros Sg HSg.
    assert (P0 : forall u, 0 < u -> 0 < Sg u 0%nat 0%nat).
    { intros u Hu. destruct (HSg 0%nat 0%nat ltac:(lia) ltac:(lia)) as [Z D]. apply (positive_after (2 * long_speed) (fun _ => vol * vol) (fun t => Sg t 0%nat 0%nat) u Hu Z); [|intros; nra]. intros r. eapply d_eq; [|apply (D r)]. cbn. ring. }
    destruct (HSg 0%nat 1%nat ltac:(lia) ltac:(lia)) as [Z D]. apply (positive_after (long_speed + speed) (fun u => speed * Sg u 0%nat 0%nat) (fun t => Sg t 0%nat 1%nat) a A0 Z); [|intros u Hu _; apply Rmult_lt_0_compat; [exact Sp|apply P0, Hu]].
    intros r. eapply d_eq; [|apply (D r)]. cbn. ring.
Qed.
Print Assumptions C68_refuted.

(** ---- C59: documented dynamics ---- *)
(** An Euler path of dX = drift(X) dt + noise of covariance [cov] per unit time, driven by independent standard normals
    [draw], on the time grid from s to e, is stored in m and [rate] of the state is the short rate. *)
Definition simulates (n : nat) (drift : vec -> vec) (cov : mat) (rate : vec -> R) (s e : datetime) (dt : dt_step) (x0 : vec) (draw : nat -> vec) (m : multi) : Prop :=
  exists gr dts states A, time_grid s e dt gr /\ List.length states = List.length gr /\ List.length gr = Datatypes.S (List.length dts) /\ nth_error states 0 = Some x0 /\
    (forall i j, (i < n)%nat -> (j < n)%nat -> sumn n (fun k => A i k * A j k) = cov i j) /\
    (forall j t u q, nth_error gr j = Some t -> nth_error gr (Datatypes.S j) = Some u -> nth_error dts j = Some q -> compute_accrual_length (Stamp t) (Stamp u) ACTACT = Ok q) /\
    (forall j q v v' i, nth_error dts j = Some q -> nth_error states j = Some v -> nth_error states (Datatypes.S j) = Some v' -> (i < n)%nat ->
       v' i = v i + drift v i * Q2R q + sqrt (Q2R q) * sumn n (fun l => A i l * draw j l)) /\
    (forall j t v, nth_error gr j = Some t -> nth_error states j = Some v -> mv_state m (Some t) = Ok v /\ sr_call (mv_model m) t = Ok (rate v)).
Lemma documented_path la n g level K Sg L s e dt m h start draw m' h' cov drift : linalg_ok la ->
  new_multi la 0 g level K Sg (n, n, n) (new_brownian s e n L ACTACT) dt = Ok m ->
  (forall i j, (i < n)%nat -> (j < n)%nat -> SSt n Sg i j = cov i j) -> (forall i j, (i < n)%nat -> (j < n)%nat -> SSt n L i j = delta i j) ->
  (forall v i, (i < n)%nat -> sumn n (fun k => K i k * (level k - v k)) = drift v i) ->
  forward dt -> datetime_ok s -> datetime_ok e -> (dt_abs s <= dt_abs e)%Z -> (start < fresh h)%nat -> mv_generate m h start true draw = (m', h', Ok tt) ->
  simulates n drift cov (fun v => sumn n (fun i => g i * v i)) s e dt (arr h start) draw m'.
Proof.
  intros La N HS HL Hd F Os Oe Le St E. destruct (C56_path la 0 g level K Sg (n, n, n) (new_brownian s e n L ACTACT) dt m h start draw m' h' La N F Os Oe Le St E) as (gr & dts & states & Tg & Ln & Lg & S0 & Ac & Sk & Hc).
  exists gr, dts, states, (mmul n Sg L). split; [exact Tg|]. split; [exact Ln|]. split; [exact Lg|]. split; [exact S0|]. split.
  - intros i j I J. rewrite <- HS by assumption. unfold SSt, mmul.
    transitivity (sumn n (fun q => sumn n (fun r => Sg i q * Sg j r * sumn n (fun k => L q k * L r k)))).
    + rewrite (sumn_ext n _ (fun k => sumn n (fun q => sumn n (fun r => Sg i q * L q k * (Sg j r * L r k))))) by (intros; rewrite <- sumn_scal_r; apply sumn_ext; intros; rewrite <- sumn_scal; reflexivity).
      rewrite sumn_swap. apply sumn_ext. intros q Hq. rewrite sumn_swap. apply sumn_ext. intros r Hr. rewrite <- sumn_scal. apply sumn_ext. intros. ring.
    + apply sumn_ext. intros q Hq. rewrite (sumn_ext n _ (fun r => delta q r * (Sg i q * Sg j r))) by (intros r Hr; change (sumn n (fun k => L q k * L r k)) with (SSt n L q r); rewrite HL by assumption; ring). apply (sumn_delta n q (fun r => Sg i q * Sg j r) Hq).
  - split; [exact Ac|]. split.
    + intros j q v v' i Q V V' I. rewrite (Sk j q v v' i Q V V' I). cbn [bm_dim new_brownian bm_chol]. rewrite (Hd v i I). f_equal. unfold mmul.
      rewrite (sumn_ext n (fun l => sumn n (fun k => Sg i k * L k l) * draw j l) (fun l => sumn n (fun k => Sg i k * L k l * draw j l))) by (intros; rewrite <- sumn_scal_r; reflexivity). rewrite sumn_swap, <- sumn_scal. apply sumn_ext. intros k Hk.
      rewrite (sumn_ext n (fun i0 => Sg i k * L k i0 * draw j i0) (fun l => Sg i k * (L k l * draw j l))) by (intros; ring). rewrite sumn_scal. ring.
    + intros j t v T V. destruct (Hc j t v T V) as [H1 H2]. split; [exact H1|]. rewrite H2. cbn [bm_dim new_brownian]. f_equal. ring.
Qed.
(** C59.  Doubly mean reverting: state (theta, r), d theta = alpha (beta - theta) dt + sigma_theta dW_theta,
    d r = kappa (theta - r) dt + sigma_r dW_r, dW_r dW_theta = rho dt; the short rate is r. *)
Theorem C59_doubly : forall la garbage speed vol mean long_speed long_vol corr s e dt d h start draw m' h', linalg_ok la -> new_doubly la garbage speed vol mean long_speed long_vol corr s e dt = Ok d ->
  forward dt -> datetime_ok s -> datetime_ok e -> (dt_abs s <= dt_abs e)%Z -> (start < fresh h)%nat -> mv_generate (do_multi d) h start true draw = (m', h', Ok tt) ->
  simulates 2 (fun v => vec_of [long_speed * (mean - v 0%nat); speed * (v 0%nat - v 1%nat)])
    (mat_of [[long_vol * long_vol; corr * long_vol * vol]; [corr * long_vol * vol; vol * vol]]) (fun v => v 1%nat) s e dt (arr h start) draw m'.
Proof.
  intros la garbage speed vol mean long_speed long_vol corr s e dt d h start draw m' h' La Nd F Os Oe Le St E. destruct (new_doubly_inv _ _ _ _ _ _ _ _ _ _ _ _ La Nd) as (S & L & HS & HL & Nm & _).
  set (drift := fun v : vec => vec_of [long_speed * (mean - v 0%nat); speed * (v 0%nat - v 1%nat)]). set (cov := mat_of [[long_vol * long_vol; corr * long_vol * vol]; [corr * long_vol * vol; vol * vol]]).
  destruct (documented_path la 2 _ _ _ _ _ _ _ _ _ h start draw m' h' cov drift La Nm) as (gr & dts & states & A & H1 & H2 & H3 & H4 & H5 & H6 & H7 & H8); try assumption.
  - intros i j I J. rewrite (HS i j I J). destruct i as [|[|i]]; [| |lia]; (destruct j as [|[|j]]; [| |lia]); cbn; ring.
  - intros v i I. destruct i as [|[|i]]; [cbn; ring|cbn; ring|lia].
  - exists gr, dts, states, A. do 7 (split; [assumption|]). intros j t v T V. destruct (H8 j t v T V) as [E1 E2]. split; [exact E1|]. rewrite E2. f_equal. cbn. ring.
Qed.
Print Assumptions C59_doubly.

(** The other two named models cannot be instantiated: they inherit abstract methods.  A subclass (that keeps __init__) can
    be exactly if it defines all four of them; its dynamics are then the documented ones. *)
Theorem C59_abstract : 
  (forall la speed vol med_speed med_vol mean long_speed long_vol corr_sm corr_sl corr_ml s e dt, new_trebly la speed vol med_speed med_vol mean long_speed long_vol corr_sm corr_sl corr_ml s e dt = Err TypeError) /\
  (forall la speed vol med_speed med_vol med_mean risk_speed risk_vol risk_mean corr_sm corr_sr corr_mr s e dt,
     new_market_price la speed vol med_speed med_vol med_mean risk_speed risk_vol risk_mean corr_sm corr_sr corr_mr s e dt = Err TypeError) /\
  In "set_shape_parameters_from_dict"%string (abstract_methods trebly_class) /\ In "set_shape_parameters_from_dict"%string (abstract_methods market_price_class) /\ abstract_methods doubly_class = [].
Proof. split; [reflexivity|]. split; [reflexivity|]. split; [cbn; auto|]. split; [cbn; auto|reflexivity]. Qed.
Print Assumptions C59_abstract.
Theorem C59_subclass : forall A names (init : res A) c, c = trebly_class \/ c = market_price_class ->
  ((forall s, In s calibration_names -> In s names) -> instantiate (Class c [] names) init = init) /\
  ((exists s, In s calibration_names /\ ~ In s names) -> instantiate (Class c [] names) init = Err TypeError).
Proof.
  intros A names init c Hc. assert (Am : abstract_methods c = calibration_names) by (destruct Hc as [-> | ->]; reflexivity).
  assert (Ex : forall s, existsb (String.eqb s) names = true <-> In s names).
  { intros s. rewrite existsb_exists. split; [intros (x & I & E); apply String.eqb_eq in E; subst; exact I|intros I; exists s; split; [exact I|apply String.eqb_refl]]. }
  unfold instantiate. cbn [abstract_methods app]. rewrite Am. split.
  - intros H. replace (filter _ calibration_names) with (@nil string); [reflexivity|]. symmetry. assert (F : forall l, (forall s, In s l -> In s names) -> filter (fun s => negb (existsb (String.eqb s) names)) l = []).
    { induction l as [|s l IH]; intros Hl; [reflexivity|]. cbn [filter]. rewrite (proj2 (Ex s)) by (apply Hl; left; reflexivity). cbn [negb]. apply IH. intros x I. apply Hl. right. exact I. }
    apply F, H.
  - intros (s & I & N). assert (F : In s (filter (fun s => negb (existsb (String.eqb s) names)) calibration_names)).
    { apply filter_In. split; [exact I|]. destruct (existsb (String.eqb s) names) eqn:E; [|reflexivity]. exfalso. apply N, Ex, E. }
    destruct (filter _ calibration_names); [contradiction|reflexivity].
Qed.
Print Assumptions C59_subclass.
Ltac cov3 HS := intros i j I J; etransitivity; [exact (HS i j I J)|]; destruct i as [|[|[|i]]]; [| | |lia]; (destruct j as [|[|[|j]]]; [| | |lia]); cbn; ring.
Theorem C59_trebly : forall names la speed vol med_speed med_vol mean long_speed long_vol corr_sm corr_sl corr_ml s e dt m h start draw m' h', linalg_ok la ->
  instantiate (Class trebly_class [] names) (trebly_init la speed vol med_speed med_vol mean long_speed long_vol corr_sm corr_sl corr_ml s e dt) = Ok m ->
  forward dt -> datetime_ok s -> datetime_ok e -> (dt_abs s <= dt_abs e)%Z -> (start < fresh h)%nat -> mv_generate m h start true draw = (m', h', Ok tt) ->
  simulates 3 (fun v => vec_of [long_speed * (mean - v 0%nat); med_speed * (v 0%nat - v 1%nat); speed * (v 1%nat - v 2%nat)])
    (mat_of [[long_vol * long_vol; corr_ml * long_vol * med_vol; corr_sl * long_vol * vol]; [corr_ml * long_vol * med_vol; med_vol * med_vol; corr_sm * med_vol * vol]; [corr_sl * long_vol * vol; corr_sm * med_vol * vol; vol * vol]])
    (fun v => v 2%nat) s e dt (arr h start) draw m'.
Proof.
  intros names la speed vol med_speed med_vol mean long_speed long_vol corr_sm corr_sl corr_ml s e dt m h start draw m' h' La N F Os Oe Le St E. unfold instantiate in N. destruct (abstract_methods _); [|discriminate]. unfold trebly_init in N.
  destruct (la_cholesky la 3 delta) as [L|] eqn:CL; [|discriminate]. cbn [or_lin bind] in N. destruct (la_cholesky la 3 (mat_of _)) as [S|] eqn:CS; [|discriminate]. cbn [or_lin bind] in N.
  assert (HL : forall i j, (i < 3)%nat -> (j < 3)%nat -> SSt 3 L i j = delta i j) by (intros i j I J; apply (cholesky_sym la 3 _ _ La CL); [intros; apply delta_sym|exact I|exact J]).
  pose proof (cholesky_sym la 3 _ _ La CS ltac:(intros [|[|[|]]] [|[|[|]]] ? ?; try lia; reflexivity)) as HS.
  set (drift := fun v : vec => vec_of [long_speed * (mean - v 0%nat); med_speed * (v 0%nat - v 1%nat); speed * (v 1%nat - v 2%nat)]).
  set (cov := mat_of [[long_vol * long_vol; corr_ml * long_vol * med_vol; corr_sl * long_vol * vol]; [corr_ml * long_vol * med_vol; med_vol * med_vol; corr_sm * med_vol * vol]; [corr_sl * long_vol * vol; corr_sm * med_vol * vol; vol * vol]]).
  destruct (documented_path la 3 _ _ _ _ _ _ _ _ _ h start draw m' h' cov drift La N) as (gr & dts & states & A & H1 & H2 & H3 & H4 & H5 & H6 & H7 & H8); try assumption.
  - cov3 HS.
  - intros v i I. destruct i as [|[|[|i]]]; [cbn; ring|cbn; ring|cbn; ring|lia].
  - exists gr, dts, states, A. do 7 (split; [assumption|]). intros j t v T V. destruct (H8 j t v T V) as [E1 E2]. split; [exact E1|]. rewrite E2. f_equal. cbn. ring.
Qed.
Print Assumptions C59_trebly.
(** state (lambda, theta, r): d lambda = k_lambda (lambda_inf - lambda) dt + .., d theta = k_theta (theta_inf - theta) dt
    + lambda sigma_theta dt + .., d r = k_r (theta - r) dt + .. *)
Theorem C59_market_price : forall names la speed vol med_speed med_vol med_mean risk_speed risk_vol risk_mean corr_sm corr_sr corr_mr s e dt m h start draw m' h', linalg_ok la ->
  ((forall s, In s calibration_names -> In s names) -> med_speed = 0 -> la_cholesky la 3 delta <> None ->
     instantiate (Class market_price_class [] names) (market_price_init la speed vol med_speed med_vol med_mean risk_speed risk_vol risk_mean corr_sm corr_sr corr_mr s e dt) = Err ZeroDivisionError) /\
  (instantiate (Class market_price_class [] names) (market_price_init la speed vol med_speed med_vol med_mean risk_speed risk_vol risk_mean corr_sm corr_sr corr_mr s e dt) = Ok m ->
  forward dt -> datetime_ok s -> datetime_ok e -> (dt_abs s <= dt_abs e)%Z -> (start < fresh h)%nat -> mv_generate m h start true draw = (m', h', Ok tt) ->
  simulates 3 (fun v => vec_of [risk_speed * (risk_mean - v 0%nat); med_speed * (med_mean - v 1%nat) + v 0%nat * med_vol; speed * (v 1%nat - v 2%nat)])
    (mat_of [[risk_vol * risk_vol; corr_mr * risk_vol * med_vol; corr_sr * risk_vol * vol]; [corr_mr * risk_vol * med_vol; med_vol * med_vol; corr_sm * med_vol * vol]; [corr_sr * risk_vol * vol; corr_sm * med_vol * vol; vol * vol]])
    (fun v => v 2%nat) s e dt (arr h start) draw m').
Proof.
  intros names la speed vol med_speed med_vol med_mean risk_speed risk_vol risk_mean corr_sm corr_sr corr_mr s e dt m h start draw m' h' La. split.
  { intros Hn -> C. rewrite (proj1 (C59_subclass _ names _ market_price_class (or_intror eq_refl)) Hn). unfold market_price_init. destruct (la_cholesky la 3 delta) as [L|]; [|congruence]. cbn [or_lin bind]. unfold fdiv. destruct (Req_EM_T 0 0); [reflexivity|congruence]. }
  intros N F Os Oe Le St E. unfold instantiate in N. destruct (abstract_methods _); [|discriminate]. unfold market_price_init in N.
  destruct (la_cholesky la 3 delta) as [L|] eqn:CL; [|discriminate]. cbn [or_lin bind] in N. unfold fdiv in N. destruct (Req_EM_T med_speed 0) as [|Nz]; [discriminate|]. cbn [bind] in N. destruct (la_cholesky la 3 (mat_of _)) as [S|] eqn:CS; [|discriminate]. cbn [or_lin bind] in N.
  assert (HL : forall i j, (i < 3)%nat -> (j < 3)%nat -> SSt 3 L i j = delta i j) by (intros i j I J; apply (cholesky_sym la 3 _ _ La CL); [intros; apply delta_sym|exact I|exact J]).
  pose proof (cholesky_sym la 3 _ _ La CS ltac:(intros [|[|[|]]] [|[|[|]]] ? ?; try lia; reflexivity)) as HS.
  set (drift := fun v : vec => vec_of [risk_speed * (risk_mean - v 0%nat); med_speed * (med_mean - v 1%nat) + v 0%nat * med_vol; speed * (v 1%nat - v 2%nat)]).
  set (cov := mat_of [[risk_vol * risk_vol; corr_mr * risk_vol * med_vol; corr_sr * risk_vol * vol]; [corr_mr * risk_vol * med_vol; med_vol * med_vol; corr_sm * med_vol * vol]; [corr_sr * risk_vol * vol; corr_sm * med_vol * vol; vol * vol]]).
  destruct (documented_path la 3 _ _ _ _ _ _ _ _ _ h start draw m' h' cov drift La N) as (gr & dts & states & A & H1 & H2 & H3 & H4 & H5 & H6 & H7 & H8); try assumption.
  - cov3 HS.
  - intros v i I. destruct i as [|[|[|i]]]; [cbn; ring|cbn; field; exact Nz|cbn; ring|lia].
  - exists gr, dts, states, A. do 7 (split; [assumption|]). intros j t v T V. destruct (H8 j t v T V) as [E1 E2]. split; [exact E1|]. rewrite E2. f_equal. cbn. ring.
Qed.
Print Assumptions C59_market_price.

(** ---- C69: calibration parameters of the doubly mean reverting model ---- *)
(** Setting parameters from the dictionary changes what the model reports about itself and nothing it computes. *)
Theorem C69_setters : forall d vp sp xp d', 
  (doubly_set_vol (do_put d vp sp xp) = Ok d' -> (exists rest, vp = do_long_speed d' :: do_long_vol d' :: do_speed d' :: do_vol d' :: do_corr d' :: rest) /\ do_mean d' = do_mean d /\ do_multi d' = do_multi d) /\
  (doubly_set_shape (do_put d vp sp xp) = Ok d' -> (exists rest, sp = do_mean d' :: rest) /\ do_speed d' = do_speed d /\ do_vol d' = do_vol d /\ do_long_speed d' = do_long_speed d /\ do_long_vol d' = do_long_vol d /\ do_corr d' = do_corr d /\ do_multi d' = do_multi d) /\
  (doubly_set_state (do_put d vp sp xp) = Ok d' -> (forall i v, nth_error xp i = Some v -> do_initial d' i = v) /\ (forall i, (List.length xp <= i)%nat -> do_initial d' i = do_initial d i) /\ do_multi d' = do_multi d) /\
  ((List.length vp < 5)%nat -> doubly_set_vol (do_put d vp sp xp) = Err IndexError) /\ (sp = [] -> doubly_set_shape (do_put d vp sp xp) = Err IndexError) /\ ((2 < List.length xp)%nat -> doubly_set_state (do_put d vp sp xp) = Err IndexError).
Proof.
  intros d vp sp xp d'. split; [|split; [|split; [|split; [|split]]]].
  - unfold doubly_set_vol. cbn [do_put do_vol_params]. destruct vp as [|ls [|lv [|s [|v [|c rest]]]]]; try discriminate. intros E. injection E as <-. cbn. split; [exists rest; reflexivity|auto].
  - unfold doubly_set_shape. cbn [do_put do_shape_params]. destruct sp as [|m rest]; [discriminate|]. intros E. injection E as <-. cbn. split; [exists rest; reflexivity|auto 8].
  - unfold doubly_set_state. cbn [do_put do_state_params]. destruct (2 <? Z.of_nat (List.length xp))%Z; [discriminate|]. intros E. injection E as <-. cbn. split; [|split; [|reflexivity]].
    + intros i v Hv. apply nth_error_nth with (d := do_initial d i) in Hv. exact Hv.
    + intros i Hi. apply nth_overflow. exact Hi.
  - intros H. unfold doubly_set_vol. cbn [do_put do_vol_params]. destruct vp as [|ls [|lv [|s [|v [|c rest]]]]]; try reflexivity. cbn in H. lia.
  - intros ->. reflexivity.
  - intros H. unfold doubly_set_state. cbn [do_put do_state_params]. replace (2 <? Z.of_nat (List.length xp))%Z with true by (symmetry; apply Z.ltb_lt; lia). reflexivity.
Qed.
Print Assumptions C69_setters.
(** So after a change of the volatility parameters prices, yields and paths are still those of the old parameters. *)
Theorem C69_stale : forall la garbage speed vol mean long_speed long_vol corr s e dt d vp sp xp d', linalg_ok la -> new_doubly la garbage speed vol mean long_speed long_vol corr s e dt = Ok d ->
  (doubly_set_vol (do_put d vp sp xp) = Ok d' \/ doubly_set_shape (do_put d vp sp xp) = Ok d') ->
  0 < speed -> 0 < long_speed -> exists F S, solves_term_structure 2 0 (vec_of [0; 1]) (vec_of [mean; mean]) (doubly_K speed long_speed) S F /\
    (forall i j, (i < 2)%nat -> (j < 2)%nat -> SSt 2 S i j = pair_covariance long_vol vol corr i j) /\
    forall m t p a x, generated (do_multi d') m -> mv_accrual m t p = Ok a -> mv_state m p = Ok x -> mv_price m t p = Ok (F a x).
Proof.
  intros la garbage speed vol mean long_speed long_vol corr s e dt d vp sp xp d' La Nd Hs Sp Ls. assert (Ed : do_multi d' = do_multi d) by (destruct (C69_setters d vp sp xp d') as (H1 & H2 & _); destruct Hs as [Hs|Hs]; [apply (H1 Hs)|apply (H2 Hs)]).
  destruct (new_doubly_inv _ _ _ _ _ _ _ _ _ _ _ _ La Nd) as (S & L & HS & HL & Nm & _). pose proof (doubly_mean_reverting speed long_speed Sp Ls) as Mr.
  destruct (new_multi_inv _ _ _ _ _ _ _ _ _ _ Nm La) as (_ & De & En & Em & Eg & El & EK & ES & _). cbn in En.
  exists (Fm (do_multi d)), S. assert (Re : regular (do_multi d)) by (apply mean_reverting_regular; [exact De|rewrite En, EK; exact Mr]).
  pose proof (Fm_term_structure _ De Re) as Ts. rewrite En, Em, Eg, El, EK, ES in Ts. split; [exact Ts|]. split; [exact HS|]. rewrite Ed. intros m t p a x G Ha Hx. rewrite (price_value m t p a x Ha Hx). f_equal.
  pose proof (generated_same _ _ G) as Sm. unfold Fm, intercept_term, coefficient_term, exp_reversion, reversion_inv. rewrite (sm_n _ _ Sm), (sm_mu _ _ Sm), (sm_g _ _ Sm), (sm_level _ _ Sm), (sm_lam _ _ Sm), (sm_V _ _ Sm), (sm_Vi _ _ Sm), (sm_C _ _ Sm). reflexivity.
Qed.
Print Assumptions C69_stale.
(** Building a model from a calibration dictionary gives the model with those parameters, and its dictionary lists them
    back; missing entries raise IndexError. *)
Theorem C69_round_trip : forall la garbage speed vol mean long_speed long_vol corr s e dt h start draw,
  (forall d h', doubly_from_parameters la garbage [long_speed; long_vol; speed; vol; corr] [mean] s e dt h start draw = Ok (d, h') ->
     exists d0, new_doubly la garbage speed vol mean long_speed long_vol corr s e dt = Ok d0 /\ mv_generate (do_multi d0) h start true draw = (do_multi d, h', Ok tt) /\
       do_speed d = speed /\ do_vol d = vol /\ do_mean d = mean /\ do_long_speed d = long_speed /\ do_long_vol d = long_vol /\ do_corr d = corr /\
       do_vol_params d = [long_speed; long_vol; speed; vol; corr] /\ do_shape_params d = [mean]) /\
  (forall d0 m h', new_doubly la garbage speed vol mean long_speed long_vol corr s e dt = Ok d0 -> mv_generate (do_multi d0) h start true draw = (m, h', Ok tt) ->
     exists d, doubly_from_parameters la garbage (do_vol_params d0) (do_shape_params d0) s e dt h start draw = Ok (d, h') /\ do_multi d = m) /\
  forall vp sp, ((List.length vp < 5)%nat \/ sp = []) -> doubly_from_parameters la garbage vp sp s e dt h start draw = Err IndexError.
Proof.
  intros la garbage speed vol mean long_speed long_vol corr s e dt h start draw.
  assert (Fields : forall d, new_doubly la garbage speed vol mean long_speed long_vol corr s e dt = Ok d -> do_speed d = speed /\ do_vol d = vol /\ do_mean d = mean /\ do_long_speed d = long_speed /\ do_long_vol d = long_vol /\ do_corr d = corr /\
       do_vol_params d = [long_speed; long_vol; speed; vol; corr] /\ do_shape_params d = [mean]).
  { intros d N. unfold new_doubly in N. change (instantiate doubly_class ?x) with x in N. destruct (or_lin _) as [S|]; [|discriminate]. cbn [bind] in N. destruct (or_lin _) as [L|]; [|discriminate]. cbn [bind] in N. destruct (new_multi _ _ _ _ _ _ _ _ _); [|discriminate]. cbn [bind] in N. injection N as <-. cbn. auto 10. }
  split; [|split].
  - intros d h'. unfold doubly_from_parameters. destruct (new_doubly _ _ _ _ _ _ _ _ _ _ _) as [d0|] eqn:N; [|discriminate]. cbn [bind]. destruct (mv_generate (do_multi d0) h start true draw) as [[m h1] [[]|]] eqn:G; [|discriminate]. cbn [bind]. intros E. injection E as <- <-. exists d0. split; [reflexivity|]. split; [exact G|]. apply (Fields d0 eq_refl).
  - intros d0 m h' N G. destruct (Fields d0 N) as (_ & _ & _ & _ & _ & _ & -> & ->). unfold doubly_from_parameters. rewrite N. cbn [bind]. rewrite G. cbn [bind]. eexists. split; reflexivity.
  - intros vp sp [H | ->]; unfold doubly_from_parameters.
    + destruct vp as [|ls [|lv [|s' [|v [|c rest]]]]]; try reflexivity. cbn in H. lia.
    + destruct vp as [|ls [|lv [|s' [|v [|c rest]]]]]; reflexivity.
Qed.
Print Assumptions C69_round_trip.
