(** Multivariate Vasicek models: C56-C59, C67-C69. *)
From Verif Require Import Base PyClass PyDate PyDateFacts DayCount DayCountFacts PyList KeyRate Curve CurveFacts Loan P_DayCount RVec Deriv Stochastic StochasticFacts P_Stochastic ShortRate P_ShortRate Vasicek Multi MultiFacts.
From Coq Require Import Reals Lra.
Open Scope R_scope.

(** ---- specification ---- *)
Definition upd (x : vec) (i : nat) (t : R) : vec := fun j => if Nat.eqb j i then t else x j.
(** d is the partial derivative of F in coordinate i at x *)
Definition partial_deriv (F : vec -> R) (x : vec) (i : nat) (d : R) : Prop := derivable_pt_lim (fun t => F (upd x i t)) (x i) d.
(** F(tau, x), the price of a bond with time tau to maturity in state x, when dX = K (theta - X) dt + S dW and
    r = mu + g.X : F is 1 at tau = 0 and
    dF/dtau = 1/2 sum_ij (S S^T)_ij F_ij + sum_i (K (theta - x))_i F_i - (mu + g.x) F. *)
Definition solves_term_structure (n : nat) (mu : R) (g theta : vec) (K S : mat) (F : R -> vec -> R) : Prop :=
  (forall x, F 0 x = 1) /\
  forall tau x, exists (Ft : R) (F1 : vec -> vec) (F2 : mat),
    derivable_pt_lim (fun t => F t x) tau Ft /\
    (forall y i, (i < n)%nat -> partial_deriv (F tau) y i (F1 y i)) /\
    (forall i j, (i < n)%nat -> (j < n)%nat -> partial_deriv (fun y => F1 y i) x j (F2 i j)) /\
    Ft = / 2 * sumn n (fun i => sumn n (fun j => sumn n (fun k => S i k * S j k) * F2 i j))
         + sumn n (fun i => sumn n (fun j => K i j * (theta j - x j)) * F1 x i) - (mu + sumn n (fun i => g i * x i)) * F tau x.
(** l is a (real) eigenvalue of K *)
Definition eigenvalue (n : nat) (K : mat) (l : R) : Prop :=
  exists x : vec, (exists i, (i < n)%nat /\ x i <> 0) /\ forall i, (i < n)%nat -> sumn n (fun j => K i j * x j) = l * x i.
(** no eigenvalue is zero and no two add up to zero (for instance all are positive) *)
Definition mean_reverting (n : nat) (K : mat) : Prop := forall l l', eigenvalue n K l -> eigenvalue n K l' -> l <> 0 /\ l + l' <> 0.
(** models obtained from m0 by generating paths *)
Inductive generated (m0 : multi) : multi -> Prop :=
| gen_start : generated m0 m0
| gen_path m h start set draw m' h' r : generated m0 m -> mv_generate m h start set draw = (m', h', r) -> generated m0 m'.

(** ---- construction ---- *)
Lemma new_multi_inv la mu g level K S rows b dt m : new_multi la mu g level K S rows b dt = Ok m -> linalg_ok la ->
  rows = (bm_dim b, bm_dim b, bm_dim b) /\ decomposed m /\ mv_n m = bm_dim b /\ mv_mu m = mu /\ mv_g m = g /\ mv_level m = level /\ mv_K m = K /\ mv_S m = S /\
  mv_model m = new_short_rate (affine_function (bm_dim b) g mu) (new_process (List.map (fun i => constant_pair (bm_dim b) level (K i) (S i)) (seq 0 (bm_dim b))) b dt).
Proof.
  intros N La. unfold new_multi in N. destruct rows as [[nS nl] nK]. destruct (Nat.eqb_spec (bm_dim b) nS) as [<-|]; [|discriminate]. destruct (Nat.eqb_spec (bm_dim b) nl) as [<-|]; [|discriminate]. destruct (Nat.eqb_spec (bm_dim b) nK) as [<-|]; [|discriminate].
  cbn [negb andb] in N. destruct (la_eig la (bm_dim b) K) as [[lam V]|] eqn:Ee; [|discriminate]. destruct (la_inv la (bm_dim b) V) as [W|] eqn:Ei; [|discriminate]. cbn [or_lin bind] in N. injection N as <-.
  split; [reflexivity|]. split; [|repeat split].
  constructor; unfold mv_n, sr_bm; cbn.
  - intros i j I J. apply (eig_ok la La _ _ _ _ Ee i j I J).
  - intros i j I J. apply (proj1 (inv_ok la La _ _ _ Ei i j I J)).
  - intros i j I J. apply (proj2 (inv_ok la La _ _ _ Ei i j I J)).
  - reflexivity.
Qed.
Lemma increments_same b dt draw b' r : generate_increments b dt draw = (b', r) -> bm_dim b' = bm_dim b /\ bm_start b' = bm_start b /\ bm_end b' = bm_end b /\ bm_dcc b' = bm_dcc b /\ bm_chol b' = bm_chol b.
Proof.
  unfold generate_increments. destruct (generate_datetimes _ _ _ _) as [g|]; [|intros E; injection E as <- <-; auto]. destruct (nth_error g _) as [l|]; [|intros E; injection E as <- <-; auto].
  destruct (mapM _ _) as [d|]; intros E; injection E as <- <-; cbn; auto.
Qed.
(** what path generation leaves alone *)
Record same_model (m0 m : multi) : Prop := SameModel {
  sm_mu : mv_mu m = mv_mu m0; sm_g : mv_g m = mv_g m0; sm_level : mv_level m = mv_level m0; sm_K : mv_K m = mv_K m0; sm_S : mv_S m = mv_S m0;
  sm_lam : mv_lam m = mv_lam m0; sm_V : mv_V m = mv_V m0; sm_Vi : mv_Vi m = mv_Vi m0; sm_C : mv_C m = mv_C m0;
  sm_n : mv_n m = mv_n m0; sm_start : mv_start m = mv_start m0; sm_dcc : mv_dcc m = mv_dcc m0; sm_f : sr_f (mv_model m) = sr_f (mv_model m0); sm_coll : pr_coll (sr_proc (mv_model m)) = pr_coll (sr_proc (mv_model m0));
  sm_dt : pr_dt (sr_proc (mv_model m)) = pr_dt (sr_proc (mv_model m0)); sm_end : bm_end (sr_bm (mv_model m)) = bm_end (sr_bm (mv_model m0)); sm_chol : bm_chol (sr_bm (mv_model m)) = bm_chol (sr_bm (mv_model m0))
}.
Lemma generate_same m h start set draw m' h' r : mv_generate m h start set draw = (m', h', r) -> same_model m m'.
Proof.
  unfold mv_generate, sr_generate_path, pr_generate_path. destruct (generate_increments (pr_bm (sr_proc (mv_model m))) (pr_dt (sr_proc (mv_model m))) draw) as [b [[incs dts]|]] eqn:G; pose proof (increments_same _ _ _ _ _ G) as (D & St & En & Dc & Ch).
  - destruct (alloc _ _) as [cur h1]. destruct (euler _ _ _ _ _ _) as [h2 sol]. cbn [pr_path]. destruct (if set then Some sol else pr_path (sr_proc (mv_model m))) as [cols|]; intros E; injection E as <- <- <-; constructor; unfold mv_n, mv_start, mv_dcc, sr_bm; cbn; auto.
  - intros E; injection E as <- <- <-. constructor; unfold mv_n, mv_start, mv_dcc, sr_bm; cbn; auto.
Qed.
Lemma generated_same m0 m : generated m0 m -> same_model m0 m.
Proof.
  induction 1 as [|m h start set draw m' h' r G IH E]; [constructor; reflexivity|]. pose proof (generate_same _ _ _ _ _ _ _ _ E) as S2. destruct IH, S2. constructor; congruence.
Qed.
Lemma generated_decomposed m0 m : generated m0 m -> decomposed m0 -> decomposed m.
Proof. intros G [E R L C]. destruct (generated_same m0 m G). constructor; rewrite ?sm_K0, ?sm_V0, ?sm_Vi0, ?sm_C0, ?sm_n0, ?sm_S0, ?sm_lam0; assumption. Qed.

Lemma classic_zero n (x : vec) : (forall i, (i < n)%nat -> x i = 0) \/ exists i, (i < n)%nat /\ x i <> 0.
Proof.
  induction n as [|n [IH|(i & I & X)]]; [left; intros; lia| |right; exists i; split; [lia|exact X]].
  destruct (Req_EM_T (x n) 0) as [E|E]; [left; intros i I; destruct (Nat.eq_dec i n) as [->|]; [exact E|apply IH; lia]|right; exists n; split; [lia|exact E]].
Qed.
(** the columns of an invertible V are eigenvectors *)
Lemma column_eigenvalue m k : decomposed m -> (k < mv_n m)%nat -> eigenvalue (mv_n m) (mv_K m) (mv_lam m k).
Proof.
  intros De Hk. exists (fun i => mv_V m i k). split.
  - destruct (classic_zero (mv_n m) (fun i => mv_V m i k)) as [A|A]; [|exact A]. exfalso. pose proof (de_l m De k k Hk Hk) as E. rewrite delta_refl in E. unfold mmul in E. rewrite sumn_zero in E; [lra|]. intros i I. rewrite A by exact I. ring.
  - intros i I. pose proof (de_eig m De i k I Hk) as E. unfold mmul in E. rewrite E. ring.
Qed.
Lemma mean_reverting_regular m : decomposed m -> mean_reverting (mv_n m) (mv_K m) -> regular m.
Proof.
  intros De H. split.
  - intros i I. apply (proj1 (H _ _ (column_eigenvalue m i De I) (column_eigenvalue m i De I))).
  - intros i j I J. apply (proj2 (H _ _ (column_eigenvalue m j De J) (column_eigenvalue m i De I))).
Qed.
Lemma prepared la mu g level K S rows b dt m0 m : new_multi la mu g level K S rows b dt = Ok m0 -> linalg_ok la -> mean_reverting (bm_dim b) K -> generated m0 m ->
  decomposed m /\ regular m /\ mv_n m = bm_dim b /\ mv_mu m = mu /\ mv_g m = g /\ mv_level m = level /\ mv_K m = K /\ mv_S m = S /\ mv_start m = bm_start b /\ mv_dcc m = bm_dcc b /\ sr_f (mv_model m) = affine_function (bm_dim b) g mu.
Proof.
  intros N La Mr G. destruct (new_multi_inv _ _ _ _ _ _ _ _ _ _ N La) as (_ & De & En & Em & Eg & El & EK & ES & Mo). pose proof (generated_decomposed _ _ G De) as D. destruct (generated_same _ _ G).
  split; [exact D|]. split; [apply mean_reverting_regular; [exact D|rewrite sm_n0, sm_K0, En, EK; exact Mr]|]. rewrite sm_n0, sm_mu0, sm_g0, sm_level0, sm_K0, sm_S0, sm_start0, sm_dcc0, sm_f0. unfold mv_start, mv_dcc, sr_bm. rewrite Mo. cbn. auto 12.
Qed.

(** ---- the price function ---- *)
Definition Fm (m : multi) (t : R) (x : vec) : R := exp (intercept_term m t + dot (mv_n m) (coefficient_term m t) x).
Lemma dot_upd n B x i t : (i < n)%nat -> dot n B (upd x i t) = dot n B x - B i * x i + B i * t.
Proof.
  intros I. unfold dot. rewrite (sumn_ext n _ (fun j => B j * x j + delta i j * (B j * (t - x j)))).
  - rewrite sumn_plus, (sumn_delta n i (fun j => B j * (t - x j)) I). ring.
  - intros j J. unfold upd, delta. rewrite (Nat.eqb_sym i j). destruct (Nat.eqb_spec j i) as [->|]; ring.
Qed.
Lemma Fm_partial m t x i : (i < mv_n m)%nat -> partial_deriv (Fm m t) x i (coefficient_term m t i * Fm m t x).
Proof.
  intros I. unfold partial_deriv, Fm. set (B := coefficient_term m t). set (A := intercept_term m t). set (c := A + (dot (mv_n m) B x - B i * x i)).
  apply (d_fun (fun s => exp (c + B i * s))); [intros s; rewrite dot_upd by exact I; f_equal; unfold c; ring|].
  eapply d_eq; [|apply d_exp_affine]. f_equal. f_equal. unfold c. ring.
Qed.
Lemma Fm_term_structure m : decomposed m -> regular m -> solves_term_structure (mv_n m) (mv_mu m) (mv_g m) (mv_level m) (mv_K m) (mv_S m) (Fm m).
Proof.
  intros De Re. split.
  - intros x. unfold Fm. rewrite A_zero by assumption. unfold dot. rewrite sumn_zero; [rewrite Rplus_0_r; apply exp_0|]. intros i I. rewrite B_zero by assumption. ring.
  - intros tau x. set (n := mv_n m). set (B := coefficient_term m tau). set (P := Fm m tau x).
    exists ((- mv_mu m + dot n B (mvec n (mv_K m) (mv_level m)) + / 2 * dot n B (mvec n (mv_C m) B) + dot n (fun i => - mvec n (tr (mv_K m)) B i - mv_g m i) x) * P), (fun y i => B i * Fm m tau y), (fun i j => B i * (B j * P)). split; [|split; [|split]].
    + unfold P. apply (d_exp_of (fun t => intercept_term m t + dot n (coefficient_term m t) x)). apply d_plus; [apply A_deriv; assumption|].
      apply (sumn_deriv n (fun i t => coefficient_term m t i * x i) (fun i t => (- mvec n (tr (mv_K m)) (coefficient_term m t) i - mv_g m i) * x i)). intros i I.
      eapply d_eq; [|apply (d_mult (fun t => coefficient_term m t i) (fun _ => x i)); [apply B_deriv_exp; assumption|apply d_const]]. pose proof (B_riccati m De Re tau i I) as Rc. fold n in Rc |- *. rewrite Rc. ring.
    + intros y i I. apply Fm_partial, I.
    + intros i j I J. unfold partial_deriv. apply (d_fun (fun t => B i * Fm m tau (upd x j t))); [reflexivity|]. apply d_scal. apply Fm_partial, J.
    + fold P. assert (E1 : sumn n (fun i => sumn n (fun j => sumn n (fun k => mv_S m i k * mv_S m j k) * (B i * (B j * P)))) = dot n B (mvec n (mv_C m) B) * P).
      { rewrite bil, <- sumn_scal_r. apply sumn_ext. intros i I. rewrite <- sumn_scal_r. apply sumn_ext. intros j J. rewrite (de_C m De). unfold mmul, tr. fold n. ring. }
      assert (E2 : sumn n (fun i => sumn n (fun j => mv_K m i j * (mv_level m j - x j)) * (B i * P)) = (dot n B (mvec n (mv_K m) (mv_level m)) - dot n (mvec n (tr (mv_K m)) B) x) * P).
      { rewrite tr_dot. rewrite <- dot_vsub. unfold dot at 1. rewrite <- sumn_scal_r. apply sumn_ext. intros i I. unfold vsub. rewrite (sumn_ext n _ (fun j => mv_K m i j * mv_level m j - mv_K m i j * x j)) by (intros; ring). rewrite sumn_minus. unfold mvec, dot. ring. }
      rewrite E1, E2. assert (E3 : dot n (fun i => - mvec n (tr (mv_K m)) B i - mv_g m i) x = - dot n (mvec n (tr (mv_K m)) B) x - sumn n (fun i => mv_g m i * x i)).
      { unfold dot. rewrite <- sumn_opp, <- sumn_minus. apply sumn_ext. intros. ring. }
      rewrite E3. ring.
Qed.

(** C56.  The zero-coupon bond price is the term-structure solution at the accrual from purchase to maturity and the
    state on the purchase date, for every dimension, parameters with a real diagonalisable reversion matrix, and paths;
    the reported gradient in the state variables is its gradient. *)
Theorem C56_price : forall la mu g level K S rows b dt m0 m, linalg_ok la -> new_multi la mu g level K S rows b dt = Ok m0 -> mean_reverting (bm_dim b) K -> generated m0 m ->
  exists F, solves_term_structure (bm_dim b) mu g level K S F /\
    forall t p a x, mv_accrual m t p = Ok a -> mv_state m p = Ok x ->
      mv_price m t p = Ok (F a x) /\
      exists d, price_gradient m t p = Ok d /\ forall i, (i < bm_dim b)%nat -> partial_deriv (F a) x i (d i).
Proof.
  intros la mu g level K S rows b dt m0 m La N Mr G. destruct (prepared _ _ _ _ _ _ _ _ _ _ _ N La Mr G) as (De & Re & En & Em & Eg & El & EK & ES & _).
  exists (Fm m). split; [rewrite <- En, <- Em, <- Eg, <- El, <- EK, <- ES; apply Fm_term_structure; assumption|].
  intros t p a x Ha Hx. assert (HP : mv_price m t p = Ok (Fm m a x)) by (unfold mv_price, mv_price_coeffs; rewrite Ha; cbn [bind]; rewrite Hx; reflexivity).
  split; [exact HP|]. unfold price_gradient. rewrite HP. cbn [bind]. unfold mv_price_coeffs. rewrite Ha. cbn [bind fst snd]. eexists. split; [reflexivity|]. intros i I. rewrite <- En in I.
  eapply d_eq; [|apply Fm_partial, I]. unfold vscal. ring.
Qed.
Print Assumptions C56_price.

Theorem C56_coefficients : forall la mu g level K S rows b dt m0 m, linalg_ok la -> new_multi la mu g level K S rows b dt = Ok m0 -> mean_reverting (bm_dim b) K -> generated m0 m ->
  exists (A : R -> R) (B : R -> vec), A 0 = 0 /\ (forall i, (i < bm_dim b)%nat -> B 0 i = 0) /\
    (forall t i, (i < bm_dim b)%nat -> derivable_pt_lim (fun t => B t i) t (- sumn (bm_dim b) (fun j => K j i * B t j) - g i)) /\
    (forall t, derivable_pt_lim A t (- mu + sumn (bm_dim b) (fun i => B t i * sumn (bm_dim b) (fun j => K i j * level j))
                                      + / 2 * sumn (bm_dim b) (fun i => sumn (bm_dim b) (fun j => B t i * sumn (bm_dim b) (fun k => S i k * S j k) * B t j)))) /\
    forall t p a, mv_accrual m t p = Ok a -> mv_price_coeffs m t p = Ok (A a, B a).
Proof.
  intros la mu g level K S rows b dt m0 m La N Mr G. destruct (prepared _ _ _ _ _ _ _ _ _ _ _ N La Mr G) as (De & Re & En & Em & Eg & El & EK & ES & _).
  exists (intercept_term m), (coefficient_term m). rewrite <- En, <- Em, <- Eg, <- El, <- EK, <- ES. split; [apply A_zero; assumption|]. split; [intros; apply B_zero; assumption|]. split; [|split].
  - intros t i I. eapply d_eq; [|apply (B_deriv_exp m De Re t i I)]. rewrite (B_riccati m De Re t i I). reflexivity.
  - intros t. eapply d_eq; [|apply (A_deriv m De Re t)]. rewrite (bil _ _ (mv_C m)). unfold mvec, dot. f_equal. f_equal. apply sumn_ext. intros i I. apply sumn_ext. intros j J. rewrite (de_C m De). reflexivity.
  - intros t p a Ha. unfold mv_price_coeffs. rewrite Ha. reflexivity.
Qed.
Print Assumptions C56_coefficients.

(** A bond bought when it matures costs 1: its accrual is 0 under every convention but 30/360. *)
Lemma own_accrual c x : c <> THIRTY360 -> datetime_ok x -> (dt_date x < max_date)%Z -> (2 <= year (dt_date x))%Z -> exists q, compute_accrual_length (Stamp x) (Stamp x) c = Ok q /\ Q2R q = 0.
Proof.
  intros Nc Ox Lx Y. assert (El : elapsed (Stamp x) (Stamp x) = 0%Z) by (unfold elapsed; lia).
  assert (Z0 : forall q, (q == 0)%Q -> Q2R q = 0) by (intros q E; rewrite (Qeq_eqR _ _ E); unfold Q2R; cbn; lra).
  assert (Ac : forall c N, act_basis c = Some N -> exists q, compute_accrual_length (Stamp x) (Stamp x) c = Ok q /\ Q2R q = 0).
  { intros c' N' Hb. destruct (stamp_act_exact c' N' (Stamp x) (Stamp x) Hb Ox Ox Lx Lx ltac:(lia)) as (q & E & V). exists q. split; [exact E|]. apply Z0. rewrite V, El. unfold seconds, Qdiv. cbn. ring. }
  destruct c; try (eapply Ac; reflexivity); [|congruence].
  destruct (stamp_actact (Stamp x) (Stamp x) Ox Ox Lx Lx Y Y ltac:(lia)) as (q & E & V). exists q. split; [exact E|]. apply Z0. rewrite V, aa_error_same by reflexivity. ring.
Qed.
Theorem C56_own_maturity : forall la mu g level K S rows b dt m0 m x v, linalg_ok la -> new_multi la mu g level K S rows b dt = Ok m0 -> mean_reverting (bm_dim b) K -> generated m0 m ->
  bm_dcc b <> THIRTY360 -> datetime_ok x -> (dt_date x < max_date)%Z -> (2 <= year (dt_date x))%Z -> mv_state m (Some x) = Ok v -> mv_price m (Stamp x) (Some x) = Ok 1.
Proof.
  intros la mu g level K S rows b dt m0 m x v La N Mr G Nc Ox Lx Yx Sx. destruct (prepared _ _ _ _ _ _ _ _ _ _ _ N La Mr G) as (De & Re & En & _ & _ & _ & _ & _ & _ & Ed & _).
  destruct (own_accrual (bm_dcc b) x Nc Ox Lx Yx) as (q & E & V). destruct (C56_price _ _ _ _ _ _ _ _ _ _ _ La N Mr G) as (F & [F0 _] & HF).
  assert (A : mv_accrual m (Stamp x) (Some x) = Ok 0) by (unfold mv_accrual, mv_purchase; rewrite Ed, E; cbn [bind]; rewrite V; reflexivity).
  rewrite (proj1 (HF _ _ _ _ A Sx)), F0. reflexivity.
Qed.
Print Assumptions C56_own_maturity.
(** The constructor refuses every model whose matrix, level and diffusion sizes are not that of its Brownian motion, and
    no model of the right sizes: otherwise only numpy's decompositions can fail. *)
Theorem C56_sizes : forall la mu g level K S rows b dt,
  (rows <> (bm_dim b, bm_dim b, bm_dim b) -> new_multi la mu g level K S rows b dt = Err AssertionError) /\
  (rows = (bm_dim b, bm_dim b, bm_dim b) -> new_multi la mu g level K S rows b dt <> Err AssertionError) /\
  (forall lam V W, rows = (bm_dim b, bm_dim b, bm_dim b) -> la_eig la (bm_dim b) K = Some (lam, V) -> la_inv la (bm_dim b) V = Some W -> exists m, new_multi la mu g level K S rows b dt = Ok m).
Proof.
  intros la mu g level K S [[nS nl] nK] b dt. unfold new_multi. split; [|split].
  - intros N. destruct (Nat.eqb_spec (bm_dim b) nS) as [<-|]; [|reflexivity]. destruct (Nat.eqb_spec (bm_dim b) nl) as [<-|]; [|reflexivity]. destruct (Nat.eqb_spec (bm_dim b) nK) as [<-|]; [congruence|reflexivity].
  - intros E. injection E as -> -> ->. rewrite Nat.eqb_refl. cbn [negb andb]. destruct (la_eig la (bm_dim b) K) as [[lam V]|]; [|discriminate]. destruct (la_inv la (bm_dim b) V); discriminate.
  - intros lam V W E Ee Ei. injection E as -> -> ->. rewrite Nat.eqb_refl. cbn [negb andb]. rewrite Ee, Ei. cbn [or_lin bind]. eauto.
Qed.
Print Assumptions C56_sizes.

(** The generated states follow the documented equation dX = K (theta - X) dt + S dW step by step. *)
Theorem C56_path : forall la mu g level K Sg rows b dt m h start draw m' h', linalg_ok la -> new_multi la mu g level K Sg rows b dt = Ok m -> forward dt -> datetime_ok (bm_start b) -> datetime_ok (bm_end b) ->
  (dt_abs (bm_start b) <= dt_abs (bm_end b))%Z -> (start < fresh h)%nat -> mv_generate m h start true draw = (m', h', Ok tt) ->
  exists gr dts states, time_grid (bm_start b) (bm_end b) dt gr /\ List.length states = List.length gr /\ List.length gr = S (List.length dts) /\
    nth_error states 0 = Some (arr h start) /\
    (forall j x y q, nth_error gr j = Some x -> nth_error gr (S j) = Some y -> nth_error dts j = Some q -> compute_accrual_length (Stamp x) (Stamp y) (bm_dcc b) = Ok q) /\
    (forall j q v v' i, nth_error dts j = Some q -> nth_error states j = Some v -> nth_error states (S j) = Some v' -> (i < bm_dim b)%nat ->
       v' i = v i + sumn (bm_dim b) (fun k => K i k * (level k - v k)) * Q2R q + sumn (bm_dim b) (fun k => Sg i k * (sqrt (Q2R q) * sumn (bm_dim b) (fun l => bm_chol b k l * draw j l)))) /\
    (forall j x v, nth_error gr j = Some x -> nth_error states j = Some v -> mv_state m' (Some x) = Ok v /\ sr_call (mv_model m') x = Ok (mu + sumn (bm_dim b) (fun i => g i * v i))).
Proof.
  intros la mu g level K Sg rows b dt m h start draw m' h' La N F Os Oe L St E. destruct (new_multi_inv _ _ _ _ _ _ _ _ _ _ N La) as (_ & _ & _ & _ & _ & _ & _ & _ & Mo).
  unfold mv_generate in E. rewrite Mo in E. set (s := new_short_rate _ _) in *. destruct (sr_generate_path s h start true draw) as [[s' h1] res] eqn:G. injection E as <- <- ->.
  assert (Fs : forward (pr_dt (sr_proc s))) by exact F. pose proof (C52_rates s h start draw s' h1 Fs Os Oe L St G) as (cols & gr & Pc & Tg & Ls & _ & _ & _ & Sp & Hc & _).
  unfold sr_generate_path in G. destruct (pr_generate_path (sr_proc s) h start true draw) as [[p h2] [sol|]] eqn:Gp; [|discriminate].
  destruct (C50_euler _ _ _ _ _ _ _ _ Fs Os Oe L St Gp) as (g' & dts & incs & b' & Gi & Tg' & TG & Ls' & Lg & S0 & Sk & _ & Pp & _). destruct (C50_evaluation _ _ _ _ _ _ _ Fs Os Oe L St Gp) as (g3 & T3 & _ & _ & Hs & _). rewrite Pp in G. injection G as <- <-. cbn [sr_proc] in Pc, Tg. unfold sr_bm in Tg. cbn [sr_proc] in Tg.
  rewrite Pp in Pc. injection Pc as <-. rewrite Tg in Tg'. injection Tg' as <-. rewrite Tg in T3. injection T3 as <-.
  destruct (C48_grid _ _ _ _ _ _ Fs Os Oe L Gi) as (g2 & T2 & _ & _ & _ & _ & Li & Ac & Cl).
  assert (g2 = gr). { clear - Gp Gi T2 Tg. unfold pr_generate_path in Gp. rewrite Gi in Gp. destruct (alloc _ _) as [cur hh]. destruct (euler _ _ _ _ _ _) as [hh2 so]. injection Gp as <- _ _. cbn in Tg. congruence. } subst g2.
  exists gr, dts, sol. split; [exact TG|]. split; [exact Ls|]. split; [exact Lg|]. split; [exact S0|]. split; [exact Ac|]. split.
  - intros j q v v' i Q W W' I. destruct (nth_error incs j) as [z|] eqn:Z; [|apply nth_error_None in Z; assert (j < List.length dts)%nat by (apply nth_error_Some; congruence); lia].
    assert (Hf : nth_error (pr_coll (sr_proc s)) i = Some (constant_pair (bm_dim b) level (K i) (Sg i))).
    { change (pr_coll (sr_proc s)) with (List.map (fun i => constant_pair (bm_dim b) level (K i) (Sg i)) (seq 0 (bm_dim b))). rewrite nth_error_map. rewrite (nth_error_nth' _ 0%nat) by (rewrite seq_length; exact I). rewrite seq_nth by exact I. reflexivity. }
    rewrite (Sk j q z v v' i _ Q Z W W' Hf). cbn [dd_drift dd_diffusion constant_pair]. change (pr_bm (sr_proc s)) with b. unfold dot, vsub. f_equal.
    apply sumn_ext. intros k Hk. f_equal. exact (Cl j q z k Q Z).
  - intros j x v X V. split; [exact (Hs j x v X V)|exact (Hc j x v X V)].
Qed.
Print Assumptions C56_path.

(** ---- C67: yields, forwards and moments ---- *)
(** At or before the purchase yields, their convexities and the average expected short rate raise ValueError; a plain date
    cannot be compared with the purchase time: TypeError. *)
Theorem C67_matured : forall m t p, (dt_abs t <= dt_abs (mv_purchase m p))%Z -> mv_yield m (Stamp t) p = Err ValueError /\
  mv_yield_convexity m (Stamp t) p = Err ValueError /\ mv_average_expected m (Stamp t) p = Err ValueError /\
  (forall d, mv_yield m (Day d) p = Err TypeError /\ mv_yield_convexity m (Day d) p = Err TypeError /\ mv_average_expected m (Day d) p = Err TypeError).
Proof.
  intros m t p L. apply Z.leb_le in L. unfold mv_yield, mv_yield_convexity, mv_average_expected, matures_by, dt_leb. rewrite L. cbn [bind]. repeat split.
Qed.
Print Assumptions C67_matured.

Theorem C67_yield : forall la mu g level K S rows b dt m0 m t p a x, linalg_ok la -> new_multi la mu g level K S rows b dt = Ok m0 -> mean_reverting (bm_dim b) K -> generated m0 m ->
  (dt_leb t (mv_purchase m p) = true -> mv_yield m (Stamp t) p = Err ValueError) /\ (forall d, mv_yield m (Day d) p = Err TypeError) /\
  (dt_leb t (mv_purchase m p) = false -> mv_accrual m (Stamp t) p = Ok a -> a <> 0 -> mv_state m p = Ok x ->
     exists y P, mv_yield m (Stamp t) p = Ok y /\ mv_price m (Stamp t) p = Ok P /\ 0 < P /\ y * a = - ln P).
Proof.
  intros la mu g level K S rows b dt m0 m t p a x La N Mr G. destruct (prepared _ _ _ _ _ _ _ _ _ _ _ N La Mr G) as (De & Re & En & _).
  split; [intros E; unfold mv_yield, matures_by; rewrite E; reflexivity|]. split; [reflexivity|]. intros E Ha A0 Hx. exists (- intercept_term m a / a + dot (mv_n m) (fun i => - coefficient_term m a i / a) x), (Fm m a x).
  split; [|split; [|split]].
  - unfold mv_yield, matures_by. rewrite E. cbn [bind]. rewrite Hx. cbn [bind]. unfold mv_yield_coeffs, mv_price_coeffs. rewrite Ha. cbn [bind fst snd]. reflexivity.
  - unfold mv_price, mv_price_coeffs. rewrite Ha. cbn [bind fst snd]. rewrite Hx. reflexivity.
  - apply exp_pos.
  - unfold Fm. rewrite ln_exp. assert (D : dot (mv_n m) (fun i => - coefficient_term m a i / a) x = - / a * dot (mv_n m) (coefficient_term m a) x) by (rewrite <- dot_scal; unfold dot, vscal; apply sumn_ext; intros; unfold Rdiv; ring).
    rewrite D. field. exact A0.
Qed.
Print Assumptions C67_yield.

(** Moments of the state and of the short rate. *)
Theorem C67_moments : forall la mu g level K S rows b dt m0 m p x, linalg_ok la -> new_multi la mu g level K S rows b dt = Ok m0 -> mean_reverting (bm_dim b) K -> generated m0 m -> mv_state m p = Ok x ->
  exists M I : R -> vec, (forall i, (i < bm_dim b)%nat -> M 0 i = x i /\ I 0 i = 0 /\ forall t, derivable_pt_lim (fun t => M t i) t (sumn (bm_dim b) (fun j => K i j * (level j - M t j))) /\ derivable_pt_lim (fun t => I t i) t (M t i)) /\
    (forall t a, mv_accrual m t p = Ok a -> exists e, expected_state m t p = Ok e /\ (forall i, (i < bm_dim b)%nat -> e i = M a i) /\ mv_expected_short_rate m t p = Ok (mu + sumn (bm_dim b) (fun i => g i * M a i))) /\
    (forall t a, mv_accrual m (Stamp t) p = Ok a -> dt_leb t (mv_purchase m p) = false -> a <> 0 -> mv_average_expected m (Stamp t) p = Ok ((mu * a + sumn (bm_dim b) (fun i => g i * I a i)) / a)).
Proof.
  intros la mu g level K S rows b dt m0 m p x La N Mr G Hx. destruct (prepared _ _ _ _ _ _ _ _ _ _ _ N La Mr G) as (De & Re & En & Em & Eg & El & EK & ES & _ & _ & Ef).
  exists (fun t => mean_at m x t), (fun t => mean_integral m x t). rewrite <- En, <- El, <- EK in *. split; [|split].
  - intros i I. split; [apply mean_zero; assumption|]. split; [apply mean_integral_zero|]. intros t. split; [|apply mean_integral_deriv; assumption]. apply mean_deriv; assumption.
  - intros t a Ha. exists (mean_at m x a). assert (HE : expected_state m t p = Ok (mean_at m x a)) by (unfold expected_state; rewrite Ha; cbn [bind]; rewrite Hx; reflexivity).
    split; [exact HE|]. split; [reflexivity|]. unfold mv_expected_short_rate. rewrite HE. cbn [bind]. rewrite Ef. reflexivity.
  - intros t a Ha Ht A0. unfold mv_average_expected, matures_by. rewrite Ht. cbn [bind]. rewrite Ha. cbn [bind]. rewrite Hx. cbn [bind]. rewrite Ef. unfold affine_function. f_equal.
    replace ((mu * a + sumn (mv_n m) (fun i => g i * mean_integral m x a i)) / a) with (mu + sumn (mv_n m) (fun i => g i * (mean_integral m x a i / a))).
    + f_equal. apply sumn_ext. intros i I. f_equal. apply (average_value m Re x a i I A0).
    + rewrite (sumn_ext _ _ (fun i => g i * mean_integral m x a i * / a)) by (intros; unfold Rdiv; ring). rewrite sumn_scal_r. field. exact A0.
Qed.
Print Assumptions C67_moments.

Lemma quad_C m y : decomposed m -> dot (mv_n m) y (mvec (mv_n m) (mv_C m) y) = sumn (mv_n m) (fun k => mvec (mv_n m) (tr (mv_S m)) y k * mvec (mv_n m) (tr (mv_S m)) y k).
Proof.
  intros De. rewrite (de_C m De). rewrite (dot_ext _ y (mvec _ (mmul _ (mv_S m) (tr (mv_S m))) y) y (mvec (mv_n m) (mv_S m) (mvec (mv_n m) (tr (mv_S m)) y))) by (intros; try reflexivity; apply mvec_mmul). rewrite <- tr_dot. reflexivity.
Qed.
Lemma quad_C_nonneg m y : decomposed m -> 0 <= dot (mv_n m) y (mvec (mv_n m) (mv_C m) y).
Proof. intros De. rewrite quad_C by exact De. apply sumn_nonneg. intros. apply Rle_0_sqr. Qed.

Lemma mvec_vsub_dot n y A u v : dot n y (mvec n A (vsub u v)) = dot n y (mvec n A u) - dot n y (mvec n A v).
Proof. rewrite <- dot_vsub. apply dot_ext; [reflexivity|]. intros. apply mvec_vsub. Qed.
(** log price plus the integral of the expected short rate: its derivative is half the variance of the log price *)
Lemma jensen_deriv m x t : decomposed m -> regular m ->
  derivable_pt_lim (fun t => intercept_term m t + dot (mv_n m) (coefficient_term m t) x + (mv_mu m * t + sumn (mv_n m) (fun i => mv_g m i * mean_integral m x t i))) t (/ 2 * dot (mv_n m) (coefficient_term m t) (mvec (mv_n m) (mv_C m) (coefficient_term m t))).
Proof.
  intros De Re. set (n := mv_n m). set (B := coefficient_term m t).
  apply (d_eq _ _ (- mv_mu m + dot n B (mvec n (mv_K m) (mv_level m)) + / 2 * dot n B (mvec n (mv_C m) B) + dot n (fun i => - mvec n (tr (mv_K m)) B i - mv_g m i) x + (mv_mu m + sumn n (fun i => mv_g m i * mean_at m x t i)))).
  - assert (E : dot n B (mvec n (mv_K m) (mv_level m)) + dot n (fun i => - mvec n (tr (mv_K m)) B i - mv_g m i) x + sumn n (fun i => mv_g m i * mean_at m x t i) = 0); [|lra].
    assert (E1 : dot n (fun i => - mvec n (tr (mv_K m)) B i - mv_g m i) x = - dot n B (mvec n (mv_K m) x) - dot n (mv_g m) x).
    { rewrite <- tr_dot. unfold dot. rewrite <- sumn_opp, <- sumn_minus. apply sumn_ext. intros. ring. }
    set (z := mvec n (mv_Vi m) (vsub x (mv_level m))).
    assert (E2 : dot n B (mvec n (mv_K m) (vsub x (mv_level m))) = dot n (bk m t) (fun k => mv_lam m k * z k)).
    { rewrite (dot_ext n B (mvec n (mv_K m) (vsub x (mv_level m))) (mvec n (tr (mv_Vi m)) (bk m t)) (mvec n (mv_V m) (fun k => mv_lam m k * z k)) (fun i I => B_value m De Re t i I) (fun i I => K_mvec m De _ i I)). apply cancel_dot, De. }
    assert (E3 : dot n (mv_g m) (vsub (mean_at m x t) x) = dot n (gam m) (fun k => (exp (- mv_lam m k * t) - 1) * z k)).
    { rewrite (dot_ext n (mv_g m) _ (mv_g m) (mvec n (mv_V m) (fun k => (exp (- mv_lam m k * t) - 1) * z k))).
      - rewrite <- tr_dot. reflexivity.
      - reflexivity.
      - intros i I. unfold vsub at 1. rewrite mean_value by assumption. fold n z. assert (Zi : x i - mv_level m i = mvec n (mv_V m) z i) by (symmetry; apply (inverse_mvec n (mv_V m) (mv_Vi m) (vsub x (mv_level m)) i (de_r m De) I)).
        rewrite (mvec_ext n (mv_V m) (fun k => (exp (- mv_lam m k * t) - 1) * z k) (vsub (fun k => exp (- mv_lam m k * t) * z k) z)) by (intros; unfold vsub; ring). rewrite mvec_vsub, <- Zi. ring. }
    rewrite E1. rewrite mvec_vsub_dot in E2. rewrite dot_vsub in E3. change (sumn n (fun i => mv_g m i * mean_at m x t i)) with (dot n (mv_g m) (mean_at m x t)).
    assert (E4 : dot n (gam m) (fun k => (exp (- mv_lam m k * t) - 1) * z k) = dot n (bk m t) (fun k => mv_lam m k * z k)).
    { apply sumn_ext. intros k Hk. unfold bk, Dk. field. apply (proj1 Re k Hk). }
    lra.
  - apply d_plus; [apply d_plus|apply d_plus].
    + apply A_deriv; assumption.
    + apply (sumn_deriv n (fun i t => coefficient_term m t i * x i) (fun i t => (- mvec n (tr (mv_K m)) (coefficient_term m t) i - mv_g m i) * x i)). intros i I.
      eapply d_eq; [|apply (d_mult (fun t => coefficient_term m t i) (fun _ => x i)); [apply B_deriv_exp; assumption|apply d_const]]. pose proof (B_riccati m De Re t i I) as Rc. fold n in Rc |- *. rewrite Rc. ring.
    + apply d_lin.
    + apply (sumn_deriv n (fun i t => mv_g m i * mean_integral m x t i) (fun i t => mv_g m i * mean_at m x t i)). intros i I. apply d_scal, mean_integral_deriv; assumption.
Qed.
Theorem C67_convexity : forall la mu g level K S rows b dt m0 m t p a x, linalg_ok la -> new_multi la mu g level K S rows b dt = Ok m0 -> mean_reverting (bm_dim b) K -> generated m0 m ->
  dt_leb t (mv_purchase m p) = false -> mv_accrual m (Stamp t) p = Ok a -> 0 < a -> mv_state m p = Ok x ->
  exists c y e, mv_yield_convexity m (Stamp t) p = Ok c /\ mv_yield m (Stamp t) p = Ok y /\ mv_average_expected m (Stamp t) p = Ok e /\ c = y - e /\ c <= 0.
Proof.
  intros la mu g level K S rows b dt m0 m t p a x La N Mr G Ht Ha A0 Hx. destruct (prepared _ _ _ _ _ _ _ _ _ _ _ N La Mr G) as (De & Re & En & Em & Eg & El & EK & ES & _ & _ & Ef).
  destruct (proj2 (proj2 (C67_yield _ _ _ _ _ _ _ _ _ _ _ t p a x La N Mr G)) Ht Ha ltac:(lra) Hx) as (y & P & Hy & HP & P0 & Yv).
  destruct (C67_moments _ _ _ _ _ _ _ _ _ _ _ p x La N Mr G Hx) as (_ & _ & _). 
  assert (He : mv_average_expected m (Stamp t) p = Ok ((mv_mu m * a + sumn (mv_n m) (fun i => mv_g m i * mean_integral m x a i)) / a)).
  { unfold mv_average_expected, matures_by. rewrite Ht. cbn [bind]. rewrite Ha. cbn [bind]. rewrite Hx. cbn [bind]. rewrite Ef, Em, Eg, <- En. unfold affine_function. f_equal.
    replace ((mu * a + sumn (mv_n m) (fun i => g i * mean_integral m x a i)) / a) with (mu + sumn (mv_n m) (fun i => g i * (mean_integral m x a i / a))).
    + f_equal. apply sumn_ext. intros i I. f_equal. apply (average_value m Re x a i I ltac:(lra)).
    + rewrite (sumn_ext _ _ (fun i => g i * mean_integral m x a i * / a)) by (intros; unfold Rdiv; ring). rewrite sumn_scal_r. field. lra. }
  eexists _, y, _. split; [unfold mv_yield_convexity, matures_by; rewrite Ht; cbn [bind]; rewrite Hy, He; reflexivity|]. split; [exact Hy|]. split; [exact He|]. split; [reflexivity|].
  set (h := fun t => intercept_term m t + dot (mv_n m) (coefficient_term m t) x + (mv_mu m * t + sumn (mv_n m) (fun i => mv_g m i * mean_integral m x t i))).
  assert (H0 : h 0 = 0).
  { unfold h. rewrite A_zero by assumption. unfold dot. rewrite !sumn_zero; [ring| |]; intros i I; [rewrite mean_integral_zero|rewrite B_zero by assumption]; ring. }
  destruct (MVT_cor2 h (fun t => / 2 * dot (mv_n m) (coefficient_term m t) (mvec (mv_n m) (mv_C m) (coefficient_term m t))) 0 a A0 (fun c _ => jensen_deriv m x c De Re)) as (c & E & _).
  pose proof (quad_C_nonneg m (coefficient_term m c) De) as Q. assert (Hp : 0 <= h a) by (rewrite H0 in E; nra).
  assert (HPv : P = Fm m a x) by (unfold mv_price, mv_price_coeffs in HP; rewrite Ha in HP; cbn [bind fst snd] in HP; rewrite Hx in HP; injection HP as <-; reflexivity).
  rewrite HPv in Yv. unfold Fm in Yv. rewrite ln_exp in Yv. apply (Rmult_le_reg_r a); [exact A0|]. rewrite Rmult_minus_distr_r, Yv. unfold h in Hp. unfold Rdiv. rewrite Rmult_assoc, Rinv_l by lra. lra.
Qed.
Print Assumptions C67_convexity.
