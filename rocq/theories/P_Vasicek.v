(** One-factor Vasicek model: C53-C55, C66. *)
From Verif Require Import Base PyDate PyDateFacts DayCount DayCountFacts PyList KeyRate Curve CurveFacts Loan P_DayCount RVec Deriv Stochastic StochasticFacts P_Stochastic ShortRate P_ShortRate Vasicek.
From Coq Require Import Reals Lra.
Open Scope R_scope.

(** ---- specification: the Vasicek bond price as a function of time to maturity and rate ---- *)
(** F(tau, r) is 1 at tau = 0 and solves dF/dtau = sigma^2/2 F_rr + k (theta - r) F_r - r F for all tau and r. *)
Definition solves_bond_equation (theta k sigma : R) (F : R -> R -> R) : Prop :=
  (forall r, F 0 r = 1) /\
  forall tau r, exists Fr Ft Frr, (forall x, derivable_pt_lim (F tau) x (Fr x)) /\ derivable_pt_lim Fr r Frr /\ derivable_pt_lim (fun t => F t r) tau Ft /\
    Ft = sigma * sigma / 2 * Frr + k * (theta - r) * Fr r - r * F tau r.

(** the model's own parameters are those its constructor was given *)
Definition constructed (v : vasicek) : Prop := va_limit v = - va_vol v * va_vol v / (2 * (va_speed v * va_speed v)) /\ va_speed v <> 0.
Lemma new_vasicek_ok level speed vol b dt v : new_vasicek level speed vol b dt = Ok v -> constructed v /\ va_mean v = level /\ va_speed v = speed /\ va_vol v = vol.
Proof.
  unfold new_vasicek, fdiv. destruct (Req_EM_T _ _) as [E|E]; [discriminate|]. cbn [bind]. intros [= <-]. unfold constructed. cbn. repeat split. intros ->. apply E. ring.
Qed.
Theorem C53_zero_speed : forall level speed vol b dt, speed = 0 -> new_vasicek level speed vol b dt = Err ZeroDivisionError.
Proof. intros. subst. unfold new_vasicek, fdiv. destruct (Req_EM_T _ _) as [E|E]; [reflexivity|]. exfalso. apply E. ring. Qed.
Print Assumptions C53_zero_speed.

Section Coefficients.
Context (theta k sigma : R).
Definition coefB (t : R) : R := - (1 - exp (- k * t)) / k.
Definition coefA (t : R) : R := - ((theta + - sigma * sigma / (2 * (k * k))) * (coefB t + t)) - sigma * sigma / (4 * k) * (coefB t * coefB t).

Lemma coefB_deriv t : k <> 0 -> derivable_pt_lim coefB t (- exp (- k * t)).
Proof.
  intros K. apply (d_fun (fun t => / k * exp (- k * t) - / k)); [intros x; unfold coefB; field; exact K|].
  apply (d_eq _ _ (/ k * (- k * exp (- k * t)) - 0)); [field; exact K|]. apply d_minus; [|apply d_const].
  apply d_scal. apply d_exp.
Qed.
Lemma coefA_deriv t : k <> 0 -> derivable_pt_lim coefA t (k * theta * coefB t + sigma * sigma / 2 * (coefB t * coefB t)).
Proof.
  intros K. pose proof (coefB_deriv t K) as D. set (c := theta + - sigma * sigma / (2 * (k * k))). set (d := sigma * sigma / (4 * k)).
  apply (d_fun (fun t => - c * (coefB t + t) - d * (coefB t * coefB t))); [intros x; unfold coefA; fold c; fold d; ring|].
  apply (d_eq _ _ (- c * (- exp (- k * t) + 1) - d * (- exp (- k * t) * coefB t + coefB t * - exp (- k * t)))).
  - unfold c, d, coefB. field. exact K.
  - apply d_minus.
    + apply d_scal. apply d_plus; [exact D|apply d_id].
    + apply d_scal. apply (d_mult coefB coefB); exact D.
Qed.
Lemma coef_0 : k <> 0 -> coefA 0 = 0 /\ coefB 0 = 0.
Proof. intros K. assert (B : coefB 0 = 0) by (unfold coefB; rewrite Rmult_0_r, exp_0; field; exact K). split; [|exact B]. unfold coefA. rewrite B. ring. Qed.

Lemma bond_equation : k <> 0 -> solves_bond_equation theta k sigma (fun t r => exp (coefA t + coefB t * r)).
Proof.
  intros K. destruct (coef_0 K) as [A0 B0]. split; [intros r; rewrite A0, B0, Rmult_0_l, Rplus_0_l; apply exp_0|].
  intros t r. set (P := fun x => exp (coefA t + coefB t * x)). exists (fun x => coefB t * P x).
  exists ((k * theta * coefB t + sigma * sigma / 2 * (coefB t * coefB t) + - exp (- k * t) * r) * P r), (coefB t * (coefB t * P r)).
  split; [intros x; apply d_exp_affine|]. split; [apply d_scal, d_exp_affine|]. split.
  - assert (D : derivable_pt_lim (fun t => coefA t + coefB t * r) t (k * theta * coefB t + sigma * sigma / 2 * (coefB t * coefB t) + - exp (- k * t) * r)).
    { apply d_plus; [apply coefA_deriv, K|]. apply (d_eq _ _ (- exp (- k * t) * r + coefB t * 0)); [ring|]. apply (d_mult coefB (fun _ => r)); [apply coefB_deriv, K|apply d_const]. }
    exact (d_exp_of _ _ _ D).
  - assert (E : - exp (- k * t) = - (k * coefB t) - 1) by (unfold coefB; field; exact K). rewrite E. cbv beta. fold (P r). field.
Qed.
End Coefficients.

Lemma fdiv_ok a b : b <> 0 -> fdiv a b = Ok (a / b).
Proof. intros N. unfold fdiv. destruct (Req_EM_T b 0); [contradiction|reflexivity]. Qed.

Lemma price_coeffs_value v m p a : constructed v -> va_accrual v m p = Ok a ->
  price_coeffs v m p = Ok (coefA (va_mean v) (va_speed v) (va_vol v) a, coefB (va_speed v) a).
Proof.
  intros [L K] A. unfold price_coeffs. rewrite A. cbn [bind]. repeat (rewrite fdiv_ok by lra; cbn [bind]). unfold coefA. rewrite L. reflexivity.
Qed.

(** The price of a zero-coupon bond is a solution of the Vasicek bond equation, evaluated at the accrual from the model's
    START and the rate at the purchase time. *)
Theorem C53_price : forall theta k sigma b dt v0 v, new_vasicek theta k sigma b dt = Ok v0 ->
  va_mean v = va_mean v0 -> va_speed v = va_speed v0 -> va_vol v = va_vol v0 -> va_limit v = va_limit v0 ->
  exists F, solves_bond_equation theta k sigma F /\
    forall m p a r, va_accrual v m None = Ok a -> va_rate v p = Ok r -> zero_coupon_bond_price v m p = Ok (F a r).
Proof.
  intros theta k sigma b dt v0 v N E1 E2 E3 E4. destruct (new_vasicek_ok _ _ _ _ _ _ N) as ([L K] & <- & <- & <-).
  assert (Cv : constructed v) by (split; rewrite ?E1, ?E2, ?E3, ?E4; auto). rewrite <- E1, <- E2, <- E3 in *.
  exists (fun t r => exp (coefA (va_mean v) (va_speed v) (va_vol v) t + coefB (va_speed v) t * r)). split; [apply bond_equation, K|].
  intros m p a r A R. unfold zero_coupon_bond_price. rewrite (price_coeffs_value v m None a Cv A). cbn [bind]. rewrite R. reflexivity.
Qed.
Print Assumptions C53_price.

(** The coefficients solve the Riccati equations and the reported derivatives are their derivatives in the maturity. *)
Theorem C53_coefficients : forall theta k sigma b dt v, new_vasicek theta k sigma b dt = Ok v ->
  exists A B : R -> R, A 0 = 0 /\ B 0 = 0 /\
    (forall t, derivable_pt_lim B t (- k * B t - 1)) /\ (forall t, derivable_pt_lim A t (k * theta * B t + sigma * sigma / 2 * (B t * B t))) /\
    forall m p a, va_accrual v m p = Ok a -> price_coeffs v m p = Ok (A a, B a) /\
      exists a' b', price_coeff_derivs v m p = Ok (a', b') /\ derivable_pt_lim A a a' /\ derivable_pt_lim B a b'.
Proof.
  intros theta k sigma b dt v N. destruct (new_vasicek_ok _ _ _ _ _ _ N) as (Cv & <- & <- & <-). pose proof Cv as [L K].
  set (th := va_mean v) in *. set (k := va_speed v) in *. set (s := va_vol v) in *. exists (coefA th k s), (coefB k). destruct (coef_0 th k s K) as [A0 B0].
  split; [exact A0|]. split; [exact B0|]. split; [intros t; eapply d_eq; [|apply (coefB_deriv k t K)]; unfold coefB; field; exact K|]. split; [intros t; apply coefA_deriv, K|].
  intros m p a A. split; [apply price_coeffs_value; auto|]. unfold price_coeff_derivs. rewrite A. cbn [bind]. fold k. eexists _, _. split; [reflexivity|]. split; [|apply coefB_deriv, K].
  eapply d_eq; [|apply (coefA_deriv th k s a K)]. fold th. rewrite L. fold s k. unfold coefB. field. exact K.
Qed.
Print Assumptions C53_coefficients.

(** ---- C54 ---- *)
(** Yield times the time to maturity (from the start) is minus the logarithm of the price. *)
Theorem C54_yield : forall theta k sigma b dt v0 v m p a, new_vasicek theta k sigma b dt = Ok v0 ->
  va_mean v = va_mean v0 -> va_speed v = va_speed v0 -> va_vol v = va_vol v0 -> va_limit v = va_limit v0 ->
  va_accrual v m None = Ok a ->
  (forall r, va_rate v p = Ok r -> a <> 0 -> exists y P, zero_coupon_yield v m p = Ok y /\ zero_coupon_bond_price v m p = Ok P /\ 0 < P /\ y * a = - ln P) /\
  (a = 0 -> zero_coupon_yield v m p = Err ZeroDivisionError).
Proof.
  intros theta k sigma b dt v0 v m p a N E1 E2 E3 E4 A. destruct (new_vasicek_ok _ _ _ _ _ _ N) as ([L K] & <- & <- & <-).
  assert (Cv : constructed v) by (split; rewrite ?E1, ?E2, ?E3, ?E4; auto). pose proof Cv as [L' K'].
  assert (Y : zero_coupon_yield v m p = (do i <- fdiv (- coefA (va_mean v) (va_speed v) (va_vol v) a) a; do c <- fdiv (- coefB (va_speed v) a) a; do r <- va_rate v p; Ok (i + c * r))).
  { unfold zero_coupon_yield, yield_coeffs. rewrite A. cbn [bind]. rewrite !(fdiv_ok _ (va_speed v)) by lra. cbn [bind]. rewrite !(fdiv_ok _ (4 * va_speed v)) by lra. cbn [bind].
    change (- (1 - exp (- va_speed v * a)) / va_speed v) with (coefB (va_speed v) a). rewrite L'.
    replace (- coefA (va_mean v) (va_speed v) (va_vol v) a) with ((va_mean v + - va_vol v * va_vol v / (2 * (va_speed v * va_speed v))) * (coefB (va_speed v) a + a) + va_vol v * va_vol v / (4 * va_speed v) * (coefB (va_speed v) a * coefB (va_speed v) a)) by (unfold coefA; ring).
    destruct (fdiv _ a) as [i|]; [|reflexivity]. cbn [bind]. destruct (fdiv _ a) as [c|]; reflexivity. }
  split.
  - intros r R Na. rewrite Y, !fdiv_ok by exact Na. cbn [bind]. rewrite R. cbn [bind]. eexists _, _. split; [reflexivity|].
    unfold zero_coupon_bond_price. rewrite (price_coeffs_value v m None a Cv A). cbn [bind]. rewrite R. cbn [bind fst snd]. split; [reflexivity|]. split; [apply exp_pos|]. rewrite ln_exp. field. exact Na.
  - intros ->. rewrite Y. unfold fdiv at 1. destruct (Req_EM_T 0 0); [reflexivity|lra].
Qed.
Print Assumptions C54_yield.

(** The instantaneous forward rate is minus the derivative, in the maturity, of the logarithm of the price of the bond
    bought at p (whose coefficients are those for the accrual from p), for any purchase time; when p is the start this is
    the price the model reports. *)
Theorem C54_forward : forall theta k sigma b dt v0 v p r, new_vasicek theta k sigma b dt = Ok v0 ->
  va_mean v = va_mean v0 -> va_speed v = va_speed v0 -> va_vol v = va_vol v0 -> va_limit v = va_limit v0 ->
  sr_path (va_model v) <> None -> va_rate v p = Ok r ->
  exists F, solves_bond_equation theta k sigma F /\
    (forall m a, va_accrual v m p = Ok a -> exists f, instantaneous_forward_rate v m p = Ok f /\ derivable_pt_lim (fun t => - ln (F t r)) a f) /\
    (p = None -> forall m a, va_accrual v m p = Ok a -> zero_coupon_bond_price v m p = Ok (F a r)).
Proof.
  intros theta k sigma b dt v0 v p r N E1 E2 E3 E4 P R. destruct (new_vasicek_ok _ _ _ _ _ _ N) as ([L K] & <- & <- & <-).
  assert (Cv : constructed v) by (split; rewrite ?E1, ?E2, ?E3, ?E4; auto). pose proof Cv as [L' K']. rewrite <- E1, <- E2, <- E3 in *. clear E1 E2 E3 E4 L N v0.
  set (th := va_mean v) in *. set (k := va_speed v) in *. set (s := va_vol v) in *.
  exists (fun t r => exp (coefA th k s t + coefB k t * r)). split; [apply bond_equation, K|]. split.
  - intros m a A. unfold instantaneous_forward_rate. destruct (sr_path (va_model v)); [|contradiction]. rewrite R. cbn [bind]. unfold price_coeff_derivs. rewrite A. cbn [bind fst snd]. eexists. split; [reflexivity|].
    apply (d_fun (fun t => - (coefA th k s t + coefB k t * r))); [intros t; rewrite ln_exp; reflexivity|].
    eapply d_eq; [|apply d_opp; apply d_plus; [apply (coefA_deriv th k s a K)|apply (d_mult (coefB k) (fun _ => r)); [apply (coefB_deriv k a K)|apply d_const]]].
    fold th k. rewrite L'. fold s k. unfold coefB, fct_cte. field. exact K.
  - intros -> m a A. unfold zero_coupon_bond_price. rewrite (price_coeffs_value v m None a Cv A). cbn [bind]. rewrite R. reflexivity.
Qed.
Print Assumptions C54_forward.

(** 2u + u^2 - 2x with u = 1 - e^-x is decreasing and 0 at 0 *)
Lemma convexity_sign x : 0 < x -> 2 * (1 - exp (- x)) + (1 - exp (- x)) * (1 - exp (- x)) - 2 * x < 0.
Proof.
  intros X. set (g := fun x => 2 * (1 - exp (- x)) + (1 - exp (- x)) * (1 - exp (- x)) - 2 * x).
  assert (D : forall t, derivable_pt_lim g t (- 2 * ((1 - exp (- t)) * (1 - exp (- t))))).
  { intros t. assert (E : derivable_pt_lim (fun t => 1 - exp (- t)) t (exp (- t))).
    { apply (d_fun (fun t => 1 - exp (-1 * t))); [intros y; replace (-1 * y) with (- y) by ring; reflexivity|]. apply (d_eq _ _ (0 - -1 * exp (-1 * t))); [replace (-1 * t) with (- t) by ring; ring|].
      apply d_minus; [apply d_const|apply d_exp]. }
    apply (d_eq _ _ (2 * exp (- t) + (exp (- t) * (1 - exp (- t)) + (1 - exp (- t)) * exp (- t)) - 2 * 1)); [ring|]. unfold g.
    apply (d_minus (fun t => 2 * (1 - exp (- t)) + (1 - exp (- t)) * (1 - exp (- t))) (fun t => 2 * t)); [|apply d_scal, d_id].
    apply (d_plus (fun t => 2 * (1 - exp (- t))) (fun t => (1 - exp (- t)) * (1 - exp (- t)))); [apply d_scal; exact E|]. apply (d_mult (fun t => 1 - exp (- t)) (fun t => 1 - exp (- t))); exact E. }
  assert (G0 : g 0 = 0) by (unfold g; rewrite Ropp_0, exp_0; ring).
  destruct (MVT_cor2 g (fun t => - 2 * ((1 - exp (- t)) * (1 - exp (- t)))) 0 x X (fun c _ => D c)) as (c & E & [C1 C2]).
  fold (g x). rewrite G0 in E. assert (P : 0 < 1 - exp (- c)) by (pose proof (exp_increasing (- c) 0 ltac:(lra)); rewrite exp_0 in *; lra).
  assert (0 < (1 - exp (- c)) * (1 - exp (- c)) * x) by (apply Rmult_lt_0_compat; [apply Rmult_lt_0_compat|]; lra). lra.
Qed.
Lemma convexity_sign_neg x : x < 0 -> 0 < 2 * (1 - exp (- x)) + (1 - exp (- x)) * (1 - exp (- x)) - 2 * x.
Proof.
  intros X. set (g := fun x => 2 * (1 - exp (- x)) + (1 - exp (- x)) * (1 - exp (- x)) - 2 * x).
  assert (D : forall t, derivable_pt_lim g t (- 2 * ((1 - exp (- t)) * (1 - exp (- t))))).
  { intros t. assert (E : derivable_pt_lim (fun t => 1 - exp (- t)) t (exp (- t))).
    { apply (d_fun (fun t => 1 - exp (-1 * t))); [intros y; replace (-1 * y) with (- y) by ring; reflexivity|]. apply (d_eq _ _ (0 - -1 * exp (-1 * t))); [replace (-1 * t) with (- t) by ring; ring|].
      apply d_minus; [apply d_const|apply d_exp]. }
    apply (d_eq _ _ (2 * exp (- t) + (exp (- t) * (1 - exp (- t)) + (1 - exp (- t)) * exp (- t)) - 2 * 1)); [ring|]. unfold g.
    apply (d_minus (fun t => 2 * (1 - exp (- t)) + (1 - exp (- t)) * (1 - exp (- t))) (fun t => 2 * t)); [|apply d_scal, d_id].
    apply (d_plus (fun t => 2 * (1 - exp (- t))) (fun t => (1 - exp (- t)) * (1 - exp (- t)))); [apply d_scal; exact E|]. apply (d_mult (fun t => 1 - exp (- t)) (fun t => 1 - exp (- t))); exact E. }
  assert (G0 : g 0 = 0) by (unfold g; rewrite Ropp_0, exp_0; ring).
  destruct (MVT_cor2 g (fun t => - 2 * ((1 - exp (- t)) * (1 - exp (- t)))) x 0 X (fun c _ => D c)) as (c & E & [C1 C2]).
  fold (g x). rewrite G0 in E. assert (P : 1 - exp (- c) < 0) by (pose proof (exp_increasing 0 (- c) ltac:(lra)); rewrite exp_0 in *; lra).
  assert (0 < (1 - exp (- c)) * (1 - exp (- c)) * (- x)) by (apply Rmult_lt_0_compat; [|lra]; replace ((1 - exp (- c)) * (1 - exp (- c))) with ((- (1 - exp (- c))) * (- (1 - exp (- c)))) by ring; apply Rmult_lt_0_compat; lra). lra.
Qed.

(** The reported yield convexity is the yield minus the average expected rate; it is never positive, and zero exactly when
    the volatility is. *)
Theorem C54_convexity : forall theta k sigma b dt v0 v m a r, new_vasicek theta k sigma b dt = Ok v0 ->
  va_mean v = va_mean v0 -> va_speed v = va_speed v0 -> va_vol v = va_vol v0 -> va_limit v = va_limit v0 ->
  va_accrual v m None = Ok a -> 0 < a -> va_rate v None = Ok r ->
  exists c y e, yield_convexity v m = Ok c /\ zero_coupon_yield v m None = Ok y /\ average_expected_short_rate v m None = Ok e /\ c = y - e /\ c <= 0 /\ (c = 0 <-> sigma = 0).
Proof.
  intros theta k sigma b dt v0 v m a r N E1 E2 E3 E4 A Pa R. destruct (new_vasicek_ok _ _ _ _ _ _ N) as ([L K] & <- & <- & <-).
  assert (Cv : constructed v) by (split; rewrite ?E1, ?E2, ?E3, ?E4; auto). pose proof Cv as [L' K'].
  destruct (C54_yield _ _ _ _ _ v0 v m None a N E1 E2 E3 E4 A) as [Hy _]. destruct (Hy r R ltac:(lra)) as (y & P & Y & HP & _ & Ey). rewrite <- E1, <- E2, <- E3 in *. clear Hy L N E4.
  unfold zero_coupon_bond_price in HP. rewrite (price_coeffs_value v m None a Cv A), R in HP. cbn [bind fst snd] in HP. injection HP as <-. rewrite ln_exp in Ey.
  unfold yield_convexity, average_expected_short_rate. rewrite A, R, (price_coeffs_value v m None a Cv A). cbn [bind fst snd]. rewrite !fdiv_ok by (try (apply Rmult_integral_contrapositive_currified); try (apply Rmult_integral_contrapositive_currified); lra). cbn [bind].
  
  set (th := va_mean v) in *. set (k := va_speed v) in *. set (s := va_vol v) in *.
  assert (Yv : y = - (coefA th k s a + coefB k a * r) / a) by (apply (Rmult_eq_reg_r a); [|lra]; rewrite Ey; field; lra).
  eexists _, y, _. split; [reflexivity|]. split; [exact Y|]. split; [reflexivity|]. split; [rewrite Yv; unfold coefA; field; split; first [exact K' | lra]|].
  set (x := k * a). set (u := 1 - exp (- x)).
  assert (V : s * s / a * ((- coefB k a - a) / (2 * (k * k)) + coefB k a * coefB k a / (4 * k)) = s * s / a * ((2 * u + u * u - 2 * x) / (4 * (k * k * k)))).
  { unfold coefB. replace (- k * a) with (- x) by (unfold x; ring). fold u. unfold x. field. split; first [exact K' | lra]. }
  assert (S : (2 * u + u * u - 2 * x) / (4 * (k * k * k)) < 0).
  { destruct (Rtotal_order k 0) as [Kn|[Kz|Kp]]; [|contradiction|].
    - assert (X : x < 0) by (unfold x; nra). pose proof (convexity_sign_neg x X) as H. fold u in H. assert (Hkk : 0 < k * k) by nra; assert (H2 : 4 * (k * k * k) < 0) by nra.
      replace ((2 * u + u * u - 2 * x) / (4 * (k * k * k))) with (- ((2 * u + u * u - 2 * x) / - (4 * (k * k * k)))) by (field; exact K'). apply Ropp_lt_gt_0_contravar. apply Rlt_gt. apply Rdiv_lt_0_compat; lra.
    - assert (X : 0 < x) by (unfold x; nra). pose proof (convexity_sign x X) as H. fold u in H. assert (H2 : 0 < 4 * (k * k * k)) by (apply Rmult_lt_0_compat; [lra|]; apply Rmult_lt_0_compat; nra).
      replace ((2 * u + u * u - 2 * x) / (4 * (k * k * k))) with (- (- (2 * u + u * u - 2 * x) / (4 * (k * k * k)))) by (field; exact K'). apply Ropp_lt_gt_0_contravar. apply Rlt_gt. apply Rdiv_lt_0_compat; lra. }
  rewrite V. set (q := (2 * u + u * u - 2 * x) / (4 * (k * k * k))) in *. assert (Sq : 0 <= s * s / a) by (apply Rmult_le_pos; [nra|apply Rlt_le, Rinv_0_lt_compat, Pa]).
  split; [nra|]. split; [|intros ->; unfold Rdiv; ring]. intros Z. apply Rmult_integral in Z. destruct Z as [Z|Z]; [|lra].
  assert (s * s = 0) by (apply (Rmult_eq_reg_r (/ a)); [rewrite Rmult_0_l; exact Z|apply Rinv_neq_0_compat; lra]). nra.
Qed.
Print Assumptions C54_convexity.

(** Yield volatility is sigma times the sensitivity of the yield to the rate, the forward volatility sigma times that of
    the forward rate, and the price convexity minus half sigma^2 times the second derivative of the price. *)
Theorem C54_volatilities : forall theta k sigma b dt v m a, new_vasicek theta k sigma b dt = Ok v -> va_accrual v (Stamp m) None = Ok a -> 0 < a ->
  exists Y f, (forall p r, va_rate v p = Ok r -> zero_coupon_yield v (Stamp m) p = Ok (Y r)) /\ (forall r, derivable_pt_lim Y r f) /\ yield_volatility v (Stamp m) = Ok (sigma * f) /\
   (forall p a', va_accrual v (Stamp m) p = Ok a' -> exists G g, (forall r, va_rate v p = Ok r -> sr_path (va_model v) <> None -> instantaneous_forward_rate v (Stamp m) p = Ok (G r)) /\ (forall r, derivable_pt_lim G r g) /\ forward_rate_volatility v (Stamp m) p = Ok (sigma * g)) /\
   (forall r, va_rate v None = Ok r -> (dt_abs (va_start v) < dt_abs m)%Z -> exists P Pr Prr c, zero_coupon_bond_price v (Stamp m) None = Ok (P r) /\ (forall x, derivable_pt_lim P x (Pr x)) /\ derivable_pt_lim Pr r Prr /\ price_convexities v [m] None = Ok [c] /\ c = - (sigma * sigma) / 2 * Prr).
Proof.
  intros theta k sigma b dt v m a N A Pa. destruct (new_vasicek_ok _ _ _ _ _ _ N) as (Cv & <- & <- & <-). pose proof Cv as [L K].
  assert (lin : forall i c r, derivable_pt_lim (fun r => i + c * r) r c).
  { intros i c r. apply (d_eq _ _ (0 + c * 1)); [ring|]. apply d_plus; [apply d_const|apply d_scal, d_id]. }
  exists (fun r => - coefA (va_mean v) (va_speed v) (va_vol v) a / a + - coefB (va_speed v) a / a * r), (- coefB (va_speed v) a / a).
  split.
  { intros p r R. destruct (C54_yield _ _ _ _ _ v v (Stamp m) p a N eq_refl eq_refl eq_refl eq_refl A) as [H _]. destruct (H r R ltac:(lra)) as (y & P & Y & HP & _ & Ey). rewrite Y. f_equal.
    unfold zero_coupon_bond_price in HP. rewrite (price_coeffs_value v _ None a Cv A), R in HP. cbn [bind fst snd] in HP. injection HP as <-. rewrite ln_exp in Ey.
    apply (Rmult_eq_reg_r a); [|lra]. rewrite Ey. field. lra. }
  split; [intros r; apply lin|].
  assert (Yv : yield_volatility v (Stamp m) = Ok (va_vol v * (- coefB (va_speed v) a / a))).
  { unfold yield_volatility. rewrite A. cbn [bind]. rewrite (price_coeffs_value v _ None a Cv A). cbn [bind snd]. rewrite fdiv_ok by lra. cbn [bind]. f_equal. field. lra. }
  split; [exact Yv|]. split.
  - intros p a' A'. exists (fun r => - (- (1 - exp (- va_speed v * a')) * (va_mean v + (1 - exp (- va_speed v * a')) * va_limit v)) + exp (- va_speed v * a') * r), (exp (- va_speed v * a')).
    split; [|split; [intros r; apply lin|]].
    + intros r R P. unfold instantaneous_forward_rate. destruct (sr_path (va_model v)); [|contradiction]. rewrite R. cbn [bind]. unfold price_coeff_derivs. rewrite A'. cbn [bind fst snd]. f_equal. ring.
    + unfold forward_rate_volatility. rewrite A'. cbn [bind]. do 3 f_equal. ring.
  - intros r R Lt. set (P := fun x => exp (coefA (va_mean v) (va_speed v) (va_vol v) a + coefB (va_speed v) a * x)).
    assert (HP : zero_coupon_bond_price v (Stamp m) None = Ok (P r)) by (unfold zero_coupon_bond_price; rewrite (price_coeffs_value v _ None a Cv A), R; reflexivity).
    exists P, (fun x => coefB (va_speed v) a * P x), (coefB (va_speed v) a * (coefB (va_speed v) a * P r)).
    eexists. split; [exact HP|]. split; [intros x; apply d_exp_affine|]. split; [apply d_scal, d_exp_affine|]. split.
    + unfold price_convexities, some_matures_by. cbn [existsb]. replace (dt_leb m (va_purchase v None)) with false by (symmetry; apply Z.leb_gt; exact Lt). cbn [orb mapM]. rewrite A, HP, Yv. cbn [bind mapM List.map List.length seq nth]. reflexivity.
    + cbv beta. field. lra.
Qed.
Print Assumptions C54_volatilities.

(** The convexities of several prices are those of each; no maturity, or one not after the purchase date, is refused. *)
Lemma mapM_each {A B} (f : A -> res B) (d : B) l r : mapM f l = Ok r -> List.length r = List.length l /\ forall j t, nth_error l j = Some t -> f t = Ok (nth j r d).
Proof.
  revert r; induction l as [|x l IH]; intros r E; cbn [mapM] in E; [injection E as <-; split; [reflexivity|intros [|j] t H; discriminate]|].
  destruct (f x) as [y|] eqn:Fx; [|discriminate]. cbn [bind] in E. destruct (mapM f l) as [ys|]; [|discriminate]. injection E as <-. destruct (IH ys eq_refl) as [L H]. split; [cbn; f_equal; exact L|].
  intros [|j] t T; cbn [nth_error nth] in *; [injection T as <-; exact Fx|apply H, T].
Qed.
Lemma matures_spec ts p : some_matures_by ts p = true <-> ts = [] \/ Exists (fun t => dt_leb t p = true) ts.
Proof.
  unfold some_matures_by. destruct ts as [|t ts]; [split; auto|]. rewrite existsb_exists, Exists_exists. split; [intros H; right; exact H|intros [H|H]; [discriminate|exact H]].
Qed.
Theorem C54_price_convexities : forall v ts p,
  (ts = [] \/ Exists (fun t => dt_abs t <= dt_abs (va_purchase v p))%Z ts -> price_convexities v ts p = Err ValueError) /\
  (ts <> [] -> Forall (fun t => dt_abs (va_purchase v p) < dt_abs t)%Z ts ->
     forall l, price_convexities v ts p = Ok l <-> Forall2 (fun t c => price_convexities v [t] p = Ok [c]) ts l).
Proof.
  intros v ts p. split.
  { intros H. unfold price_convexities. replace (some_matures_by ts (va_purchase v p)) with true; [reflexivity|]. symmetry. apply matures_spec. destruct H as [H|H]; [left; exact H|right]. eapply Exists_impl; [|exact H]. intros t Ht. apply Z.leb_le, Ht. }
  intros Ne Fo l. assert (Sm : forall us, us <> [] -> Forall (fun t => dt_abs (va_purchase v p) < dt_abs t)%Z us -> some_matures_by us (va_purchase v p) = false).
  { intros us Nu Fu. destruct (some_matures_by us (va_purchase v p)) eqn:E; [|reflexivity]. exfalso. apply matures_spec in E. destruct E as [E|E]; [contradiction|]. apply Exists_exists in E. destruct E as (t & I & T). rewrite Forall_forall in Fu. specialize (Fu t I). apply Z.leb_le in T. lia. }
  assert (One : forall t, (dt_abs (va_purchase v p) < dt_abs t)%Z -> forall c, price_convexities v [t] p = Ok [c] <->
    exists a P s, va_accrual v (Stamp t) p = Ok a /\ zero_coupon_bond_price v (Stamp t) p = Ok P /\ yield_volatility v (Stamp t) = Ok s /\ c = - (1 / 2) * (a * a) * P * (s * s)).
  { intros t Ht c. unfold price_convexities. rewrite (Sm [t]) by (try discriminate; repeat constructor; exact Ht). cbn [mapM]. destruct (va_accrual v (Stamp t) p) as [a|]; cbn [bind]; [|split; [discriminate|intros (a & P & s & E & _); discriminate]].
    destruct (zero_coupon_bond_price v (Stamp t) p) as [P|]; cbn [bind]; [|split; [discriminate|intros (a' & P & s & _ & E & _); discriminate]].
    destruct (yield_volatility v (Stamp t)) as [s|]; cbn [bind]; [|split; [discriminate|intros (a' & P' & s & _ & _ & E & _); discriminate]]. cbn [List.length seq List.map nth].
    split; [intros E; injection E as <-; exists a, P, s; auto|intros (a' & P' & s' & Ea & EP & Es & ->); injection Ea as <-; injection EP as <-; injection Es as <-; reflexivity]. }
  unfold price_convexities at 1. rewrite (Sm ts Ne Fo). split.
  - intros E. destruct (mapM (fun t => va_accrual v (Stamp t) p) ts) as [accs|] eqn:M1; [|discriminate]. destruct (mapM (fun t => zero_coupon_bond_price v (Stamp t) p) ts) as [ps|] eqn:M2; [|discriminate].
    destruct (mapM (fun t => yield_volatility v (Stamp t)) ts) as [vs|] eqn:M3; [|discriminate]. cbn [bind] in E. injection E as <-.
    apply (mapM_each _ 0) in M1. apply (mapM_each _ 0) in M2. apply (mapM_each _ 0) in M3. destruct M1 as [_ M1], M2 as [_ M2], M3 as [_ M3].
    set (f := fun j => - (1 / 2) * (nth j accs 0 * nth j accs 0) * nth j ps 0 * (nth j vs 0 * nth j vs 0)).
    assert (H : forall us k, (forall j t, nth_error us j = Some t -> nth_error ts (k + j) = Some t) -> Forall2 (fun t c => price_convexities v [t] p = Ok [c]) us (List.map f (seq k (List.length us)))).
    { induction us as [|t us IH]; intros k Hk; cbn [List.length seq List.map]; constructor.
      - pose proof (Hk 0%nat t eq_refl) as T. rewrite Nat.add_0_r in T. apply One; [rewrite Forall_forall in Fo; apply Fo; eapply nth_error_In, T|]. exists (nth k accs 0), (nth k ps 0), (nth k vs 0). repeat split; [apply M1, T|apply M2, T|apply M3, T].
      - apply IH. intros j t' T. rewrite <- (Hk (S j) t' T). f_equal. lia. }
    apply H. intros j t T. exact T.
  - intros F2. assert (X : exists accs ps vs, mapM (fun t => va_accrual v (Stamp t) p) ts = Ok accs /\ mapM (fun t => zero_coupon_bond_price v (Stamp t) p) ts = Ok ps /\ mapM (fun t => yield_volatility v (Stamp t)) ts = Ok vs /\
       l = List.map (fun j => - (1 / 2) * (nth j accs 0 * nth j accs 0) * nth j ps 0 * (nth j vs 0 * nth j vs 0)) (seq 0 (List.length ts))).
    { clear Ne Sm. revert Fo. induction F2 as [|t c ts l H F2 IH]; intros Fo; [exists [], [], []; auto|]. inversion Fo as [|? ? Ft Fo']; subst. destruct (IH Fo') as (accs & ps & vs & M1 & M2 & M3 & El).
      apply One in H; [|exact Ft]. destruct H as (a & P & s & Ea & EP & Es & ->). exists (a :: accs), (P :: ps), (s :: vs). cbn [mapM]. rewrite Ea, EP, Es, M1, M2, M3. cbn [bind]. repeat split.
      cbn [List.length seq List.map nth]. f_equal. rewrite El, <- seq_shift, map_map. reflexivity. }
    destruct X as (accs & ps & vs & M1 & M2 & M3 & ->). rewrite M1, M2, M3. reflexivity.
Qed.
Print Assumptions C54_price_convexities.

(** ---- C55 ---- *)
(** The expected short rate m solves m' = k (theta - m), m(0) = r; the average expected rate is its time average; the
    variance solves V' = sigma^2 - 2 k V, V(0) = 0. *)
Theorem C55_moments : forall theta k sigma b dt v0 v p r, new_vasicek theta k sigma b dt = Ok v0 ->
  va_mean v = va_mean v0 -> va_speed v = va_speed v0 -> va_vol v = va_vol v0 -> va_limit v = va_limit v0 -> va_rate v p = Ok r ->
  exists M V I : R -> R, M 0 = r /\ V 0 = 0 /\ I 0 = 0 /\
    (forall t, derivable_pt_lim M t (k * (theta - M t))) /\ (forall t, derivable_pt_lim V t (sigma * sigma - 2 * k * V t)) /\ (forall t, derivable_pt_lim I t (M t)) /\
    forall m a, va_accrual v m p = Ok a -> expected_short_rate v m p = Ok (M a) /\ short_rate_variance v m p = Ok (V a) /\
      (a <> 0 -> average_expected_short_rate v m p = Ok (I a / a)) /\ (a = 0 -> average_expected_short_rate v m p = Err ZeroDivisionError).
Proof.
  intros theta k sigma b dt v0 v p r N E1 E2 E3 E4 R. destruct (new_vasicek_ok _ _ _ _ _ _ N) as ([L K] & <- & <- & <-).
  assert (Cv : constructed v) by (split; rewrite ?E1, ?E2, ?E3, ?E4; auto). rewrite <- E1, <- E2, <- E3 in *. clear E1 E2 E3 E4 L N v0.
  set (th := va_mean v) in *. set (k := va_speed v) in *. set (s := va_vol v) in *.
  exists (fun t => exp (- k * t) * r + (1 - exp (- k * t)) * th), (fun t => s * s / (2 * k) * (1 - exp (-2 * k * t))), (fun t => th * (coefB k t + t) - coefB k t * r).
  split; [rewrite Rmult_0_r, exp_0; ring|]. split; [rewrite Rmult_0_r, exp_0; ring|]. split; [rewrite (proj2 (coef_0 th k s K)); ring|]. split; [|split; [|split]].
  - intros t. apply (d_fun (fun t => (r - th) * exp (- k * t) + th)); [intros; ring|]. apply (d_eq _ _ ((r - th) * (- k * exp (- k * t)) + 0)); [ring|].
    apply d_plus; [apply d_scal, d_exp|apply d_const].
  - intros t. apply (d_eq _ _ (s * s / (2 * k) * (0 - -2 * k * exp (-2 * k * t)))); [field; exact K|]. apply d_scal. apply d_minus; [apply d_const|apply d_exp].
  - intros t. apply (d_fun (fun t => th * (coefB k t + t) - r * coefB k t)); [intros; ring|]. apply (d_eq _ _ (th * (- exp (- k * t) + 1) - r * - exp (- k * t))); [ring|].
    apply d_minus; apply d_scal; [apply d_plus; [apply coefB_deriv, K|apply d_id]|apply coefB_deriv, K].
  - intros m a A. unfold expected_short_rate, short_rate_variance, average_expected_short_rate. rewrite A. cbn [bind]. rewrite R, (price_coeffs_value v m p a Cv A). cbn [bind fst snd]. fold th k s. split; [reflexivity|].
    rewrite fdiv_ok by lra. cbn [bind]. split; [reflexivity|]. split; [intros Na; rewrite fdiv_ok by exact Na; f_equal; f_equal; ring|]. intros ->. unfold fdiv. destruct (Req_EM_T 0 0); [reflexivity|lra].
Qed.
Print Assumptions C55_moments.

(** For a positive reversion speed and a maturity not before the purchase, the expected rate lies between the current rate
    and the mean, the variance between 0 and sigma^2/(2k), and both move monotonically with the accrual. *)
Theorem C55_bounds : forall theta k sigma b dt v m p r a e V, new_vasicek theta k sigma b dt = Ok v -> 0 < k -> va_rate v p = Ok r -> va_accrual v m p = Ok a -> 0 <= a ->
  expected_short_rate v m p = Ok e -> short_rate_variance v m p = Ok V ->
  Rmin r theta <= e <= Rmax r theta /\ 0 <= V <= sigma * sigma / (2 * k) /\ Rabs (e - theta) = exp (- (k * a)) * Rabs (r - theta).
Proof.
  intros theta k sigma b dt v m p r a e V N K R A Pa E HV. destruct (new_vasicek_ok _ _ _ _ _ _ N) as (Cv & <- & <- & <-).
  unfold expected_short_rate in E. rewrite A, R in E. cbn [bind] in E. injection E as <-. unfold short_rate_variance in HV. rewrite A in HV. cbn [bind] in HV. rewrite fdiv_ok in HV by lra. cbn [bind] in HV. injection HV as <-.
  assert (W : forall c, 0 <= c -> 0 < exp (- c) <= 1). { intros c Hc. split; [apply exp_pos|]. rewrite <- exp_0. destruct (Req_dec c 0) as [->|Nc]; [rewrite Ropp_0; lra|]. apply Rlt_le, exp_increasing. lra. }
  replace (- va_speed v * a) with (- (va_speed v * a)) by ring. pose proof (W (va_speed v * a) ltac:(nra)) as W1.
  replace (-2 * va_speed v * a) with (- (2 * va_speed v * a)) by ring. pose proof (W (2 * va_speed v * a) ltac:(nra)) as W2.
  set (w := exp (- (va_speed v * a))) in *. set (w2 := exp (- (2 * va_speed v * a))) in *. split; [|split].
  - unfold Rmin, Rmax. destruct (Rle_dec r (va_mean v)); split; nra.
  - assert (0 <= va_vol v * va_vol v / (2 * va_speed v)) by (apply Rmult_le_pos; [nra|apply Rlt_le, Rinv_0_lt_compat; lra]). split; nra.
  - replace (w * r + (1 - w) * va_mean v - va_mean v) with (w * (r - va_mean v)) by ring. rewrite Rabs_mult, (Rabs_pos_eq w) by lra. reflexivity.
Qed.
Print Assumptions C55_bounds.

Lemma vasicek_walk : forall theta k sigma b dt v h start draw v' h', new_vasicek theta k sigma b dt = Ok v -> forward dt -> datetime_ok (bm_start b) -> datetime_ok (bm_end b) ->
  (dt_abs (bm_start b) <= dt_abs (bm_end b))%Z -> (start < fresh h)%nat -> bm_dim b = 1%nat -> va_generate v h start true draw = (v', h', Ok tt) ->
  exists g dts rates, bm_times (sr_bm (va_model v')) = Some g /\ bm_dts (sr_bm (va_model v')) = Some dts /\ sr_path (va_model v') = Some rates /\ time_grid (bm_start b) (bm_end b) dt g /\ List.length rates = List.length g /\ List.length g = S (List.length dts) /\
    nth_error rates 0 = Some (arr h start 0%nat) /\
    (forall j x y q, nth_error g j = Some x -> nth_error g (S j) = Some y -> nth_error dts j = Some q -> compute_accrual_length (Stamp x) (Stamp y) (bm_dcc b) = Ok q) /\
    (forall j q r r', nth_error dts j = Some q -> nth_error rates j = Some r -> nth_error rates (S j) = Some r' ->
       r' = r + k * (theta - r) * Q2R q + sigma * (bm_chol b 0%nat 0%nat * (draw j 0%nat * sqrt (Q2R q)))) /\
    (forall j x r, nth_error g j = Some x -> nth_error rates j = Some r -> va_rate v' (Some x) = Ok r).
Proof.
  intros theta k sigma b dt v h start draw v' h' N F Os Oe L St D1 E. unfold new_vasicek in N. destruct (fdiv _ _) as [lim|]; [|discriminate]. cbn [bind] in N. injection N as <-.
  unfold va_generate in E. cbn [va_model] in E. set (s := new_short_rate _ _) in *. destruct (sr_generate_path s h start true draw) as [[s' h1] res] eqn:G. injection E as <- <- ->.
  assert (Fs : forward (pr_dt (sr_proc s))) by exact F. pose proof (C52_rates s h start draw s' h1 Fs Os Oe L St G) as (cols & g & Pc & Tg & Ls & _ & _ & _ & Sp & Hc & _).
  unfold sr_generate_path in G. destruct (pr_generate_path (sr_proc s) h start true draw) as [[p h2] [sol|]] eqn:Gp; [|discriminate].
  destruct (C50_euler _ _ _ _ _ _ _ _ Fs Os Oe L St Gp) as (g' & dts & incs & b' & Gi & Tg' & TG & Ls' & Lg & S0 & Sk & _ & Pp & _). rewrite Pp in G. injection G as <- <-. cbn [sr_proc] in Pc, Tg. unfold sr_bm in Tg. cbn [sr_proc] in Tg.
  rewrite Pp in Pc. injection Pc as <-. rewrite Tg in Tg'. injection Tg' as <-.
  destruct (C48_grid _ _ _ _ _ _ Fs Os Oe L Gi) as (g2 & T2 & Dd & _ & _ & _ & Li & Ac & Cl).
  assert (g2 = g). { clear - Gp Gi T2 Tg. unfold pr_generate_path in Gp. rewrite Gi in Gp. destruct (alloc _ _) as [cur hh]. destruct (euler _ _ _ _ _ _) as [hh2 so]. injection Gp as <- _ _. cbn in Tg. congruence. } subst g2.
  assert (Td : bm_dts (pr_bm p) = Some dts). { clear - Gp Gi Dd. unfold pr_generate_path in Gp. rewrite Gi in Gp. destruct (alloc _ _) as [cur hh]. destruct (euler _ _ _ _ _ _) as [hh2 so]. injection Gp as <- _ _. exact Dd. }
  exists g, dts, (List.map (fun w : vec => w 0%nat) sol). split; [exact Tg|]. split; [exact Td|]. split; [reflexivity|]. split; [exact TG|]. split; [rewrite map_length; exact Ls|]. split; [exact Lg|].
  split; [rewrite nth_error_map, S0; reflexivity|]. split; [exact Ac|]. split.
  - intros j q r r' Q R R'. rewrite nth_error_map in R, R'. destruct (nth_error sol j) as [w|] eqn:W; [|discriminate]. destruct (nth_error sol (S j)) as [w'|] eqn:W'; [|discriminate]. injection R as <-. injection R' as <-.
    destruct (nth_error incs j) as [z|] eqn:Z; [|apply nth_error_None in Z; assert (j < List.length dts)%nat by (apply nth_error_Some; congruence); lia].
    rewrite (Sk j q z w w' 0%nat (vasicek_drift_diffusion theta k sigma) Q Z W W' eq_refl). cbn [dd_drift dd_diffusion vasicek_drift_diffusion]. change (pr_bm (sr_proc s)) with b in *. rewrite D1. cbn [sumn].
    rewrite (Cl j q z 0%nat Q Z), D1. cbn [sumn]. ring.
  - intros j x r X R. rewrite nth_error_map in R. destruct (nth_error sol j) as [w|] eqn:W; [|discriminate]. injection R as <-. exact (Hc j x w X W).
Qed.
(** A simulated path takes Euler steps r + k (theta - r) dt + sigma sqrt(dt) (L z). *)
Theorem C55_path : forall theta k sigma b dt v h start draw v' h', new_vasicek theta k sigma b dt = Ok v -> forward dt -> datetime_ok (bm_start b) -> datetime_ok (bm_end b) ->
  (dt_abs (bm_start b) <= dt_abs (bm_end b))%Z -> (start < fresh h)%nat -> bm_dim b = 1%nat -> va_generate v h start true draw = (v', h', Ok tt) ->
  exists g dts rates, sr_path (va_model v') = Some rates /\ time_grid (bm_start b) (bm_end b) dt g /\ List.length rates = List.length g /\ List.length g = S (List.length dts) /\
    nth_error rates 0 = Some (arr h start 0%nat) /\
    (forall j x y q, nth_error g j = Some x -> nth_error g (S j) = Some y -> nth_error dts j = Some q -> compute_accrual_length (Stamp x) (Stamp y) (bm_dcc b) = Ok q) /\
    (forall j q r r', nth_error dts j = Some q -> nth_error rates j = Some r -> nth_error rates (S j) = Some r' ->
       r' = r + k * (theta - r) * Q2R q + sigma * (bm_chol b 0%nat 0%nat * (draw j 0%nat * sqrt (Q2R q)))) /\
    (forall j x r, nth_error g j = Some x -> nth_error rates j = Some r -> va_rate v' (Some x) = Ok r).
Proof.
  intros theta k sigma b dt v h start draw v' h' N F Os Oe L St D1 E. destruct (vasicek_walk _ _ _ _ _ _ _ _ _ _ _ N F Os Oe L St D1 E) as (g & dts & rates & _ & _ & H). exists g, dts, rates. exact H.
Qed.
Print Assumptions C55_path.

(** ---- C66: setting parameters through the calibration dictionary ---- *)
(** A new mean: prices become those of a model constructed with it. *)
Theorem C66_mean : forall theta k sigma b dt v x l, new_vasicek theta k sigma b dt = Ok v ->
  let '(v', r) := set_shape_from_dict (put_shape_params v (x :: l)) in
  r = Ok tt /\ exists w, new_vasicek x k sigma b dt = Ok w /\ forall m p, price_coeffs v' m p = price_coeffs w m p /\ yield_coeffs v' m = yield_coeffs w m /\ price_coeff_derivs v' m p = price_coeff_derivs w m p.
Proof.
  intros theta k sigma b dt v x l N. cbn. split; [reflexivity|]. unfold new_vasicek in *. destruct (fdiv _ _) as [lim|]; [|discriminate]. cbn [bind] in *. injection N as <-. eexists. split; [reflexivity|].
  intros m p. repeat split.
Qed.
Print Assumptions C66_mean.

Lemma coefB_plus k t : k <> 0 -> t <> 0 -> coefB k t + t <> 0.
Proof.
  intros K T E. assert (X : - k * t <> 0) by (apply Rmult_integral_contrapositive_currified; lra). pose proof (exp_ineq1 _ X) as H.
  assert (k * (coefB k t + t) = 0) by (rewrite E; ring). unfold coefB in H0. replace (k * (- (1 - exp (- k * t)) / k + t)) with (exp (- k * t) - (1 + - k * t)) in H0 by (field; exact K). lra.
Qed.

(** New volatility s and speed q: the intercept keeps the convexity limit of the construction, so a price agrees with
    that of a model constructed with s and q exactly when s/q squared is unchanged (whatever the maturity after start). *)
Theorem C66_volatility : forall theta k sigma b dt v s q l m p a r, new_vasicek theta k sigma b dt = Ok v -> q <> 0 ->
  let '(v', e) := set_vol_from_dict (put_vol_params v (s :: q :: l)) in
  e = Ok tt /\ exists w, new_vasicek theta q s b dt = Ok w /\
    (va_accrual v m None = Ok a -> a <> 0 -> va_rate v p = Ok r -> va_rate w p = Ok r -> forall P P', zero_coupon_bond_price v' m p = Ok P -> zero_coupon_bond_price w m p = Ok P' -> (P = P' <-> (s / q) * (s / q) = (sigma / k) * (sigma / k))).
Proof.
  intros theta k sigma b dt v s q l m p a r N Q. cbn [set_vol_from_dict put_vol_params va_vol_params]. split; [reflexivity|]. destruct (new_vasicek_ok _ _ _ _ _ _ N) as ([L K] & Em & Ek & Es).
  destruct (new_vasicek theta q s b dt) as [w|e] eqn:W; [|unfold new_vasicek in W; rewrite fdiv_ok in W by (apply Rmult_integral_contrapositive_currified; [lra|apply Rmult_integral_contrapositive_currified; lra]); discriminate].
  exists w. split; [reflexivity|]. intros A Na R Rw P P' HP HP'. destruct (new_vasicek_ok _ _ _ _ _ _ W) as (Cw & Wm & Wk & Ws).
  assert (Aw : va_accrual w m None = Ok a).
  { assert (B : sr_bm (va_model w) = b /\ sr_bm (va_model v) = b) by (unfold new_vasicek in N, W; destruct (fdiv (- sigma * sigma) _); [|discriminate]; destruct (fdiv (- s * s) _); [|discriminate]; injection N as <-; injection W as <-; split; reflexivity).
    destruct B as [B1 B2]. rewrite <- A. unfold va_accrual, va_purchase, va_start, va_dcc. rewrite B1, B2. reflexivity. }
  unfold zero_coupon_bond_price in HP'. rewrite (price_coeffs_value w m None a Cw Aw), Rw in HP'. cbn [bind fst snd] in HP'. injection HP' as <-.
  unfold zero_coupon_bond_price, price_coeffs in HP. change (va_accrual (with_params _ _ _ _) m None) with (va_accrual v m None) in HP. rewrite A in HP. cbn [bind with_params va_speed va_vol va_mean va_limit put_vol_params] in HP.
  rewrite (fdiv_ok _ q), (fdiv_ok _ (4 * q)) in HP by lra. cbn [bind fst snd] in HP. change (va_rate (with_params _ _ _ _) p) with (va_rate v p) in HP. rewrite R in HP. cbn [bind] in HP. injection HP as <-.
  rewrite Wm, Wk, Ws, Em, L, Ek, Es. change (- (1 - exp (- q * a)) / q) with (coefB q a). pose proof (coefB_plus q a Q Na) as NB. rewrite Ek in K.
  assert (Dq : q * q <> 0) by (apply Rmult_integral_contrapositive_currified; lra). assert (Dk : k * k <> 0) by (apply Rmult_integral_contrapositive_currified; lra).
  split.
  - intros E. apply exp_inv in E. unfold coefA in E. 
    assert (Z : (coefB q a + a) * (s / q * (s / q) - sigma / k * (sigma / k)) = 0).
    { replace ((coefB q a + a) * (s / q * (s / q) - sigma / k * (sigma / k))) with (2 * ((theta + - sigma * sigma / (2 * (k * k))) * (coefB q a + a) - (theta + - s * s / (2 * (q * q))) * (coefB q a + a))) by (field; split; lra). lra. }
    apply Rmult_integral in Z. destruct Z as [Z|Z]; [contradiction|lra].
  - intros E. f_equal. f_equal. unfold coefA. replace (- s * s / (2 * (q * q))) with (- (s / q * (s / q)) / 2) by (field; lra). rewrite E. replace (- sigma * sigma / (2 * (k * k))) with (- (sigma / k * (sigma / k)) / 2) by (field; lra). reflexivity.
Qed.
Print Assumptions C66_volatility.

(** Setting parameters never changes the simulated paths; the "state variables" setter stores the mean (SHAPE) parameter. *)
Theorem C66_paths_unchanged : forall v v', (v' = fst (set_vol_from_dict v) \/ v' = fst (set_shape_from_dict v) \/ v' = fst (set_state_from_dict v)) ->
  forall h start set draw, let '(w, hw, rw) := va_generate v h start set draw in let '(w', hw', rw') := va_generate v' h start set draw in va_model w' = va_model w /\ hw' = hw /\ rw' = rw /\ (forall x, va_rate v' x = va_rate v x).
Proof.
  intros v v' H h start set draw. assert (M : va_model v' = va_model v).
  { destruct H as [-> | [-> | ->]]; [unfold set_vol_from_dict; destruct (va_vol_params v) as [|? [|? ?]]|unfold set_shape_from_dict; destruct (va_shape_params v)|unfold set_state_from_dict; destruct (va_shape_params v)]; reflexivity. }
  unfold va_generate, va_rate, va_purchase, va_start. rewrite M. destruct (sr_generate_path _ _ _ _ _) as [[s hh] r]. cbn. auto.
Qed.
Print Assumptions C66_paths_unchanged.
Theorem C66_state_setter : forall theta k sigma b dt v, new_vasicek theta k sigma b dt = Ok v -> va_start_rate (fst (set_state_from_dict v)) = Some theta /\
  (forall x l, va_start_rate (fst (set_state_from_dict (put_shape_params v (x :: l)))) = Some x).
Proof. intros theta k sigma b dt v N. unfold new_vasicek in N. destruct (fdiv _ _); [|discriminate]. injection N as <-. split; reflexivity. Qed.
Print Assumptions C66_state_setter.

(** With no entry to read a setter raises IndexError and changes nothing; with the volatility alone it is assigned before
    the IndexError for the missing speed. *)
Theorem C66_missing_entries : forall v, (va_shape_params v = [] -> set_shape_from_dict v = (v, Err IndexError) /\ set_state_from_dict v = (v, Err IndexError)) /\
  (va_vol_params v = [] -> set_vol_from_dict v = (v, Err IndexError)) /\
  (forall s, va_vol_params v = [s] -> let '(v', r) := set_vol_from_dict v in r = Err IndexError /\ va_vol v' = s /\ va_speed v' = va_speed v /\ va_mean v' = va_mean v).
Proof. intros v. unfold set_shape_from_dict, set_state_from_dict, set_vol_from_dict. split; [intros ->; auto|]. split; [intros ->; auto|]. intros s ->. cbn. auto. Qed.
Print Assumptions C66_missing_entries.

(** ---- concrete cases ---- *)
Lemma va_2024 theta k sigma v h start : new_vasicek theta k sigma bm_2024 one_day = Ok v -> (start < fresh h)%nat ->
  exists v' h', va_generate v h start true ones = (v', h', Ok tt) /\ va_mean v' = va_mean v /\ va_speed v' = va_speed v /\ va_vol v' = va_vol v /\ va_limit v' = va_limit v /\ va_start v' = t_day 0 /\ va_dcc v' = ACT360 /\ sr_path (va_model v') <> None /\
    va_rate v' None = Ok (arr h start 0%nat).
Proof.
  intros N St. destruct (va_generate v h start true ones) as [[v' h'] r] eqn:E.
  assert (Er : r = Ok tt /\ va_mean v' = va_mean v /\ va_speed v' = va_speed v /\ va_vol v' = va_vol v /\ va_limit v' = va_limit v /\ va_start v' = t_day 0 /\ va_dcc v' = ACT360 /\ sr_path (va_model v') <> None).
  { unfold new_vasicek in N. destruct (fdiv _ _) as [lim|]; [|discriminate]. cbn [bind] in N. injection N as <-. unfold va_generate, sr_generate_path, pr_generate_path in E. cbn [va_model sr_proc new_short_rate pr_bm new_process pr_dt] in E.
    rewrite (incs_2024 bm_2024 eq_refl eq_refl eq_refl) in E. destruct (alloc _ _) as [cur h1]. destruct (euler _ _ _ _ _ _) as [h2 sol]. cbn [pr_path] in E. injection E as <- _ <-. repeat split. discriminate. }
  destruct Er as (-> & P). exists v', h'. split; [reflexivity|]. destruct P as (P1 & P2 & P3 & P4 & P5 & P6 & P7). do 7 (split; [assumption|]).
  destruct (C55_path _ _ _ _ _ _ _ _ _ _ _ N (eq_refl : forward one_day) (proj1 (day_ok 0 ltac:(lia))) (proj1 (day_ok 4 ltac:(lia))) ltac:(apply Z.leb_le; vm_compute; reflexivity) St eq_refl E) as (g & dts & rates & _ & TG & _ & _ & R0 & _ & _ & Ev).
  specialize (Ev 0%nat (t_day 0) _ (tg_first _ _ _ _ TG) R0). unfold va_rate, va_purchase in *. rewrite P5. exact Ev.
Qed.
Lemma new_ok theta k sigma : k <> 0 -> exists v, new_vasicek theta k sigma bm_2024 one_day = Ok v.
Proof. intros K. unfold new_vasicek. rewrite fdiv_ok by (apply Rmult_integral_contrapositive_currified; [lra|apply Rmult_integral_contrapositive_currified; lra]). eexists. reflexivity. Qed.

(** a case meeting the hypotheses of C53-C55: a rate of 3 on 2024-01-01, maturity three days later *)
Example C53_case : exists v0 v r a, new_vasicek (1 / 20) (1 / 2) (1 / 100) bm_2024 one_day = Ok v0 /\ va_mean v = va_mean v0 /\ va_speed v = va_speed v0 /\ va_vol v = va_vol v0 /\ va_limit v = va_limit v0 /\
  va_rate v None = Ok r /\ r = 3 /\ va_accrual v (Stamp (t_day 3)) None = Ok a /\ a = 3 / 360 /\ sr_path (va_model v) <> None.
Proof.
  destruct (new_ok (1 / 20) (1 / 2) (1 / 100)) as [v0 N]; [lra|]. destruct (va_2024 _ _ _ _ start_heap 0 N ltac:(cbn; lia)) as (v & h & _ & E1 & E2 & E3 & E4 & E5 & E6 & E7 & R).
  destruct (accrual_day 3 ltac:(lia)) as (T & HT & VT). exists v0, v, 3, (Q2R T). split; [exact N|]. do 4 (split; [assumption|]). split; [exact R|]. split; [reflexivity|]. split; [|split; [rewrite VT; lra|exact E7]].
  unfold va_accrual, va_purchase. rewrite E5, E6, HT. reflexivity.
Qed.

(** A bond bought on its maturity date, four days after the start, is not priced at 1: the purchase date does not enter
    the coefficients.  (Constant rate 5%, no volatility.) *)
Definition five_percent : arrays := Arrays (fun _ _ => 1 / 20) 1.
Theorem C54_own_maturity_refuted : exists v0 v h P, new_vasicek (1 / 20) 1 0 bm_2024 one_day = Ok v0 /\ va_generate v0 five_percent 0 true ones = (v, h, Ok tt) /\
  va_rate v (Some (t_day 4)) = Ok (1 / 20) /\ zero_coupon_bond_price v (Stamp (t_day 4)) (Some (t_day 4)) = Ok P /\ P < 1.
Proof.
  destruct (new_ok (1 / 20) 1 0) as [v0 N]; [lra|]. destruct (va_2024 _ _ _ _ five_percent 0 N ltac:(cbn; lia)) as (v & h & G & E1 & E2 & E3 & E4 & E5 & E6 & E7 & R).
  destruct (C55_path _ _ _ _ _ _ _ _ _ _ _ N (eq_refl : forward one_day) (proj1 (day_ok 0 ltac:(lia))) (proj1 (day_ok 4 ltac:(lia))) ltac:(apply Z.leb_le; vm_compute; reflexivity) (le_n 1 : (0 < fresh five_percent)%nat) eq_refl G) as (g & dts & rates & _ & TG & Lr & Lg & R0 & _ & Sk & Ev).
  assert (C : forall j r, nth_error rates j = Some r -> r = 1 / 20).
  { induction j as [|j IH]; intros r Hr; [rewrite R0 in Hr; injection Hr as <-; reflexivity|]. assert (Hj : (S j < List.length rates)%nat) by (apply nth_error_Some; congruence).
    destruct (nth_error rates j) as [r0|] eqn:H0; [|apply nth_error_None in H0; lia]. destruct (nth_error dts j) as [q|] eqn:Hq; [|apply nth_error_None in Hq; lia]. rewrite (Sk j q r0 r Hq H0 Hr), (IH r0 eq_refl). ring. }
  pose proof (tg_last _ _ _ _ TG) as Tl. change (bm_end bm_2024) with (t_day 4) in Tl. destruct (nth_error rates (List.length g - 1)) as [r|] eqn:Hr; [|apply nth_error_None in Hr; lia].
  pose proof (Ev _ _ _ Tl Hr) as Re. rewrite (C _ _ Hr) in Re.
  destruct (accrual_day 4 ltac:(lia)) as (T & HT & VT). assert (A : va_accrual v (Stamp (t_day 4)) None = Ok (Q2R T)) by (unfold va_accrual, va_purchase; rewrite E5, E6, HT; reflexivity).
  destruct (new_vasicek_ok _ _ _ _ _ _ N) as ([L K] & Em & Ek & Es). assert (Cv : constructed v) by (split; rewrite ?E1, ?E2, ?E3, ?E4; auto).
  exists v0, v, h. eexists. split; [exact N|]. split; [exact G|]. split; [exact Re|]. unfold zero_coupon_bond_price. rewrite (price_coeffs_value v _ None _ Cv A). cbn [bind]. rewrite Re. cbn [bind fst snd]. split; [reflexivity|].
  rewrite E1, E2, E3, Em, Ek, Es, VT. unfold coefA. set (B := coefB 1 (4 / 360)).
  replace (- ((1 / 20 + - 0 * 0 / (2 * (1 * 1))) * (B + 4 / 360)) - 0 * 0 / (4 * 1) * (B * B) + B * (1 / 20)) with (- (1 / 1800)) by field. apply (Rlt_le_trans _ (exp 0)); [apply exp_increasing; lra|rewrite exp_0; lra].
Qed.
Print Assumptions C54_own_maturity_refuted.
(** the hypotheses of C66_volatility: halving the speed after construction *)
Example C66_case : exists v v' e, new_vasicek (1 / 20) 1 (1 / 100) bm_2024 one_day = Ok v /\ set_vol_from_dict (put_vol_params v [1 / 100; 1 / 2]) = (v', e) /\ va_speed v' = 1 / 2 /\ va_limit v' = va_limit v /\ (1 / 100 / (1 / 2)) * (1 / 100 / (1 / 2)) <> (1 / 100 / 1) * (1 / 100 / 1).
Proof. destruct (new_ok (1 / 20) 1 (1 / 100)) as [v N]; [lra|]. exists v. eexists _, _. split; [exact N|]. split; [reflexivity|]. cbn. repeat split. lra. Qed.
