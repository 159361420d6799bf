(** Linear algebra and the spectral form of the multivariate Vasicek coefficients. *)
From Verif Require Import Base PyDate DayCount PyList KeyRate Curve Loan RVec Deriv Stochastic ShortRate Vasicek Multi.
From Coq Require Import Reals Lra.
Open Scope R_scope.

Section Algebra.
Context (n : nat).
Lemma mvec_ext A x y i : (forall j, (j < n)%nat -> x j = y j) -> mvec n A x i = mvec n A y i.
Proof. intros H. apply dot_ext; auto. Qed.
Lemma vmat_dot x A y : dot n (vmat n x A) y = dot n x (mvec n A y).
Proof.
  unfold dot, vmat, mvec, dot. rewrite (sumn_ext n _ (fun j => sumn n (fun i => x i * A i j * y j))) by (intros; rewrite sumn_scal_r; reflexivity).
  rewrite sumn_swap. apply sumn_ext. intros i I. rewrite <- sumn_scal. apply sumn_ext. intros. ring.
Qed.
Lemma bil x A y : dot n x (mvec n A y) = sumn n (fun i => sumn n (fun j => x i * A i j * y j)).
Proof. unfold dot, mvec, dot. apply sumn_ext. intros i I. rewrite <- sumn_scal. apply sumn_ext. intros. ring. Qed.
Lemma dot_scal c x y : dot n (vscal c x) y = c * dot n x y.
Proof. unfold dot, vscal. rewrite <- sumn_scal. apply sumn_ext. intros. ring. Qed.
Lemma tr_dot A x y : dot n (mvec n (tr A) x) y = dot n x (mvec n A y).
Proof. rewrite <- vmat_dot. apply dot_ext; [|reflexivity]. intros i I. apply sumn_ext. intros. unfold tr. ring. Qed.
Lemma mvec_diag d x i : (i < n)%nat -> mvec n (diag d) x i = d i * x i.
Proof. intros I. unfold mvec, dot, diag. rewrite <- (sumn_delta n i (fun j => d i * x j) I). apply sumn_ext. intros. ring. Qed.
Lemma mvec_delta x i : (i < n)%nat -> mvec n delta x i = x i.
Proof. intros I. unfold mvec, dot. apply sumn_delta, I. Qed.
Lemma mvec_msub A B x i : mvec n (msub A B) x i = mvec n A x i - mvec n B x i.
Proof. unfold mvec, dot, msub. rewrite <- sumn_minus. apply sumn_ext. intros. ring. Qed.
Lemma mvec_vadd A x y i : mvec n A (vadd x y) i = mvec n A x i + mvec n A y i.
Proof. unfold mvec, dot, vadd. rewrite <- sumn_plus. apply sumn_ext. intros. ring. Qed.
Lemma mvec_vsub A x y i : mvec n A (vsub x y) i = mvec n A x i - mvec n A y i.
Proof. unfold mvec, dot, vsub. rewrite <- sumn_minus. apply sumn_ext. intros. ring. Qed.
Lemma mvec_vscal A c x i : mvec n A (vscal c x) i = c * mvec n A x i.
Proof. unfold mvec, dot, vscal. rewrite <- sumn_scal. apply sumn_ext. intros. ring. Qed.
Lemma tr_mmul A B i j : tr (mmul n A B) i j = mmul n (tr B) (tr A) i j.
Proof. unfold tr, mmul. apply sumn_ext. intros. ring. Qed.
Lemma mvec_mat_ext A B x i : (forall j, (j < n)%nat -> A i j = B i j) -> mvec n A x i = mvec n B x i.
Proof. intros H. apply dot_ext; auto. Qed.
Lemma mvec_tr_mmul A B x i : mvec n (tr (mmul n A B)) x i = mvec n (tr B) (mvec n (tr A) x) i.
Proof. rewrite <- mvec_mmul. apply mvec_mat_ext. intros. apply tr_mmul. Qed.
Lemma mvec_tr_diag d x i : (i < n)%nat -> mvec n (tr (diag d)) x i = d i * x i.
Proof. intros I. rewrite <- mvec_diag by exact I. apply mvec_mat_ext. intros j J. unfold tr, diag. rewrite delta_sym. unfold delta. destruct (Nat.eqb_spec i j) as [->|]; ring. Qed.
Lemma dot_vsub x y z : dot n x (vsub y z) = dot n x y - dot n x z.
Proof. unfold dot, vsub. rewrite <- sumn_minus. apply sumn_ext. intros. ring. Qed.
Lemma dot_vadd x y z : dot n x (vadd y z) = dot n x y + dot n x z.
Proof. unfold dot, vadd. rewrite <- sumn_plus. apply sumn_ext. intros. ring. Qed.
Lemma dot_vscal_r x c y : dot n x (vscal c y) = c * dot n x y.
Proof. unfold dot, vscal. rewrite <- sumn_scal. apply sumn_ext. intros. ring. Qed.

(** W inverts V *)
Definition inverse (V W : mat) : Prop := forall i j, (i < n)%nat -> (j < n)%nat -> mmul n V W i j = delta i j.
Lemma inverse_mvec V W x i : inverse V W -> (i < n)%nat -> mvec n V (mvec n W x) i = x i.
Proof. intros H I. rewrite <- mvec_mmul. rewrite <- (mvec_delta x i I). apply mvec_mat_ext. intros. apply H; assumption. Qed.
Lemma inverse_tr V W x i : inverse V W -> (i < n)%nat -> mvec n (tr W) (mvec n (tr V) x) i = x i.
Proof. intros H I. rewrite <- mvec_tr_mmul. rewrite <- (mvec_delta x i I). apply mvec_mat_ext. intros j J. unfold tr. rewrite H by assumption. apply delta_sym. Qed.

(** V diag(d) W *)
Definition sandwich (V : mat) (d : vec) (W : mat) : mat := mmul n (mmul n V (diag d)) W.
Lemma sandwich_mvec V d W x i : mvec n (sandwich V d W) x i = mvec n V (fun k => d k * mvec n W x k) i.
Proof. unfold sandwich. rewrite !mvec_mmul. apply mvec_ext. intros. apply mvec_diag. assumption. Qed.
Lemma sandwich_tr V d W x i : mvec n (tr (sandwich V d W)) x i = mvec n (tr W) (fun k => d k * mvec n (tr V) x k) i.
Proof.
  unfold sandwich. rewrite mvec_tr_mmul. apply mvec_ext. intros j J. rewrite mvec_tr_mmul. rewrite mvec_tr_diag by exact J. reflexivity.
Qed.
End Algebra.

(** a constructed model: the eigendecomposition holds *)
Record decomposed (m : multi) : Prop := Decomposed {
  de_eig : forall i j, (i < mv_n m)%nat -> (j < mv_n m)%nat -> mmul (mv_n m) (mv_K m) (mv_V m) i j = mv_V m i j * mv_lam m j;
  de_r : inverse (mv_n m) (mv_V m) (mv_Vi m);
  de_l : inverse (mv_n m) (mv_Vi m) (mv_V m);
  de_C : mv_C m = mmul (mv_n m) (mv_S m) (tr (mv_S m))
}.
(** no division by zero in the coefficient formulas *)
Definition regular (m : multi) : Prop := (forall i, (i < mv_n m)%nat -> mv_lam m i <> 0) /\ (forall i j, (i < mv_n m)%nat -> (j < mv_n m)%nat -> mv_lam m j + mv_lam m i <> 0).

Section Spectral.
Context (m : multi) (De : decomposed m) (Re : regular m).
Let n := mv_n m. Let K := mv_K m. Let V := mv_V m. Let Vi := mv_Vi m. Let lam := mv_lam m. Let g := mv_g m. Let C := mv_C m. Let th := mv_level m.

Lemma eigE i j : (i < n)%nat -> (j < n)%nat -> mmul n K V i j = V i j * lam j.
Proof. exact (de_eig m De i j). Qed.
Lemma K_mvec x i : (i < n)%nat -> mvec n K x i = mvec n V (fun k => lam k * mvec n Vi x k) i.
Proof.
  intros I. assert (E : mvec n K x i = mvec n K (mvec n V (mvec n Vi x)) i) by (apply mvec_ext; intros j J; symmetry; apply (inverse_mvec n V Vi x j (de_r m De) J)).
  rewrite E, <- mvec_mmul. unfold mvec at 1 3, dot. apply sumn_ext. intros k Hk. rewrite (eigE i k I Hk). ring.
Qed.
Lemma Kt_mvec x i : (i < n)%nat -> mvec n (tr K) x i = mvec n (tr Vi) (fun k => lam k * mvec n (tr V) x k) i.
Proof.
  intros I. assert (E : mvec n (tr K) x i = mvec n (tr Vi) (mvec n (tr V) (mvec n (tr K) x)) i) by (symmetry; apply (inverse_tr n V Vi _ i (de_r m De) I)).
  rewrite E. apply mvec_ext. intros k Hk. rewrite <- mvec_tr_mmul. unfold mvec, dot. rewrite <- sumn_scal. apply sumn_ext. intros j J. unfold tr at 1. rewrite (eigE j k J Hk). unfold tr. ring.
Qed.

(** spectral coordinates of the short rate coefficients and the level *)
Definition gam : vec := mvec n (tr V) g.
Definition tht : vec := mvec n Vi th.
Definition Mm : mat := mmul n (mmul n Vi C) (tr Vi).
Definition wgt : vec := fun k => gam k / lam k.
Definition Dk (a : R) (k : nat) : R := (1 - exp (- lam k * a)) / lam k.
Definition bk (a : R) : vec := fun k => - Dk a k * gam k.
Definition Fij (a : R) (i j : nat) : R := (1 - exp (- (lam j + lam i) * a)) / (lam j + lam i).

Lemma u_value i : mvec n (tr (reversion_inv m)) g i = mvec n (tr Vi) wgt i.
Proof. unfold reversion_inv. fold n V Vi. fold (sandwich n V (fun i => 1 / mv_lam m i) Vi). rewrite sandwich_tr. apply mvec_ext. intros j J. unfold wgt. fold gam lam. field. apply (proj1 Re j J). Qed.

Lemma B_value a i : (i < n)%nat -> coefficient_term m a i = mvec n (tr Vi) (bk a) i.
Proof.
  intros I. unfold coefficient_term. fold n g. rewrite mvec_mmul, mvec_msub, mvec_delta by exact I. rewrite u_value.
  rewrite (mvec_ext n (tr (exp_reversion m a)) _ (mvec n (tr Vi) wgt)) by (intros; apply u_value).
  unfold exp_reversion. fold n V Vi lam. fold (sandwich n V (fun i => exp (- lam i * a)) Vi). rewrite sandwich_tr.
  rewrite <- mvec_vsub. apply mvec_ext. intros k Hk. unfold vsub. rewrite (inverse_tr n Vi V wgt k (de_l m De) Hk). unfold bk, Dk, wgt. field. apply (proj1 Re k Hk).
Qed.

Lemma Mm_mvec x i : mvec n Mm x i = mvec n Vi (mvec n C (mvec n (tr Vi) x)) i.
Proof. unfold Mm. rewrite !mvec_mmul. reflexivity. Qed.
Lemma cancel_dot x y : dot n (mvec n (tr Vi) x) (mvec n V y) = dot n x y.
Proof. rewrite tr_dot. apply dot_ext; [reflexivity|]. intros i I. apply (inverse_mvec n Vi V y i (de_l m De) I). Qed.

Lemma A_value a : intercept_term m a = - mv_mu m * a + sumn n (fun k => gam k * (Dk a k - a) * tht k)
   + / 2 * sumn n (fun i => sumn n (fun j => wgt i * Mm i j * wgt j * (a - Dk a i - Dk a j + Fij a i j))).
Proof.
  unfold intercept_term. cbv zeta. fold n V Vi C lam g th. fold Mm.
  set (u := mvec n (tr (reversion_inv m)) g). set (u' := mvec n (tr Vi) wgt).
  assert (U : forall i, u i = u' i) by (intros; apply u_value).
  set (Dt := diag _). fold (sandwich n V (fun i => (1 - exp (- lam i * a)) / lam i) Vi) in *. set (F := fun i j : nat => Mm i j * _ / _). 
  assert (Dv : forall x i, (i < n)%nat -> mvec n Dt x i = Dk a i * x i) by (intros; unfold Dt; rewrite mvec_diag by assumption; reflexivity).
  assert (Iv : forall i, (i < n)%nat -> mvec n (diag (fun i => 1 / lam i)) (mvec n (tr V) g) i = wgt i) by (intros; rewrite mvec_diag by assumption; unfold wgt; fold gam; field; apply (proj1 Re); assumption).
  assert (tDv : forall x i, mvec n (mmul n (mmul n V Dt) Vi) x i = mvec n V (fun k => Dk a k * mvec n Vi x k) i) by (intros; rewrite !mvec_mmul; apply mvec_ext; intros; apply Dv; assumption).
  assert (I2 : dot n g (vsub (mvec n (mmul n (mmul n V Dt) Vi) th) (fun i => th i * a)) = sumn n (fun k => gam k * (Dk a k - a) * tht k)).
  { rewrite dot_vsub. rewrite (dot_ext n g (mvec n (mmul n (mmul n V Dt) Vi) th) g (mvec n V (fun k => Dk a k * tht k))) by (intros; try apply tDv; reflexivity).
    rewrite (dot_ext n g (fun i => th i * a) g (vscal a (mvec n V tht))) by (intros; try reflexivity; unfold vscal, tht; rewrite (inverse_mvec n V Vi th i (de_r m De)) by assumption; ring).
    rewrite dot_vscal_r, <- !tr_dot. fold gam. unfold dot. rewrite <- sumn_scal, <- sumn_minus. apply sumn_ext. intros. ring. }
  assert (Id : dot n (vmat n (vscal (1 / 2) u) C) u = / 2 * dot n wgt (mvec n Mm wgt)).
  { rewrite vmat_dot, dot_scal. rewrite (dot_ext n u (mvec n C u) u' (mvec n C u')) by (intros; try (apply mvec_ext; intros); apply U). unfold u'. rewrite tr_dot.
    rewrite (dot_ext n wgt (mvec n Mm wgt) wgt (mvec n Vi (mvec n C (mvec n (tr Vi) wgt)))) by (intros; try apply Mm_mvec; reflexivity). field. }
  assert (Ic : dot n (vmat n (vmat n (vscal (- (1 / 2)) u) (mmul n (mmul n V Dt) Vi)) C) u = - / 2 * dot n wgt (fun i => Dk a i * mvec n Mm wgt i)).
  { rewrite !vmat_dot, dot_scal. rewrite (dot_ext n u _ u' (mvec n V (fun k => Dk a k * mvec n Mm wgt k))).
    - unfold u'. rewrite cancel_dot. field.
    - intros; apply U.
    - intros i I. rewrite tDv. apply mvec_ext. intros k Hk. rewrite Mm_mvec. f_equal. apply mvec_ext. intros. apply mvec_ext. intros. apply U. }
  assert (Ib : dot n (vmat n (vmat n (vmat n (vmat n (vmat n (vscal (- (1 / 2)) u) C) (tr Vi)) Dt) (diag (fun i => 1 / lam i))) (tr V)) g = - / 2 * dot n wgt (mvec n Mm (fun j => Dk a j * wgt j))).
  { rewrite !vmat_dot, dot_scal. rewrite (dot_ext n u _ u' (mvec n C (mvec n (tr Vi) (fun j => Dk a j * wgt j)))).
    - unfold u'. rewrite tr_dot. rewrite (dot_ext n wgt (mvec n Mm _) wgt (mvec n Vi (mvec n C (mvec n (tr Vi) (fun j => Dk a j * wgt j))))) by (intros; try apply Mm_mvec; reflexivity). field.
    - intros; apply U.
    - intros i I. apply mvec_ext. intros j J. apply mvec_ext. intros k Hk. rewrite Dv by exact Hk. f_equal. apply Iv, Hk. }
  assert (Ia : dot n (vmat n (vmat n (vmat n (vmat n (vscal (1 / 2) u) V) F) (diag (fun i => 1 / lam i))) (tr V)) g = / 2 * dot n wgt (mvec n F wgt)).
  { rewrite !vmat_dot, dot_scal. rewrite (dot_ext n u _ u' (mvec n V (mvec n F wgt))).
    - unfold u'. rewrite cancel_dot. field.
    - intros; apply U.
    - intros i I. apply mvec_ext. intros j J. apply mvec_ext. intros k Hk. apply Iv, Hk. }
  rewrite I2, Id, Ic, Ib, Ia. rewrite !bil.
  rewrite (dot_ext n wgt (fun i => Dk a i * mvec n Mm wgt i) wgt (mvec n (fun i j => Dk a i * Mm i j) wgt)) by (intros; try reflexivity; unfold mvec, dot; rewrite <- sumn_scal; apply sumn_ext; intros; ring).
  rewrite bil. set (Q := sumn n (fun i => sumn n (fun j => wgt i * Mm i j * wgt j * _))).
  enough (E : Q = sumn n (fun i => sumn n (fun j => wgt i * F i j * wgt j)) - sumn n (fun i => sumn n (fun j => wgt i * Mm i j * (Dk a j * wgt j)))
     - sumn n (fun i => sumn n (fun j => wgt i * (Dk a i * Mm i j) * wgt j)) + sumn n (fun i => sumn n (fun j => wgt i * Mm i j * wgt j)) * a) by (rewrite E; ring).
  unfold Q. rewrite <- sumn_scal_r, <- !sumn_minus, <- sumn_plus. apply sumn_ext. intros i I. rewrite <- sumn_scal_r, <- !sumn_minus, <- sumn_plus. apply sumn_ext. intros j J. unfold F, Fij. field. apply (proj2 Re i j I J).
Qed.

Lemma gam_back i : (i < n)%nat -> mvec n (tr Vi) gam i = g i.
Proof. intros I. apply (inverse_tr n V Vi g i (de_r m De) I). Qed.
Lemma tr_back x k : (k < n)%nat -> mvec n (tr V) (mvec n (tr Vi) x) k = x k.
Proof. intros Hk. apply (inverse_tr n Vi V x k (de_l m De) Hk). Qed.
Lemma Dk_deriv a k : (k < n)%nat -> derivable_pt_lim (fun t => Dk t k) a (exp (- lam k * a)).
Proof.
  intros Hk. unfold Dk. apply (d_fun (fun t => / lam k * (1 - exp (- lam k * t)))); [intros; unfold Rdiv; ring|].
  eapply d_eq; [|apply d_scal; apply d_minus; [apply d_const|apply d_exp]]. field. apply (proj1 Re k Hk).
Qed.
Lemma Fij_deriv a i j : (i < n)%nat -> (j < n)%nat -> derivable_pt_lim (fun t => Fij t i j) a (exp (- lam i * a) * exp (- lam j * a)).
Proof.
  intros I J. unfold Fij. apply (d_fun (fun t => / (lam j + lam i) * (1 - exp (- (lam j + lam i) * t)))); [intros; unfold Rdiv; ring|].
  eapply d_eq; [|apply d_scal; apply d_minus; [apply d_const|apply d_exp]]. rewrite <- exp_plus. replace (- lam i * a + - lam j * a) with (- (lam j + lam i) * a) by ring. field. apply (proj2 Re i j I J).
Qed.
Lemma B_zero i : (i < n)%nat -> coefficient_term m 0 i = 0.
Proof. intros I. rewrite B_value by exact I. apply sumn_zero. intros k Hk. unfold bk, Dk. rewrite Rmult_0_r, exp_0. unfold Rdiv. ring. Qed.
Lemma A_zero : intercept_term m 0 = 0.
Proof.
  rewrite A_value. assert (D0 : forall k, Dk 0 k = 0) by (intros; unfold Dk; rewrite Rmult_0_r, exp_0; unfold Rdiv; ring).
  rewrite sumn_zero by (intros; rewrite D0; ring). rewrite sumn_zero; [ring|]. intros. apply sumn_zero. intros. rewrite !D0. unfold Fij. rewrite Rmult_0_r, exp_0. unfold Rdiv. ring.
Qed.
(** the derivative of the coefficients, in two forms *)
Lemma B_deriv_exp a i : (i < n)%nat -> derivable_pt_lim (fun t => coefficient_term m t i) a (- mvec n (tr (exp_reversion m a)) g i).
Proof.
  intros I. apply (d_fun (fun t => mvec n (tr Vi) (bk t) i)); [intros; symmetry; apply B_value, I|].
  assert (E : mvec n (tr (exp_reversion m a)) g i = mvec n (tr Vi) (fun k => exp (- lam k * a) * gam k) i) by (apply sandwich_tr).
  rewrite E. unfold mvec, dot. rewrite <- sumn_opp. apply (sumn_deriv n (fun k t => tr Vi i k * bk t k) (fun k t => - (tr Vi i k * (exp (- lam k * t) * gam k)))).
  intros k Hk. eapply d_eq; [|apply d_scal; unfold bk; apply (d_mult (fun t => - Dk t k) (fun _ => gam k)); [apply d_opp, Dk_deriv, Hk|apply d_const]]. ring.
Qed.
Lemma B_riccati a i : (i < n)%nat -> - mvec n (tr (exp_reversion m a)) g i = - mvec n (tr K) (coefficient_term m a) i - g i.
Proof.
  intros I. rewrite Kt_mvec by exact I. rewrite <- (gam_back i I).
  assert (E : mvec n (tr (exp_reversion m a)) g i = mvec n (tr Vi) (fun k => exp (- lam k * a) * gam k) i) by (apply sandwich_tr). rewrite E.
  enough (H : mvec n (tr Vi) (fun k => exp (- lam k * a) * gam k) i = mvec n (tr Vi) (vadd (fun k => lam k * mvec n (tr V) (coefficient_term m a) k) gam) i) by (rewrite H, mvec_vadd; ring).
  apply mvec_ext. intros k Hk. unfold vadd. rewrite (mvec_ext n (tr V) _ (mvec n (tr Vi) (bk a))) by (intros; apply B_value; assumption). rewrite tr_back by exact Hk. unfold bk, Dk. field. apply (proj1 Re k Hk).
Qed.
Lemma A_deriv a : derivable_pt_lim (intercept_term m) a (- mv_mu m + dot n (coefficient_term m a) (mvec n K th) + / 2 * dot n (coefficient_term m a) (mvec n C (coefficient_term m a))).
Proof.
  apply (d_fun (fun a => - mv_mu m * a + sumn n (fun k => gam k * (Dk a k - a) * tht k) + / 2 * sumn n (fun i => sumn n (fun j => wgt i * Mm i j * wgt j * (a - Dk a i - Dk a j + Fij a i j))))); [intros; symmetry; apply A_value|].
  apply (d_eq _ _ (- mv_mu m + sumn n (fun k => gam k * (exp (- lam k * a) - 1) * tht k) + / 2 * sumn n (fun i => sumn n (fun j => wgt i * Mm i j * wgt j * (1 - exp (- lam i * a) - exp (- lam j * a) + exp (- lam i * a) * exp (- lam j * a)))))).
  - f_equal; [f_equal|f_equal].
    + rewrite (dot_ext n (coefficient_term m a) (mvec n K th) (mvec n (tr Vi) (bk a)) (mvec n V (fun k => lam k * tht k)) (fun i I => B_value a i I) (fun i I => K_mvec th i I)).
      rewrite cancel_dot. unfold dot. apply sumn_ext. intros k Hk. unfold bk, Dk. field. apply (proj1 Re k Hk).
    + rewrite (dot_ext n (coefficient_term m a) _ (mvec n (tr Vi) (bk a)) (mvec n C (mvec n (tr Vi) (bk a))) (fun i I => B_value a i I) (fun i I => mvec_ext n C _ _ i (fun j J => B_value a j J))).
      rewrite tr_dot. rewrite (dot_ext n (bk a) (mvec n Vi _) (bk a) (mvec n Mm (bk a))) by (intros; try reflexivity; symmetry; apply Mm_mvec). rewrite bil.
      apply sumn_ext. intros i I. apply sumn_ext. intros j J. unfold bk, wgt, Dk. field. split; [apply (proj1 Re j J)|apply (proj1 Re i I)].
  - apply d_plus; [apply d_plus|].
    + apply d_lin.
    + apply (sumn_deriv n (fun k t => gam k * (Dk t k - t) * tht k) (fun k t => gam k * (exp (- lam k * t) - 1) * tht k)). intros k Hk.
      eapply d_eq; [|apply (d_mult (fun t => gam k * (Dk t k - t)) (fun _ => tht k)); [apply d_scal, d_minus; [apply Dk_deriv, Hk|apply d_id]|apply d_const]]. ring.
    + apply d_scal. apply (sumn_deriv n (fun i t => sumn n (fun j => wgt i * Mm i j * wgt j * (t - Dk t i - Dk t j + Fij t i j))) (fun i t => sumn n (fun j => wgt i * Mm i j * wgt j * (1 - exp (- lam i * t) - exp (- lam j * t) + exp (- lam i * t) * exp (- lam j * t))))). intros i I.
      apply (sumn_deriv n (fun j t => wgt i * Mm i j * wgt j * (t - Dk t i - Dk t j + Fij t i j)) (fun j t => wgt i * Mm i j * wgt j * (1 - exp (- lam i * t) - exp (- lam j * t) + exp (- lam i * t) * exp (- lam j * t)))). intros j J.
      apply d_scal. apply d_plus; [apply d_minus; [apply d_minus; [apply d_id|apply Dk_deriv, I]|apply Dk_deriv, J]|apply Fij_deriv; assumption].
Qed.

(** a symmetric reversion matrix has a symmetric exponential *)
Lemma exp_symmetric a x i : (forall i j, (i < n)%nat -> (j < n)%nat -> K i j = K j i) -> (i < n)%nat -> mvec n (exp_reversion m a) x i = mvec n (tr (exp_reversion m a)) x i.
Proof.
  intros Sy I. set (d := fun k => exp (- lam k * a)). assert (E1 : mvec n (exp_reversion m a) x i = mvec n V (fun k => d k * mvec n Vi x k) i) by apply sandwich_mvec.
  assert (E2 : mvec n (tr (exp_reversion m a)) x i = mvec n (tr Vi) (fun k => d k * mvec n (tr V) x k) i) by apply sandwich_tr.
  rewrite E1, E2. set (z := mvec n Vi x). set (P := mmul n (tr V) V).
  assert (PK : forall i j, (i < n)%nat -> (j < n)%nat -> P i j * lam j = lam i * P i j).
  { intros p q Hp Hq. unfold P, mmul. transitivity (sumn n (fun k => V k p * mmul n K V k q)); [rewrite <- sumn_scal_r; apply sumn_ext; intros k Hk; rewrite (eigE k q Hk Hq); unfold tr; ring|].
    transitivity (sumn n (fun k => mmul n K V k p * V k q)); [|rewrite <- sumn_scal; apply sumn_ext; intros k Hk; rewrite (eigE k p Hk Hp); unfold tr; ring].
    unfold mmul. rewrite (sumn_ext n _ (fun k => sumn n (fun l => V k p * (K k l * V l q)))) by (intros; rewrite sumn_scal; reflexivity). rewrite sumn_swap. apply sumn_ext. intros l Hl. rewrite <- sumn_scal_r. apply sumn_ext. intros k Hk. rewrite (Sy k l Hk Hl). ring. }
  assert (Pd : forall i j, (i < n)%nat -> (j < n)%nat -> d i * P i j = P i j * d j).
  { intros p q Hp Hq. specialize (PK p q Hp Hq). destruct (Req_EM_T (P p q) 0) as [Z0|Nz]; [rewrite Z0; ring|]. assert (L : lam p = lam q) by (apply (Rmult_eq_reg_r (P p q)); [lra|exact Nz]). unfold d. rewrite L. ring. }
  symmetry. rewrite (mvec_ext n (tr Vi) _ (mvec n (tr V) (mvec n V (fun k => d k * z k)))).
  - apply (inverse_tr n V Vi _ i (de_r m De) I).
  - intros k Hk. rewrite (mvec_ext n (tr V) x (mvec n V z)) by (intros; symmetry; apply (inverse_mvec n V Vi x _ (de_r m De)); assumption). rewrite <- !mvec_mmul. fold P. unfold mvec, dot. rewrite <- sumn_scal. apply sumn_ext. intros l Hl. rewrite <- Rmult_assoc, (Pd k l Hk Hl). ring.
Qed.

(** ---- moments ---- *)
(** expected state after a, from x *)
Definition mean_at (x : vec) (a : R) : vec := vadd (mvec n (exp_reversion m a) x) (mvec n (msub delta (exp_reversion m a)) th).
Lemma mean_value x a i : (i < n)%nat -> mean_at x a i = mvec n V (fun k => exp (- lam k * a) * mvec n Vi (vsub x th) k) i + th i.
Proof.
  intros I. unfold mean_at, vadd. rewrite mvec_msub, mvec_delta by exact I.
  rewrite <- (sandwich_mvec n V (fun k => exp (- lam k * a)) Vi (vsub x th) i), mvec_vsub. change (sandwich n V (fun k => exp (- lam k * a)) Vi) with (exp_reversion m a). ring.
Qed.
Lemma mean_zero x i : (i < n)%nat -> mean_at x 0 i = x i.
Proof.
  intros I. rewrite mean_value by exact I. rewrite (mvec_ext n V _ (mvec n Vi (vsub x th))) by (intros; rewrite Rmult_0_r, exp_0; ring).
  rewrite (inverse_mvec n V Vi _ i (de_r m De) I). unfold vsub. ring.
Qed.
Lemma mean_deriv x a i : (i < n)%nat -> derivable_pt_lim (fun t => mean_at x t i) a (mvec n K (vsub th (mean_at x a)) i).
Proof.
  intros I. apply (d_fun (fun t => mvec n V (fun k => exp (- lam k * t) * mvec n Vi (vsub x th) k) i + th i)); [intros; symmetry; apply mean_value, I|].
  set (z := mvec n Vi (vsub x th)). apply (d_eq _ _ (sumn n (fun k => V i k * (- lam k * exp (- lam k * a) * z k)) + 0)).
  - rewrite Rplus_0_r, K_mvec by exact I. unfold mvec at 1, dot. apply sumn_ext. intros k Hk. f_equal.
    rewrite (mvec_ext n Vi _ (vscal (-1) (mvec n V (fun k => exp (- lam k * a) * z k)))) by (intros; unfold vsub, vscal; rewrite mean_value by assumption; fold z; ring).
    rewrite mvec_vscal, (inverse_mvec n Vi V _ k (de_l m De) Hk). ring.
  - apply d_plus; [|apply d_const]. unfold mvec, dot. apply (sumn_deriv n (fun k t => V i k * (exp (- lam k * t) * z k)) (fun k t => V i k * (- lam k * exp (- lam k * t) * z k))).
    intros k Hk. apply d_scal. eapply d_eq; [|apply (d_mult (fun t => exp (- lam k * t)) (fun _ => z k)); [apply d_exp|apply d_const]]. ring.
Qed.
(** its integral from 0 *)
Definition mean_integral (x : vec) (a : R) : vec := fun i => mvec n V (fun k => Dk a k * mvec n Vi (vsub x th) k) i + th i * a.
Lemma mean_integral_zero x i : mean_integral x 0 i = 0.
Proof. unfold mean_integral, mvec, dot. rewrite sumn_zero; [ring|]. intros k Hk. unfold Dk. rewrite Rmult_0_r, exp_0. unfold Rdiv. ring. Qed.
Lemma mean_integral_deriv x a i : (i < n)%nat -> derivable_pt_lim (fun t => mean_integral x t i) a (mean_at x a i).
Proof.
  intros I. rewrite mean_value by exact I. unfold mean_integral. set (z := mvec n Vi (vsub x th)). apply d_plus; [|apply d_lin].
  unfold mvec, dot. apply (sumn_deriv n (fun k t => V i k * (Dk t k * z k)) (fun k t => V i k * (exp (- lam k * t) * z k))). intros k Hk. apply d_scal.
  eapply d_eq; [|apply (d_mult (fun t => Dk t k) (fun _ => z k)); [apply Dk_deriv, Hk|apply d_const]]. ring.
Qed.
Lemma average_value x a i : (i < n)%nat -> a <> 0 ->
  vadd (mvec n (sandwich n V (fun k => (1 - exp (- lam k * a)) / (lam k * a)) Vi) x) (vsub th (mvec n (sandwich n V (fun k => (1 - exp (- lam k * a)) / (lam k * a)) Vi) th)) i = mean_integral x a i / a.
Proof.
  intros I Ha. set (d := fun k => (1 - exp (- lam k * a)) / (lam k * a)). change (mvec n (sandwich n V d Vi) x i + (th i - mvec n (sandwich n V d Vi) th i) = mean_integral x a i / a). rewrite !sandwich_mvec. unfold mean_integral.
  assert (E : forall y, mvec n V (fun k => d k * mvec n Vi y k) i * a = mvec n V (fun k => Dk a k * mvec n Vi y k) i).
  { intros y. unfold mvec at 1 3, dot. rewrite <- sumn_scal_r. apply sumn_ext. intros k Hk. unfold d, Dk. field. split; [exact (proj1 Re k Hk)|exact Ha]. }
  assert (Df : mvec n V (fun k => Dk a k * mvec n Vi (vsub x th) k) i = mvec n V (fun k => Dk a k * mvec n Vi x k) i - mvec n V (fun k => Dk a k * mvec n Vi th k) i).
  { rewrite <- mvec_vsub. apply mvec_ext. intros k Hk. rewrite mvec_vsub. unfold vsub. ring. }
  rewrite Df, <- !E. field. exact Ha.
Qed.
End Spectral.
