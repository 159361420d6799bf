(** Portfolio optimisation: C60, C70. *)
From Verif Require Import Base PyDate DayCount PyList KeyRate Curve RVec Deriv Multi P_Multi PortOpt.
From Coq Require Import Reals Lra.
Open Scope R_scope.

(** ---- specification ---- *)
Definition symmetric (n : nat) (C : mat) : Prop := forall i j, (i < n)%nat -> (j < n)%nat -> C i j = C j i.
Definition psd (n : nat) (C : mat) : Prop := forall z : vec, 0 <= sumn n (fun i => sumn n (fun j => z i * C i j * z j)).
(** mean and variance of the return of the portfolio w *)
Definition expected_return (n : nat) (mean w : vec) : R := sumn n (fun i => w i * mean i).
Definition return_variance (n : nat) (C : mat) (w : vec) : R := sumn n (fun i => sumn n (fun j => w i * C i j * w j)).
(** a point at which every constraint and bound of a problem holds *)
Definition feasible (p : problem) (w : vec) : Prop :=
  (forall c k, In c (p_constraints p) -> (k < c_dim c)%nat -> match c_type c with Eq => c_fun c w k = 0 | Ineq => 0 <= c_fun c w k end) /\
  forall i, (i < p_dim p)%nat -> (forall l, p_lower p = Some l -> l <= w i) /\ (forall u, p_upper p = Some u -> w i <= u).
(** What a successful run of the optimiser promises: the Karush-Kuhn-Tucker conditions for the gradient it was given.
    [G c k] is the gradient of component k of the c-th constraint, [mult], [lo], [hi] the multipliers. *)
Definition kkt (p : problem) (w : vec) : Prop :=
  feasible p w /\ exists (G : nat -> nat -> vec) (mult : nat -> nat -> R) (lo hi : vec),
    (forall q c k, nth_error (p_constraints p) q = Some c -> (k < c_dim c)%nat ->
       (forall i, (i < p_dim p)%nat -> partial_deriv (fun v => c_fun c v k) w i (G q k i)) /\
       (c_type c = Ineq -> 0 <= mult q k /\ mult q k * c_fun c w k = 0)) /\
    (forall i, (i < p_dim p)%nat -> 0 <= lo i /\ 0 <= hi i /\ (p_lower p = None -> lo i = 0) /\ (p_upper p = None -> hi i = 0) /\
       (forall l, p_lower p = Some l -> lo i * (w i - l) = 0) /\ (forall u, p_upper p = Some u -> hi i * (u - w i) = 0)) /\
    forall i, (i < p_dim p)%nat ->
      p_jac p w i = sumn (List.length (p_constraints p)) (fun q => match nth_error (p_constraints p) q with Some c => sumn (c_dim c) (fun k => mult q k * G q k i) | None => 0 end) + lo i - hi i.

(** ---- derivatives of linear and quadratic forms ---- *)
Lemma dot_upd' n g x i t : (i < n)%nat -> sumn n (fun j => g j * upd x i t j) = sumn n (fun j => g j * x j) - g i * x i + g i * t.
Proof. exact (dot_upd n g x i t). Qed.
Lemma linear_partial n g x i : (i < n)%nat -> partial_deriv (fun v => sumn n (fun j => g j * v j)) x i (g i).
Proof.
  intros I. unfold partial_deriv. apply (d_fun (fun t => (sumn n (fun j => g j * x j) - g i * x i) + g i * t)); [intros t; rewrite dot_upd' by exact I; reflexivity|]. apply d_affine.
Qed.
Lemma upd_same x i t : upd x i t i = t.
Proof. unfold upd. rewrite Nat.eqb_refl. reflexivity. Qed.
Lemma d_sumn n (f : nat -> R -> R) (f' : nat -> R) t : (forall i, (i < n)%nat -> derivable_pt_lim (f i) t (f' i)) -> derivable_pt_lim (fun t => sumn n (fun i => f i t)) t (sumn n f').
Proof. induction n as [|n IH]; intros H; cbn; [apply d_const|]. apply d_plus; [apply IH; intros; apply H; lia|apply H; lia]. Qed.
Lemma d_upd x i j : derivable_pt_lim (fun t => upd x i t j) (x i) (delta i j).
Proof.
  unfold upd, delta. rewrite (Nat.eqb_sym i j). destruct (Nat.eqb_spec j i) as [->|]; [apply d_id|apply d_const].
Qed.
Lemma upd_id x i j : upd x i (x i) j = x j.
Proof. unfold upd. destruct (Nat.eqb_spec j i) as [->|]; reflexivity. Qed.
Lemma quad_partial n C w i : (i < n)%nat -> partial_deriv (return_variance n C) w i (sumn n (fun j => (C i j + C j i) * w j)).
Proof.
  intros I. unfold partial_deriv, return_variance. eapply d_eq; [|apply d_sumn; intros a Ha; apply d_sumn; intros b Hb; apply (d_mult (fun t => upd w i t a * C a b) (fun t => upd w i t b) (w i) (delta i a * C a b + upd w i (w i) a * 0) (delta i b))].
  - rewrite (sumn_ext n _ (fun a => delta i a * sumn n (fun b => C a b * w b) + w a * C a i)).
    + rewrite sumn_plus, (sumn_delta n i (fun a => sumn n (fun b => C a b * w b)) I), <- sumn_plus. apply sumn_ext. intros. ring.
    + intros a Ha. cbv beta. rewrite <- sumn_scal. rewrite (sumn_ext n _ (fun b => delta i a * (C a b * w b) + delta i b * (w a * C a b))) by (intros b Hb; rewrite !upd_id; ring).
      rewrite sumn_plus. f_equal. apply (sumn_delta n i (fun b => w a * C a b) I).
  - apply (d_mult (fun t => upd w i t a) (fun _ => C a b)); [apply d_upd|apply d_const].
  - apply d_upd.
Qed.
Lemma objective_variance n C w : dot n w (mvec n C w) = return_variance n C w.
Proof. unfold dot, mvec, return_variance. apply sumn_ext. intros i I. unfold dot. rewrite <- sumn_scal. apply sumn_ext. intros. ring. Qed.
Lemma partial_fun F F' x i d : (forall y, F y = F' y) -> partial_deriv F x i d -> partial_deriv F' x i d.
Proof. intros E. apply d_fun. intros t. apply E. Qed.
Lemma partial_unique F x i d d' : partial_deriv F x i d -> partial_deriv F x i d' -> d = d'.
Proof. apply uniqueness_limite. Qed.

(** C60.  The gradient functions handed to the optimiser are the gradients of the objectives handed to it, at every
    weight vector, exactly when the covariance matrix is symmetric. *)
Theorem C60_variance_gradient : forall n mean C o target short, new_optimizer n mean C = Ok o ->
  (symmetric n C <-> forall w i, (i < n)%nat -> partial_deriv (p_fun (variance_problem o target short)) w i (p_jac (variance_problem o target short) w i)).
Proof.
  intros n mean C o target short N. destruct n as [|k]; [discriminate|]. cbn [new_optimizer] in N. injection N as <-. set (n := S k). cbn [variance_problem p_fun p_jac po_n po_cov]. fold n.
  assert (T : forall w i, (i < n)%nat -> partial_deriv (fun w => dot n w (mvec n C w)) w i (sumn n (fun j => (C i j + C j i) * w j))) by (intros w i I; apply (partial_fun (return_variance n C)); [intros; symmetry; apply objective_variance|apply quad_partial, I]).
  split.
  - intros Sy w i I. eapply d_eq; [|apply T, I]. unfold vscal, mvec, dot. rewrite <- sumn_scal. apply sumn_ext. intros j J. rewrite (Sy j i J I). ring.
  - intros H i j I J. pose proof (partial_unique _ _ _ _ _ (H (delta j) i I) (T (delta j) i I)) as E. unfold vscal, mvec, dot in E.
    rewrite (sumn_ext n (fun q => C i q * delta j q) (fun q => delta j q * C i q)) in E by (intros; ring). rewrite (sumn_ext n (fun q => (C i q + C q i) * delta j q) (fun q => delta j q * (C i q + C q i))) in E by (intros; ring).
    rewrite (sumn_delta n j (fun q => C i q) J), (sumn_delta n j (fun q => C i q + C q i) J) in E. lra.
Qed.
Print Assumptions C60_variance_gradient.
Theorem C60_utility_gradient : forall n mean C o wealth param short, new_optimizer n mean C = Ok o -> param * wealth <> 0 ->
  (symmetric n C <-> forall w i, (i < n)%nat -> partial_deriv (p_fun (utility_problem o wealth param short)) w i (p_jac (utility_problem o wealth param short) w i)).
Proof.
  intros n mean C o wealth param short N A0. destruct n as [|k]; [discriminate|]. cbn [new_optimizer] in N. injection N as <-. set (n := S k). cbn [utility_problem p_fun p_jac po_n po_cov po_mean]. fold n. set (a := param * wealth / 2).
  assert (A : a <> 0) by (unfold a; intros X; apply A0; lra).
  assert (T : forall w i, (i < n)%nat -> partial_deriv (fun w => - dot n w mean + dot n w (mvec n C w) * a) w i (- mean i + a * sumn n (fun j => (C i j + C j i) * w j))).
  { intros w i I. unfold partial_deriv. apply (d_fun (fun t => - sumn n (fun j => mean j * upd w i t j) + a * return_variance n C (upd w i t))).
    - intros t. rewrite objective_variance. unfold dot. f_equal; [f_equal; apply sumn_ext; intros; ring|ring].
    - apply d_plus; [apply d_opp; exact (linear_partial n mean w i I)|apply d_scal; exact (quad_partial n C w i I)]. }
  split.
  - intros Sy w i I. eapply d_eq; [|apply T, I]. unfold vadd, vscal, mvec, dot. f_equal. rewrite (Rmult_comm 2 a), Rmult_assoc. f_equal. rewrite <- sumn_scal. apply sumn_ext. intros j J. rewrite (Sy j i J I). ring.
  - intros H i j I J. pose proof (partial_unique _ _ _ _ _ (H (delta j) i I) (T (delta j) i I)) as E. unfold vadd, vscal, mvec, dot in E.
    rewrite (sumn_ext n (fun q => C i q * delta j q) (fun q => delta j q * C i q)) in E by (intros; ring). rewrite (sumn_ext n (fun q => (C i q + C q i) * delta j q) (fun q => delta j q * (C i q + C q i))) in E by (intros; ring).
    rewrite (sumn_delta n j (fun q => C i q) J), (sumn_delta n j (fun q => C i q + C q i) J) in E. apply (Rmult_eq_reg_l a); [lra|exact A].
Qed.
Print Assumptions C60_utility_gradient.

(** ---- the portfolios the problems are about ---- *)
Definition invests (n : nat) (short : bool) (w : vec) : Prop := sumn n w = 1 /\ (short = false -> forall i, (i < n)%nat -> 0 <= w i).
Lemma below_sum n w i : (forall j, (j < n)%nat -> 0 <= w j) -> (i < n)%nat -> w i <= sumn n w.
Proof.
  intros P I. induction n as [|n IH]; [lia|]. cbn. destruct (Nat.eq_dec i n) as [->|Ne].
  - assert (0 <= sumn n w) by (apply sumn_nonneg; intros; apply P; lia). lra.
  - assert (w i <= sumn n w) by (apply IH; [intros; apply P|]; lia). pose proof (P n ltac:(lia)). lra.
Qed.
Lemma variance_feasible n mean C o target short w : new_optimizer n mean C = Ok o ->
  (feasible (variance_problem o target short) w <-> invests n short w /\ expected_return n mean w = target).
Proof.
  intros N. destruct n as [|k]; [discriminate|]. cbn [new_optimizer] in N. injection N as <-. set (n := S k). unfold feasible, invests, expected_return. cbn [variance_problem p_constraints p_dim p_lower p_upper po_n po_mean]. fold n.
  assert (Rows : dot n (fun _ => 1) w = sumn n w /\ dot n mean w = sumn n (fun i => w i * mean i)) by (unfold dot; split; apply sumn_ext; intros; ring). destruct Rows as [R1 R2].
  split.
  - intros [H B]. pose proof (H _ 0%nat (or_introl eq_refl) ltac:(cbn; lia)) as H0. pose proof (H _ 1%nat (or_introl eq_refl) ltac:(cbn; lia)) as H1. cbn [return_constraint c_type c_fun po_n po_mean] in H0, H1. unfold vsub, mvec in H0, H1. fold n in H0, H1. split; [split|]; [lra| |lra].
    intros -> i I. apply (proj1 (B i I) 0). reflexivity.
  - intros [[S1 P] T]. split.
    + intros c q [<-|Hc] K.
      * cbn [return_constraint c_dim c_type c_fun po_n po_mean] in *. unfold vsub, mvec. fold n. destruct q as [|[|q]]; [lra|lra|lia].
      * destruct short; [destruct Hc|]. destruct Hc as [<-|[]]. cbn in *. apply P; [reflexivity|exact K].
    + intros i I. destruct short; cbn [lower_bound upper_bound]; split; intros u E; try discriminate; injection E as <-; [apply P; auto|]. rewrite <- S1. apply below_sum; [intros; apply P; auto|exact I].
Qed.
Lemma utility_feasible n mean C o wealth param short w : new_optimizer n mean C = Ok o ->
  (feasible (utility_problem o wealth param short) w <-> invests n short w).
Proof.
  intros N. destruct n as [|k]; [discriminate|]. cbn [new_optimizer] in N. injection N as <-. set (n := S k). unfold feasible, invests. cbn [utility_problem p_constraints p_dim p_lower p_upper po_n po_mean]. fold n.
  assert (R1 : dot n (fun _ => 1) w = sumn n w) by (unfold dot; apply sumn_ext; intros; ring).
  split.
  - intros [H B]. pose proof (H _ 0%nat (or_introl eq_refl) ltac:(cbn; lia)) as H0. cbn [budget_constraint c_type c_fun po_n] in H0. fold n in H0. split; [lra|].
    intros -> i I. apply (proj1 (B i I) 0). reflexivity.
  - intros [S1 P]. split.
    + intros c q [<-|[]] K. cbn [budget_constraint c_dim c_type c_fun po_n] in *. fold n. lra.
    + intros i I. destruct short; cbn [lower_bound upper_bound]; split; intros u E; try discriminate; injection E as <-; [apply P; auto|]. rewrite <- S1. apply below_sum; [intros; apply P; auto|exact I].
Qed.
(** a convex quadratic lies above its tangents *)
Lemma variance_above n C w v : symmetric n C -> psd n C -> return_variance n C v >= return_variance n C w + sumn n (fun i => 2 * sumn n (fun j => C i j * w j) * (v i - w i)).
Proof.
  intros Sy Ps. pose proof (Ps (fun i => v i - w i)) as P.
  assert (Sw : sumn n (fun i => sumn n (fun j => w i * C i j * v j)) = sumn n (fun i => sumn n (fun j => v i * C i j * w j))).
  { rewrite sumn_swap. apply sumn_ext. intros i I. apply sumn_ext. intros j J. rewrite (Sy j i J I). ring. }
  assert (E : sumn n (fun i => sumn n (fun j => (v i - w i) * C i j * (v j - w j))) = return_variance n C v - return_variance n C w - sumn n (fun i => 2 * sumn n (fun j => C i j * w j) * (v i - w i))).
  { unfold return_variance. rewrite (sumn_ext n (fun i => 2 * sumn n (fun j => C i j * w j) * (v i - w i)) (fun i => 2 * sumn n (fun j => v i * C i j * w j) - 2 * sumn n (fun j => w i * C i j * w j))).
    2:{ intros i I. rewrite <- !sumn_scal. rewrite <- sumn_scal_r, <- sumn_minus. apply sumn_ext. intros. ring. }
    rewrite sumn_minus, !sumn_scal. rewrite (sumn_ext n (fun i => sumn n (fun j => (v i - w i) * C i j * (v j - w j))) (fun i => sumn n (fun j => v i * C i j * v j) + sumn n (fun j => w i * C i j * w j) - sumn n (fun j => v i * C i j * w j) - sumn n (fun j => w i * C i j * v j))).
    2:{ intros i I. rewrite <- sumn_plus, <- !sumn_minus. apply sumn_ext. intros. ring. }
    rewrite !sumn_minus, sumn_plus, Sw. ring. }
  lra.
Qed.
(** bounds in the Karush-Kuhn-Tucker conditions push the right way *)
Lemma bound_push (l u : option R) (lo hi wi vi : R) : 0 <= lo -> 0 <= hi -> (l = None -> lo = 0) -> (u = None -> hi = 0) -> (forall b, l = Some b -> lo * (wi - b) = 0) -> (forall b, u = Some b -> hi * (b - wi) = 0) ->
  (forall b, l = Some b -> b <= vi) -> (forall b, u = Some b -> vi <= b) -> 0 <= (lo - hi) * (vi - wi).
Proof.
  intros P Q N1 N2 L U Vl Vu. assert (H1 : 0 <= lo * (vi - wi)).
  { destruct l as [b|]; [|rewrite N1 by reflexivity; lra]. specialize (L b eq_refl). specialize (Vl b eq_refl). replace (lo * (vi - wi)) with (lo * (vi - b)) by lra. apply Rmult_le_pos; lra. }
  assert (H2 : 0 <= - (hi * (vi - wi))).
  { destruct u as [b|]; [|rewrite N2 by reflexivity; lra]. specialize (U b eq_refl). specialize (Vu b eq_refl). replace (- (hi * (vi - wi))) with (hi * (b - vi)) by lra. apply Rmult_le_pos; lra. }
  lra.
Qed.
Lemma upper_lower_bounds p w : feasible p w -> forall i, (i < p_dim p)%nat -> (forall l, p_lower p = Some l -> l <= w i) /\ (forall u, p_upper p = Some u -> w i <= u).
Proof. intros [_ H]. exact H. Qed.
(** no descent direction towards a feasible portfolio *)
Lemma no_descent p w v (slope : nat -> nat -> vec) :
  (forall q c k, nth_error (p_constraints p) q = Some c -> (k < c_dim c)%nat -> (forall i, (i < p_dim p)%nat -> partial_deriv (fun v => c_fun c v k) w i (slope q k i)) /\
     sumn (p_dim p) (fun i => slope q k i * (v i - w i)) = c_fun c v k - c_fun c w k) ->
  kkt p w -> feasible p v -> 0 <= sumn (p_dim p) (fun i => p_jac p w i * (v i - w i)).
Proof.
  intros Aff [Fw (G & mult & lo & hi & HG & HB & HJ)] Fv. set (n := p_dim p) in *. set (cs := p_constraints p) in *.
  rewrite (sumn_ext n _ (fun i => sumn (List.length cs) (fun q => match nth_error cs q with Some c => sumn (c_dim c) (fun k => mult q k * (slope q k i * (v i - w i))) | None => 0 end) + (lo i - hi i) * (v i - w i))).
  2:{ intros i I. rewrite HJ by exact I. match goal with |- (?a + lo i - hi i) * _ = _ => replace ((a + lo i - hi i) * (v i - w i)) with (a * (v i - w i) + (lo i - hi i) * (v i - w i)) by ring end. f_equal. rewrite <- sumn_scal_r. apply sumn_ext. intros q Q.
      destruct (nth_error cs q) as [c|] eqn:Ec; [|ring]. rewrite <- sumn_scal_r. apply sumn_ext. intros k K. rewrite (partial_unique _ _ _ _ _ (proj1 (HG q c k Ec K) i I) (proj1 (Aff q c k Ec K) i I)). ring. }
  rewrite sumn_plus, sumn_swap. apply Rplus_le_le_0_compat.
  - apply sumn_nonneg. intros q Q. destruct (nth_error cs q) as [c|] eqn:Ec; [|rewrite sumn_0; lra]. rewrite sumn_swap. apply sumn_nonneg. intros k K. rewrite sumn_scal, (proj2 (Aff q c k Ec K)).
    pose proof (proj1 Fw c k (nth_error_In _ _ Ec) K) as Hw. pose proof (proj1 Fv c k (nth_error_In _ _ Ec) K) as Hv. destruct (c_type c) eqn:Ty; [rewrite Hw, Hv; lra|]. destruct (proj2 (HG q c k Ec K) Ty) as [M0 M1]. assert (0 <= mult q k * c_fun c v k) by (apply Rmult_le_pos; assumption). lra.
  - apply sumn_nonneg. intros i I. destruct (HB i I) as (L0 & H0 & L1 & H1 & L2 & H2). destruct (proj2 Fv i I) as [Vl Vu]. apply (bound_push (p_lower p) (p_upper p)); assumption.
Qed.
Lemma affine_slope n (g : vec) (c : R) (w v : vec) : (forall i, (i < n)%nat -> partial_deriv (fun v => dot n g v - c) w i (g i)) /\ sumn n (fun i => g i * (v i - w i)) = (dot n g v - c) - (dot n g w - c).
Proof.
  split.
  - intros i I. unfold partial_deriv. eapply d_eq; [|apply d_minus; [exact (linear_partial n g w i I)|apply d_const]]. ring.
  - unfold dot. rewrite (sumn_ext n _ (fun i => g i * v i - g i * w i)) by (intros; ring). rewrite sumn_minus. ring.
Qed.
Lemma coordinate_slope n k (w v : vec) : (k < n)%nat -> (forall i, (i < n)%nat -> partial_deriv (fun v => v k) w i (delta k i)) /\ sumn n (fun i => delta k i * (v i - w i)) = v k - w k.
Proof.
  intros K. split; [|apply (sumn_delta n k (fun i => v i - w i) K)]. intros i I. unfold partial_deriv. rewrite delta_sym. apply d_upd.
Qed.

(** the search starts from equal weights, a full investment inside the bounds *)
Theorem C60_start : forall n mean C o target wealth param short, new_optimizer n mean C = Ok o ->
  (forall i, p_x0 (variance_problem o target short) i = 1 / INR n /\ p_x0 (utility_problem o wealth param short) i = 1 / INR n) /\
  invests n short (p_x0 (variance_problem o target short)) /\ feasible (utility_problem o wealth param short) (p_x0 (utility_problem o wealth param short)).
Proof.
  intros n mean C o target wealth param short N. pose proof N as N'. destruct n as [|k]; [discriminate|]. cbn [new_optimizer] in N. injection N as <-.
  assert (P : 0 < INR (S k)) by (apply lt_0_INR; lia).
  assert (I : invests (S k) short (fun _ => 1 / INR (S k))).
  { split; [rewrite sumn_const; field; lra|]. intros _ i _. apply Rlt_le, Rdiv_lt_0_compat; lra. }
  split; [intros i; split; reflexivity|]. split; [exact I|]. apply (utility_feasible _ _ _ _ wealth param short _ N'). exact I.
Qed.
Print Assumptions C60_start.

(** only a problem without assets cannot be set up *)
Theorem C60_no_assets : forall n mean C, (n = 0%nat -> new_optimizer n mean C = Err ValueError) /\ (n <> 0%nat -> exists o, new_optimizer n mean C = Ok o).
Proof.
  intros n mean C. destruct n as [|k]; split; intros H; try contradiction; try discriminate; [reflexivity|]. eexists. reflexivity.
Qed.
Print Assumptions C60_no_assets.

(** C60.  If the optimiser delivers a Karush-Kuhn-Tucker point of the problem it is given, the weights returned are those
    of a portfolio with the target return and, among all such portfolios, least variance: covariances symmetric and
    positive semidefinite, short positions allowed or not. *)
Theorem C60_minimum_variance : forall minimize n mean C o target short, new_optimizer n mean C = Ok o -> symmetric n C -> psd n C -> kkt (variance_problem o target short) (find_minimum_variance_portfolio minimize o target short) ->
  let w := find_minimum_variance_portfolio minimize o target short in
  invests n short w /\ expected_return n mean w = target /\
  forall v, invests n short v -> expected_return n mean v = target -> return_variance n C w <= return_variance n C v.
Proof.
  intros minimize n mean C o target short N Sy Ps K w. fold w in K. pose proof (proj1 (variance_feasible n mean C o target short w N) (proj1 K)) as [Iw Tw]. split; [exact Iw|]. split; [exact Tw|]. intros v Iv Tv.
  pose proof (proj2 (variance_feasible n mean C o target short v N) (conj Iv Tv)) as Fv.
  assert (Nd : 0 <= sumn (p_dim (variance_problem o target short)) (fun i => p_jac (variance_problem o target short) w i * (v i - w i))).
  { apply (no_descent _ w v (fun q k => match q with O => match k with O => fun _ => 1 | _ => po_mean o end | _ => delta k end)); [|exact K|exact Fv].
    intros q c k Ec Kc. cbn [variance_problem p_constraints p_dim] in *. destruct q as [|q].
    - injection Ec as <-. cbn [return_constraint c_dim c_fun] in *. unfold vsub, mvec. destruct k as [|[|k]]; [apply affine_slope|apply affine_slope|lia].
    - destruct short; [destruct q; discriminate|]. destruct q as [|q]; [|destruct q; discriminate]. injection Ec as <-. cbn [long_only_constraint c_dim c_fun] in *. apply coordinate_slope, Kc. }
  destruct n as [|k]; [discriminate|]. cbn [new_optimizer] in N. injection N as <-. set (n := S k) in *. cbn [variance_problem p_dim p_jac po_n po_cov] in Nd. fold n in Nd. unfold vscal, mvec, dot in Nd.
  pose proof (variance_above n C w v Sy Ps). lra.
Qed.
Print Assumptions C60_minimum_variance.

(** expected exponential utility 1 - E exp(-a (1 + R)), R normal with the mean and variance of w's return *)
Definition expected_utility (n : nat) (mean : vec) (C : mat) (a : R) (w : vec) : R :=
  1 - exp (- a * (1 + expected_return n mean w) + a * a * return_variance n C w / 2).
Theorem C60_maximum_utility : forall minimize n mean C o wealth param short, new_optimizer n mean C = Ok o -> symmetric n C -> psd n C -> 0 <= param * wealth ->
  kkt (utility_problem o wealth param short) (find_maximum_utility_portfolio minimize o wealth param short) ->
  let w := find_maximum_utility_portfolio minimize o wealth param short in
  invests n short w /\ forall v, invests n short v -> expected_utility n mean C (param * wealth) v <= expected_utility n mean C (param * wealth) w.
Proof.
  intros minimize n mean C o wealth param short N Sy Ps A0 K w. fold w in K. pose proof (proj1 (utility_feasible n mean C o wealth param short w N) (proj1 K)) as Iw. split; [exact Iw|]. intros v Iv.
  pose proof (proj2 (utility_feasible n mean C o wealth param short v N) Iv) as Fv.
  assert (Nd : 0 <= sumn (p_dim (utility_problem o wealth param short)) (fun i => p_jac (utility_problem o wealth param short) w i * (v i - w i))).
  { apply (no_descent _ w v (fun q k _ => 1)); [|exact K|exact Fv].
    intros q c k Ec Kc. cbn [utility_problem p_constraints p_dim] in *. destruct q as [|q]; [|destruct q; discriminate]. injection Ec as <-. cbn [budget_constraint c_dim c_fun] in *. apply (affine_slope (po_n o) (fun _ => 1) 1). }
  destruct n as [|k]; [discriminate|]. cbn [new_optimizer] in N. injection N as <-. set (n := S k) in *. cbn [utility_problem p_dim p_jac po_n po_cov po_mean] in Nd. fold n in Nd. unfold vadd, vscal, mvec, dot in Nd.
  set (a := param * wealth) in *. pose proof (variance_above n C w v Sy Ps) as Va.
  assert (E : sumn n (fun i => (- mean i + 2 * (a / 2) * sumn n (fun j => C i j * w j)) * (v i - w i)) = - (expected_return n mean v - expected_return n mean w) + a / 2 * sumn n (fun i => 2 * sumn n (fun j => C i j * w j) * (v i - w i))).
  { unfold expected_return. rewrite <- sumn_minus, <- sumn_opp, <- sumn_scal, <- sumn_plus. apply sumn_ext. intros. field. }
  rewrite E in Nd. unfold expected_utility. set (sl := sumn n (fun i => 2 * _ * _)) in *. set (mv := expected_return n mean v) in *. set (mw := expected_return n mean w) in *. set (vv := return_variance n C v) in *. set (vw := return_variance n C w) in *.
  assert (Z : a * (a / 2 * (vv - vw) - (mv - mw)) >= 0). { apply Rle_ge, Rmult_le_pos; [exact A0|]. assert (a / 2 * sl <= a / 2 * (vv - vw)) by (apply Rmult_le_compat_l; lra). lra. }
  assert (Ex : - a * (1 + mw) + a * a * vw / 2 <= - a * (1 + mv) + a * a * vv / 2) by lra. destruct Ex as [Ex|Ex]; [apply exp_increasing in Ex; lra|rewrite Ex; lra].
Qed.
Print Assumptions C60_maximum_utility.

(** ---- C70: the efficient frontier ---- *)
Lemma vmin_le k v i : (i <= k)%nat -> vmin k v <= v i.
Proof. induction k as [|k IH]; intros H; cbn; [replace i with 0%nat by lia; lra|]. destruct (Nat.eq_dec i (S k)) as [->|]; [apply Rmin_r|]. eapply Rle_trans; [apply Rmin_l|apply IH; lia]. Qed.
Lemma vmax_ge k v i : (i <= k)%nat -> v i <= vmax k v.
Proof. induction k as [|k IH]; intros H; cbn; [replace i with 0%nat by lia; lra|]. destruct (Nat.eq_dec i (S k)) as [->|]; [apply Rmax_r|]. eapply Rle_trans; [apply IH; lia|apply Rmax_l]. Qed.
Lemma vmin_in k v : exists i, (i <= k)%nat /\ v i = vmin k v.
Proof. induction k as [|k (i & I & E)]; [exists 0%nat; auto|]. cbn. unfold Rmin. destruct (Rle_dec _ _); [exists i; split; [lia|exact E]|exists (S k); split; [lia|reflexivity]]. Qed.
Lemma vmax_in k v : exists i, (i <= k)%nat /\ v i = vmax k v.
Proof. induction k as [|k (i & I & E)]; [exists 0%nat; auto|]. cbn. unfold Rmax. destruct (Rle_dec _ _); [exists (S k); split; [lia|reflexivity]|exists i; split; [lia|exact E]]. Qed.
Lemma vertex_return n mean i : (i < n)%nat -> sumn n (delta i) = 1 /\ expected_return n mean (delta i) = mean i.
Proof. intros I. split; [rewrite (sumn_ext n _ (fun j => delta i j * 1)) by (intros; ring); apply (sumn_delta n i (fun _ => 1) I)|apply (sumn_delta n i mean I)]. Qed.
Lemma mixture n mean (a b : vec) l : sumn n (fun i => l * a i + (1 - l) * b i) = l * sumn n a + (1 - l) * sumn n b /\ expected_return n mean (fun i => l * a i + (1 - l) * b i) = l * expected_return n mean a + (1 - l) * expected_return n mean b.
Proof. unfold expected_return. rewrite <- !sumn_scal, <- !sumn_plus. split; apply sumn_ext; intros; ring. Qed.
Lemma delta_nonneg i j : 0 <= delta i j.
Proof. unfold delta. destruct (Nat.eqb i j); lra. Qed.

(** Without short positions a target return can be met exactly when it lies between the least and the greatest mean;
    outside, no answer of the optimiser is a portfolio with the target return. *)
Theorem C70_attainable : forall n mean C o target, new_optimizer n mean C = Ok o ->
  ((exists w, invests n false w /\ expected_return n mean w = target) <-> po_min o <= target <= po_max o) /\
  (forall i, (i < n)%nat -> po_min o <= mean i <= po_max o) /\ (exists i j, (i < n)%nat /\ (j < n)%nat /\ mean i = po_min o /\ mean j = po_max o).
Proof.
  intros n mean C o target N. destruct n as [|k]; [discriminate|]. cbn [new_optimizer] in N. injection N as <-. cbn [po_min po_max].
  assert (B : forall i, (i < S k)%nat -> vmin k mean <= mean i <= vmax k mean) by (intros i I; split; [apply vmin_le|apply vmax_ge]; lia).
  destruct (vmin_in k mean) as (i & I & Ei). destruct (vmax_in k mean) as (j & J & Ej).
  split; [|split; [exact B|exists i, j; repeat split; try lia; assumption]]. split.
  - intros (w & [S1 P] & T). specialize (P eq_refl). unfold expected_return in T. split.
    + rewrite <- (Rmult_1_r (vmin k mean)), <- S1, <- T, <- sumn_scal. apply sumn_le. intros q Q. rewrite (Rmult_comm (w q)). apply Rmult_le_compat_r; [apply P, Q|apply B, Q].
    + rewrite <- (Rmult_1_r (vmax k mean)), <- S1, <- T, <- sumn_scal. apply sumn_le. intros q Q. rewrite (Rmult_comm (w q)). apply Rmult_le_compat_r; [apply P, Q|apply B, Q].
  - intros [L U]. destruct (vertex_return (S k) mean i ltac:(lia)) as [Si Ti]. destruct (vertex_return (S k) mean j ltac:(lia)) as [Sj Tj]. rewrite Ei in Ti. rewrite Ej in Tj.
    destruct (Req_EM_T (vmin k mean) (vmax k mean)) as [Eq|Ne].
    + exists (delta i). split; [split; [exact Si|intros _ q _; apply delta_nonneg]|lra].
    + set (l := (vmax k mean - target) / (vmax k mean - vmin k mean)). assert (D : 0 < vmax k mean - vmin k mean) by lra. assert (L0 : 0 <= l <= 1).
      { unfold l. split; [apply Rmult_le_pos; [lra|left; apply Rinv_0_lt_compat, D]|]. apply (Rmult_le_reg_r (vmax k mean - vmin k mean)); [exact D|]. unfold Rdiv. rewrite Rmult_assoc, Rinv_l by lra. lra. }
      exists (fun q => l * delta i q + (1 - l) * delta j q). destruct (mixture (S k) mean (delta i) (delta j) l) as [E1 E2]. split; [split|].
      * rewrite E1, Si, Sj. ring.
      * intros _ q _. pose proof (delta_nonneg i q). pose proof (delta_nonneg j q). apply Rplus_le_le_0_compat; apply Rmult_le_pos; lra.
      * rewrite E2, Ti, Tj. unfold l. field. lra.
Qed.
Print Assumptions C70_attainable.

Lemma ceil_spec x : IZR (ceil x) - 1 < x <= IZR (ceil x).
Proof. unfold ceil. destruct (archimed (- x)) as [A B]. rewrite minus_IZR. lra. Qed.
(** The target returns are evenly spaced from the lower return, stay below the upper return plus one step, and go as far
    as that; one portfolio and one volatility belong to each.  By default all of them can be met without short positions. *)
Theorem C70_returns : forall minimize o lower upper inc short rs vs ws, 0 < inc -> efficient_frontier minimize o lower upper inc short = (rs, vs, ws) ->
  let lo := match lower with Some l => l | None => po_min o + inc end in let hi := match upper with Some u => u | None => po_max o - inc end in
  List.length vs = List.length rs /\ List.length ws = List.length rs /\
  (forall k, (k < List.length rs)%nat -> nth k rs 0 = lo + INR k * inc /\ lo <= nth k rs 0 < hi + inc) /\
  hi + inc <= lo + INR (List.length rs) * inc /\
  (lower = None -> upper = None -> forall r, In r rs -> po_min o <= r <= po_max o).
Proof.
  intros minimize o lower upper inc short rs vs ws P E lo hi. unfold efficient_frontier in E. fold lo hi in E. injection E as <- <- <-. set (x := (hi + inc - lo) / inc). set (len := Z.to_nat (ceil x)).
  assert (Lr : List.length (arange lo (hi + inc) inc) = len) by (unfold arange; rewrite map_length, seq_length; reflexivity).
  assert (Xv : x * inc = hi + inc - lo) by (unfold x; field; lra). destruct (ceil_spec x) as [C1 C2].
  assert (Nk : forall k, (k < len)%nat -> nth k (arange lo (hi + inc) inc) 0 = lo + INR k * inc /\ lo <= nth k (arange lo (hi + inc) inc) 0 < hi + inc).
  { intros k K. assert (V : nth k (arange lo (hi + inc) inc) 0 = lo + INR k * inc) by (unfold arange; fold x len; rewrite (nth_indep _ 0 (lo + INR 0 * inc)) by (rewrite map_length, seq_length; exact K); rewrite (map_nth (fun k => lo + INR k * inc)), seq_nth by exact K; reflexivity).
    split; [exact V|]. rewrite V. pose proof (pos_INR k) as Pk. assert (0 <= INR k * inc) by (apply Rmult_le_pos; lra). split; [lra|]. assert (Kx : INR k <= IZR (ceil x) - 1).
    { rewrite INR_IZR_INZ. assert (Z : (Z.of_nat k <= ceil x - 1)%Z) by (unfold len in K; lia). apply IZR_le in Z. rewrite minus_IZR in Z. exact Z. }
    assert (INR k * inc < x * inc) by (apply Rmult_lt_compat_r; lra). lra. }
  rewrite !map_length, Lr. split; [reflexivity|]. split; [reflexivity|]. split; [exact Nk|]. split.
  - assert (x <= INR len). { unfold len. destruct (Z_le_gt_dec 0 (ceil x)) as [Z|Z]; [rewrite INR_IZR_INZ, Z2Nat.id by exact Z; exact C2|]. assert (IZR (ceil x) <= 0) by (apply IZR_le; lia). pose proof (pos_INR (Z.to_nat (ceil x))). lra. }
    assert (x * inc <= INR len * inc) by (apply Rmult_le_compat_r; lra). lra.
  - intros El Eu r Hr. destruct (In_nth _ _ 0 Hr) as (k & K & V). rewrite Lr in K. destruct (Nk k K) as [_ H]. rewrite V in H. unfold lo, hi in H. rewrite El, Eu in H. lra.
Qed.
Print Assumptions C70_returns.

Lemma psd_variance n C w : psd n C -> 0 <= return_variance n C w.
Proof. intros H. apply (H w). Qed.
(** mixing two portfolios: the variance of a mixture is at most the mixture of the variances *)
Lemma mixture_variance n C a b l : symmetric n C -> psd n C -> 0 <= l <= 1 -> return_variance n C (fun i => l * a i + (1 - l) * b i) <= l * return_variance n C a + (1 - l) * return_variance n C b.
Proof.
  intros Sy Ps L. set (m := fun i => l * a i + (1 - l) * b i). pose proof (variance_above n C m a Sy Ps) as A. pose proof (variance_above n C m b Sy Ps) as B.
  set (g := fun i => 2 * sumn n (fun j => C i j * m j)) in *. assert (Z : l * sumn n (fun i => g i * (a i - m i)) + (1 - l) * sumn n (fun i => g i * (b i - m i)) = 0).
  { rewrite <- !sumn_scal, <- sumn_plus. apply sumn_zero. intros i I. unfold m. ring. }
  assert (l * return_variance n C a >= l * (return_variance n C m + sumn n (fun i => g i * (a i - m i)))) by (apply Rle_ge, Rmult_le_compat_l; [lra|apply Rge_le, A]).
  assert ((1 - l) * return_variance n C b >= (1 - l) * (return_variance n C m + sumn n (fun i => g i * (b i - m i)))) by (apply Rle_ge, Rmult_le_compat_l; [lra|apply Rge_le, B]).
  lra.
Qed.
(** If the optimiser delivers a Karush-Kuhn-Tucker point each time, the volatilities are the least ones for the target
    returns and their squares are convex in the return. *)
Theorem C70_volatilities : forall minimize n mean C o lower upper inc short rs vs ws, new_optimizer n mean C = Ok o -> symmetric n C -> psd n C ->
  efficient_frontier minimize o lower upper inc short = (rs, vs, ws) -> (forall r, In r rs -> kkt (variance_problem o r short) (find_minimum_variance_portfolio minimize o r short)) ->
  (forall k, (k < List.length rs)%nat -> let w := nth k ws (fun _ => 0) in
     invests n short w /\ expected_return n mean w = nth k rs 0 /\ 0 <= nth k vs 0 /\ nth k vs 0 * nth k vs 0 = return_variance n C w /\
     forall v, invests n short v -> expected_return n mean v = nth k rs 0 -> nth k vs 0 * nth k vs 0 <= return_variance n C v) /\
  forall i j k l, (i < List.length rs)%nat -> (j < List.length rs)%nat -> (k < List.length rs)%nat -> 0 <= l <= 1 -> nth j rs 0 = l * nth i rs 0 + (1 - l) * nth k rs 0 ->
    nth j vs 0 * nth j vs 0 <= l * (nth i vs 0 * nth i vs 0) + (1 - l) * (nth k vs 0 * nth k vs 0).
Proof.
  intros minimize n mean C o lower upper inc short rs vs ws N Sy Ps E K. unfold efficient_frontier in E. set (rs' := arange _ _ _) in E. injection E as <- <- <-. rename rs' into rs.
  set (W := fun t => find_minimum_variance_portfolio minimize o t short) in *. set (ws := List.map W rs).
  assert (En : po_n o = n /\ po_cov o = C) by (destruct n; [discriminate|]; cbn [new_optimizer] in N; injection N as <-; split; reflexivity). destruct En as [En Ec]. rewrite En, Ec.
  assert (H1 : forall k, (k < List.length rs)%nat -> invests n short (nth k ws (fun _ => 0)) /\ expected_return n mean (nth k ws (fun _ => 0)) = nth k rs 0 /\ 0 <= nth k (List.map (fun w => sqrt (dot n w (mvec n C w))) ws) 0 /\
     nth k (List.map (fun w => sqrt (dot n w (mvec n C w))) ws) 0 * nth k (List.map (fun w => sqrt (dot n w (mvec n C w))) ws) 0 = return_variance n C (nth k ws (fun _ => 0)) /\
     forall v, invests n short v -> expected_return n mean v = nth k rs 0 -> nth k (List.map (fun w => sqrt (dot n w (mvec n C w))) ws) 0 * nth k (List.map (fun w => sqrt (dot n w (mvec n C w))) ws) 0 <= return_variance n C v).
  { intros k Hk. assert (Wk : nth k ws (fun _ => 0) = W (nth k rs 0)) by (unfold ws; rewrite (nth_indep _ (fun _ => 0) (W 0)) by (rewrite map_length; exact Hk); apply (map_nth W)).
    assert (Vk : nth k (List.map (fun w => sqrt (dot n w (mvec n C w))) ws) 0 = sqrt (return_variance n C (nth k ws (fun _ => 0)))).
    { rewrite (nth_indep _ 0 (sqrt (dot n (fun _ => 0) (mvec n C (fun _ => 0))))) by (rewrite map_length; unfold ws; rewrite map_length; exact Hk). rewrite (map_nth (fun w => sqrt (dot n w (mvec n C w)))), objective_variance. reflexivity. }
    pose proof (C60_minimum_variance minimize n mean C o (nth k rs 0) short N Sy Ps (K _ (nth_In _ _ Hk))) as M. change (find_minimum_variance_portfolio minimize o (nth k rs 0) short) with (W (nth k rs 0)) in M. cbv zeta in M. rewrite <- Wk in M. destruct M as (M1 & M2 & M3).
    rewrite Vk. split; [exact M1|]. split; [exact M2|]. split; [apply sqrt_pos|]. rewrite sqrt_sqrt by (apply psd_variance, Ps). split; [reflexivity|]. exact M3. }
  split; [exact H1|]. intros i j k l Hi Hj Hk L Rj. destruct (H1 i Hi) as (Ii & Ti & _ & Vi & _). destruct (H1 k Hk) as (Ik & Tk & _ & Vk & _). destruct (H1 j Hj) as (_ & _ & _ & _ & Mj). rewrite Vi, Vk.
  set (wi := nth i ws _) in *. set (wk := nth k ws _) in *. destruct (mixture n mean wi wk l) as [E1 E2].
  eapply Rle_trans; [apply (Mj (fun q => l * wi q + (1 - l) * wk q))|apply mixture_variance; assumption].
  - split; [rewrite E1, (proj1 Ii), (proj1 Ik); ring|]. intros Sh q Q. apply Rplus_le_le_0_compat; apply Rmult_le_pos; try lra; [apply (proj2 Ii Sh q Q)|apply (proj2 Ik Sh q Q)].
  - rewrite E2, Ti, Tk. symmetry. exact Rj.
Qed.
Print Assumptions C70_volatilities.
(** Sharpe ratios: one per pair, excess return per unit of volatility. *)
Theorem C70_sharpe : forall rs vs f k, (k < List.length rs)%nat -> (k < List.length vs)%nat -> nth k vs 0 <> 0 ->
  List.length (sharpe_ratio rs vs f) = Nat.min (List.length rs) (List.length vs) /\ nth k (sharpe_ratio rs vs f) 0 * nth k vs 0 = nth k rs 0 - f.
Proof.
  intros rs vs f k Hr Hv V. unfold sharpe_ratio. split; [rewrite map_length, combine_length; reflexivity|].
  assert (L : (k < List.length (combine rs vs))%nat) by (rewrite combine_length; lia). rewrite (nth_indep _ 0 ((fst (0, 0) - f) / snd (0, 0))) by (rewrite map_length; exact L). rewrite (map_nth (fun rv => (fst rv - f) / snd rv)).
  assert (C : nth k (combine rs vs) (0, 0) = (nth k rs 0, nth k vs 0)).
  { clear V L. revert vs k Hr Hv. induction rs as [|r rs IH]; intros [|v vs] [|k] Hr Hv; cbn in *; try lia; [reflexivity|]. apply IH; lia. }
  rewrite C. cbn. field. exact V.
Qed.
Print Assumptions C70_sharpe.

(** ---- a concrete case: two uncorrelated assets of unit variance, means 10% and 20%, target 15% ---- *)
Definition two_means : vec := vec_of [1 / 10; 1 / 5].
Definition half_half : optimizer := fun _ _ => 1 / 2.
Definition tilted : optimizer := fun _ => vec_of [9 / 20; 11 / 20].
Lemma identity_psd n : symmetric n delta /\ psd n delta.
Proof.
  split; [intros i j _ _; apply delta_sym|]. intros z. apply sumn_nonneg. intros i I. rewrite (sumn_ext n _ (fun j => delta i j * (z i * z j))) by (intros; ring). rewrite (sumn_delta n i (fun j => z i * z j) I). apply Rle_0_sqr.
Qed.
Example C60_case : exists o, new_optimizer 2 two_means delta = Ok o /\ symmetric 2 delta /\ psd 2 delta /\ kkt (variance_problem o (3 / 20) false) (find_minimum_variance_portfolio half_half o (3 / 20) false) /\
  kkt (utility_problem o 1 1 true) (find_maximum_utility_portfolio tilted o 1 1 true).
Proof.
  eexists. split; [reflexivity|]. split; [apply identity_psd|]. split; [apply identity_psd|]. set (o := PortfolioOptimizer _ _ _ _ _). split.
  { split.
  - apply (variance_feasible 2 two_means delta o (3 / 20) false); [reflexivity|]. split; [split|]; unfold find_minimum_variance_portfolio, half_half, expected_return; cbn; try lra. intros _ i _. lra.
  - exists (fun q k => match q with O => match k with O => fun _ => 1 | _ => two_means end | _ => delta k end), (fun q k => match q, k with O, O => 1 | _, _ => 0 end), (fun _ => 0), (fun _ => 0). split; [|split].
    + intros q c k Ec Kc. cbn [variance_problem p_constraints p_dim] in *. destruct q as [|[|q]]; [| |destruct q; discriminate].
      * injection Ec as <-. cbn [return_constraint c_dim c_type c_fun] in *. split; [|discriminate]. unfold vsub, mvec. destruct k as [|[|k]]; [apply affine_slope; exact (fun _ => 0)|apply affine_slope; exact (fun _ => 0)|lia].
      * injection Ec as <-. cbn [long_only_constraint c_dim c_type c_fun] in *. split; [apply coordinate_slope; [exact (fun _ => 0)|exact Kc]|]. intros _. lra.
    + intros i I. repeat split; intros; lra.
    + intros i I. cbn in I. destruct i as [|[|i]]; [| |lia]; unfold find_minimum_variance_portfolio, half_half; cbn; unfold vscal, mvec, dot; cbn; unfold delta; cbn; lra. }
  split.
  - apply (utility_feasible 2 two_means delta o 1 1 true); [reflexivity|]. split; [unfold find_maximum_utility_portfolio, tilted; cbn; lra|discriminate].
  - exists (fun _ _ _ => 1), (fun _ _ => 7 / 20), (fun _ => 0), (fun _ => 0). split; [|split].
    + intros q c k Ec Kc. cbn [utility_problem p_constraints p_dim] in *. destruct q as [|q]; [|destruct q; discriminate]. injection Ec as <-. cbn [budget_constraint c_dim c_type c_fun] in *. split; [|discriminate]. apply (affine_slope (po_n o) (fun _ => 1) 1 _ (fun _ => 0)).
    + intros i I. repeat split; intros; try lra.
    + intros i I. cbn in I. destruct i as [|[|i]]; [| |lia]; unfold find_maximum_utility_portfolio, tilted; cbn; unfold vadd, vscal, mvec, dot, two_means; cbn; unfold delta; cbn; lra.
Qed.
Print Assumptions C60_case.
(** For two assets with different means the budget and the target leave one portfolio, so this optimiser is right. *)
Definition only_portfolio : optimizer := fun p => match p_constraints p with
  | c :: _ => let t := - c_fun c (fun _ => 0) 1%nat in vec_of [2 - 10 * t; 10 * t - 1] | [] => fun _ => 0 end.
Example C70_case : exists o rs vs ws, new_optimizer 2 two_means delta = Ok o /\ efficient_frontier only_portfolio o None None (1 / 100) true = (rs, vs, ws) /\ (2 <= List.length rs)%nat /\
  forall r, In r rs -> kkt (variance_problem o r true) (find_minimum_variance_portfolio only_portfolio o r true).
Proof.
  set (o := PortfolioOptimizer 2 two_means delta (vmin 1 two_means) (vmax 1 two_means)). exists o. destruct (efficient_frontier only_portfolio o None None (1 / 100) true) as [[rs vs] ws] eqn:E. exists rs, vs, ws. split; [reflexivity|]. split; [reflexivity|]. split.
  - destruct (C70_returns only_portfolio o None None (1 / 100) true rs vs ws ltac:(lra) E) as (_ & _ & _ & H & _). cbn [o po_min po_max vmin vmax] in H. replace (two_means 0%nat) with (1 / 10) in H by reflexivity. replace (two_means 1%nat) with (1 / 5) in H by reflexivity.
    rewrite Rmin_left in H by lra. rewrite Rmax_right in H by lra. destruct rs as [|r0 [|r1 rs]]; [cbn in H; lra|cbn in H; lra|cbn; lia].
  - intros r _. assert (W : find_minimum_variance_portfolio only_portfolio o r true = vec_of [2 - 10 * r; 10 * r - 1]).
    { unfold find_minimum_variance_portfolio, only_portfolio. cbn [variance_problem p_constraints return_constraint c_fun]. unfold vsub, mvec, dot. cbn [o po_n po_mean sumn]. replace (- (0 + two_means 0%nat * 0 + two_means 1%nat * 0 - r)) with r by ring. reflexivity. }
    rewrite W. split.
    + apply (variance_feasible 2 two_means delta o r true); [reflexivity|]. split; [split; [cbn; lra|discriminate]|]. unfold expected_return, two_means. cbn. lra.
    + set (l2 := 20 * (20 * r - 3)). exists (fun q k => match k with O => fun _ => 1 | _ => two_means end), (fun q k => match k with O => 2 * (2 - 10 * r) - l2 / 10 | _ => l2 end), (fun _ => 0), (fun _ => 0). split; [|split].
      * intros q c k Ec Kc. cbn [variance_problem p_constraints p_dim] in *. destruct q as [|q]; [|destruct q; discriminate]. injection Ec as <-. cbn [return_constraint c_dim c_type c_fun] in *. split; [|discriminate]. unfold vsub, mvec. destruct k as [|[|k]]; [apply affine_slope; exact (fun _ => 0)|apply affine_slope; exact (fun _ => 0)|lia].
      * intros i I. repeat split; intros; try lra; discriminate.
      * intros i I. cbn in I. destruct i as [|[|i]]; [| |lia]; cbn; unfold vscal, mvec, dot, two_means, l2; cbn; unfold delta; cbn; lra.
Qed.
Print Assumptions C70_case.
