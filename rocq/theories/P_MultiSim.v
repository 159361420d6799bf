(** C106: mean and covariance of the simulated states of a multivariate Vasicek model, against the closed formulas. *)
From Verif Require Import Base PyDate PyDateFacts PyList Loan DayCount DayCountFacts RVec Deriv Stochastic StochasticFacts P_DayCount Multi MultiFacts BrownianInit P_Stochastic ShortRate P_ShortRate Vasicek P_Vasicek P_BrownianInit P_SimMoments P_Multi P_Multi3 P_MultiCases.
From Coq Require Import Reals Qreals Lra.
Ltac lra := Lra.lra.
Ltac nra := Lra.nra.
Open Scope R_scope.

(** ---- specification ---- *)
(** coordinate i at the time x of the state generated from the draws z *)
Definition sim_state (m : multi) (h : arrays) (start : nat) (x : datetime) (i : nat) (z : nat -> vec) : R :=
  match mv_generate m h start true z with (m', _, Ok _) => match mv_state m' (Some x) with Ok v => v i | Err _ => 0 end | (_, _, Err _) => 0 end.
(** covariance per unit of time of S dW when the coordinates of W have the correlation matrix C *)
Definition noise_cov (n : nat) (Sg C : mat) : mat := fun i l => sumn n (fun p => sumn n (fun q => Sg i p * C p q * Sg l q)).
(** mean after j steps of x' = x + K (level - x) dt *)
Fixpoint step_mean (n : nat) (K : mat) (level x0 : vec) (dts : list Q) (j : nat) : vec :=
  match j with O => x0 | S j => fun i => step_mean n K level x0 dts j i + sumn n (fun k => K i k * (level k - step_mean n K level x0 dts j k)) * dt_of dts j end.
(** covariance after j steps: (I - K dt) Q (I - K dt)^T + G dt *)
Fixpoint step_cov (n : nat) (K G : mat) (dts : list Q) (j : nat) : mat :=
  match j with
  | O => fun _ _ => 0
  | S j => fun i l => sumn n (fun a => sumn n (fun b => (delta i a - K i a * dt_of dts j) * step_cov n K G dts j a b * (delta l b - K l b * dt_of dts j))) + G i l * dt_of dts j
  end.

(** ---- the generated states ---- *)
Lemma multi_walk la mu g level K Sg rows b dt m h start draw m' h' : linalg_ok la -> new_multi la mu g level K Sg rows b dt = Ok m -> forward dt -> datetime_ok (bm_start b) -> datetime_ok (bm_end b) ->
  (dt_abs (bm_start b) <= dt_abs (bm_end b))%Z -> (start < fresh h)%nat -> mv_generate m h start true draw = (m', h', Ok tt) ->
  exists gr dts states, bm_times (sr_bm (mv_model m')) = Some gr /\ bm_dts (sr_bm (mv_model m')) = Some dts /\ time_grid (bm_start b) (bm_end b) dt gr /\ List.length states = List.length gr /\ List.length gr = S (List.length dts) /\
    nth_error states 0 = Some (arr h start) /\
    (forall j x y q, nth_error gr j = Some x -> nth_error gr (S j) = Some y -> nth_error dts j = Some q -> compute_accrual_length (Stamp x) (Stamp y) (bm_dcc b) = Ok q) /\
    (forall j q v v' i, nth_error dts j = Some q -> nth_error states j = Some v -> nth_error states (S j) = Some v' -> (i < bm_dim b)%nat ->
       v' i = v i + sumn (bm_dim b) (fun k => K i k * (level k - v k)) * Q2R q + sumn (bm_dim b) (fun k => Sg i k * (sqrt (Q2R q) * sumn (bm_dim b) (fun l => bm_chol b k l * draw j l)))) /\
    (forall j x v, nth_error gr j = Some x -> nth_error states j = Some v -> mv_state m' (Some x) = Ok v).
Proof.
  intros La N F Os Oe L St E. destruct (new_multi_inv _ _ _ _ _ _ _ _ _ _ N La) as (_ & _ & _ & _ & _ & _ & _ & _ & Mo).
  unfold mv_generate in E. rewrite Mo in E. set (s := new_short_rate _ _) in *. destruct (sr_generate_path s h start true draw) as [[s' h1] res] eqn:G. injection E as <- <- ->.
  assert (Fs : forward (pr_dt (sr_proc s))) by exact F.
  unfold sr_generate_path in G. destruct (pr_generate_path (sr_proc s) h start true draw) as [[p h2] [sol|]] eqn:Gp; [|discriminate].
  destruct (C50_euler _ _ _ _ _ _ _ _ Fs Os Oe L St Gp) as (g' & dts & incs & b' & Gi & Tg & TG & Ls & Lg & S0 & Sk & _ & Pp & _). destruct (C50_evaluation _ _ _ _ _ _ _ Fs Os Oe L St Gp) as (g3 & T3 & _ & _ & Hs & _). rewrite Pp in G. injection G as <- <-. rewrite Tg in T3. injection T3 as <-.
  destruct (C48_grid _ _ _ _ _ _ Fs Os Oe L Gi) as (g2 & T2 & D2 & _ & _ & _ & Li & Ac & Cl).
  assert (Pb : pr_bm p = b'). { clear - Gp Gi. unfold pr_generate_path in Gp. rewrite Gi in Gp. destruct (alloc _ _) as [cur hh]. destruct (euler _ _ _ _ _ _) as [hh2 so]. injection Gp as <- _ _. reflexivity. }
  assert (g2 = g') by (rewrite Pb in Tg; congruence). subst g2.
  exists g', dts, sol. split; [exact Tg|]. split; [unfold sr_bm; cbn; rewrite Pb; exact D2|]. split; [exact TG|]. split; [congruence|]. split; [exact Lg|]. split; [exact S0|]. split; [exact Ac|]. split.
  - intros j q v v' i Q W W' I. destruct (nth_error incs j) as [z|] eqn:Z; [|apply nth_error_None in Z; assert (j < List.length dts)%nat by (apply nth_error_Some; congruence); lia].
    assert (Hf : nth_error (pr_coll (sr_proc s)) i = Some (constant_pair (bm_dim b) level (K i) (Sg i))).
    { change (pr_coll (sr_proc s)) with (List.map (fun i => constant_pair (bm_dim b) level (K i) (Sg i)) (seq 0 (bm_dim b))). rewrite nth_error_map. rewrite (nth_error_nth' _ 0%nat) by (rewrite seq_length; exact I). rewrite seq_nth by exact I. reflexivity. }
    rewrite (Sk j q z v v' i _ Q Z W W' Hf). cbn [dd_drift dd_diffusion constant_pair]. change (pr_bm (sr_proc s)) with b. unfold dot, vsub. f_equal.
    apply sumn_ext. intros k Hk. f_equal. exact (Cl j q z k Q Z).
  - intros j x v X V. exact (Hs j x v X V).
Qed.

(** ---- linear algebra ---- *)
Lemma sums_through n (A V q B W : mat) i l : sumn n (fun a => sumn n (fun b => A i a * sumn n (fun k => sumn n (fun p => V a k * q k p * W b p)) * B l b)) =
  sumn n (fun k => sumn n (fun p => sumn n (fun a => A i a * V a k) * q k p * sumn n (fun b => B l b * W b p))).
Proof.
  transitivity (sumn n (fun a => sumn n (fun b => sumn n (fun k => sumn n (fun p => A i a * V a k * q k p * (B l b * W b p)))))).
  { apply sumn_ext; intros a _. apply sumn_ext; intros b _. rewrite <- sumn_scal, <- sumn_scal_r. apply sumn_ext; intros k _. rewrite <- sumn_scal, <- sumn_scal_r. apply sumn_ext; intros p _. ring. }
  transitivity (sumn n (fun k => sumn n (fun p => sumn n (fun a => sumn n (fun b => A i a * V a k * q k p * (B l b * W b p)))))).
  - rewrite (sumn_ext n _ (fun a => sumn n (fun k => sumn n (fun p => sumn n (fun b => A i a * V a k * q k p * (B l b * W b p)))))).
    2:{ intros a _. rewrite (sumn_swap n n (fun b k => sumn n (fun p => A i a * V a k * q k p * (B l b * W b p)))). apply sumn_ext; intros k _. apply (sumn_swap n n (fun b p => A i a * V a k * q k p * (B l b * W b p))). }
    rewrite (sumn_swap n n (fun a k => sumn n (fun p => sumn n (fun b => A i a * V a k * q k p * (B l b * W b p))))). apply sumn_ext; intros k _.
    apply (sumn_swap n n (fun a p => sumn n (fun b => A i a * V a k * q k p * (B l b * W b p)))).
  - apply sumn_ext; intros k _. apply sumn_ext; intros p _. rewrite <- sumn_scal_r, prod_sums. apply sumn_ext; intros a _. apply sumn_ext; intros b _. ring.
Qed.

(** ---- moments ---- *)
Section Bilinear.
Context (E : ((nat -> vec) -> R) -> R) (steps n : nat) (W : independent_noise E steps n).
Lemma iE_shock_pair k (a b : vec) : (k < steps)%nat -> E (fun z => sumn n (fun j => a j * z k j) * sumn n (fun j => b j * z k j)) = sumn n (fun j => a j * b j).
Proof.
  intros K. assert (B1 : before k (fun _ => 1)) by (intros z z' _; reflexivity).
  rewrite (iE_ext E steps n W _ (fun z => 1 * (/ 2 * (1 * (sumn n (fun j => (a j + b j) * z k j) * sumn n (fun j => (a j + b j) * z k j))) + - / 2 * (1 * (sumn n (fun j => a j * z k j) * sumn n (fun j => a j * z k j)))) + - / 2 * (1 * (sumn n (fun j => b j * z k j) * sumn n (fun j => b j * z k j))))).
  2:{ intros z. rewrite (sumn_ext n (fun j => (a j + b j) * z k j) (fun j => a j * z k j + b j * z k j)) by (intros; ring). rewrite sumn_plus. field. }
  rewrite (in_linear _ _ _ W 1 (- / 2) (fun z => / 2 * (1 * (sumn n (fun j => (a j + b j) * z k j) * sumn n (fun j => (a j + b j) * z k j))) + - / 2 * (1 * (sumn n (fun j => a j * z k j) * sumn n (fun j => a j * z k j))))).
  rewrite (in_linear _ _ _ W (/ 2) (- / 2) (fun z => 1 * (sumn n (fun j => (a j + b j) * z k j) * sumn n (fun j => (a j + b j) * z k j)))).
  rewrite (iE_shock2 E steps n W k (fun j => a j + b j) (fun _ => 1) K B1), (iE_shock2 E steps n W k a (fun _ => 1) K B1), (iE_shock2 E steps n W k b (fun _ => 1) K B1), (in_one _ _ _ W).
  rewrite (sumn_ext n (fun j => (a j + b j) * (a j + b j)) (fun j => (a j * a j + b j * b j) + 2 * (a j * b j))) by (intros; ring). rewrite sumn_plus, sumn_plus, sumn_scal. field.
Qed.
Lemma iE_sumn m (f : nat -> (nat -> vec) -> R) : E (fun z => sumn m (fun i => f i z)) = sumn m (fun i => E (f i)).
Proof. apply (E_sumn E steps n (independent_white _ _ _ W)). Qed.
(** one step of y' = A y + s (shock), and products of two coordinates *)
Lemma step_vector k (A : mat) s (c : mat) (y : nat -> (nat -> vec) -> R) : (k < steps)%nat -> (forall i, (i < n)%nat -> before k (y i)) -> let y' := fun i z => sumn n (fun a => A i a * y a z) + s * sumn n (fun j => c i j * z k j) in
  (forall i, E (y' i) = sumn n (fun a => A i a * E (y a))) /\
  (forall i l, E (fun z => y' i z * y' l z) = sumn n (fun a => sumn n (fun b => A i a * E (fun z => y a z * y b z) * A l b)) + s * s * sumn n (fun j => c i j * c l j)).
Proof.
  intros K B y'. assert (B1 : before k (fun _ => 1)) by (intros z z' _; reflexivity).
  assert (Bu : forall i, before k (fun z => sumn n (fun a => A i a * y a z))) by (intros i z z' H; apply sumn_ext; intros a Ha; rewrite (B a Ha z z' H); reflexivity). split.
  - intros i. rewrite (iE_ext E steps n W _ (fun z => 1 * sumn n (fun a => A i a * y a z) + s * (1 * sumn n (fun j => c i j * z k j)))) by (intros z; unfold y'; ring).
    rewrite (in_linear _ _ _ W 1 s (fun z => sumn n (fun a => A i a * y a z))), (iE_shock E steps n W k (c i) (fun _ => 1) K B1), (iE_sumn n (fun a z => A i a * y a z)).
    rewrite (sumn_ext n _ (fun a => A i a * E (y a))); [ring|]. intros a _. apply (iE_scal E steps n W (A i a) (y a)).
  - intros i l. set (u := fun i z => sumn n (fun a => A i a * y a z)). set (x := fun i (z : nat -> vec) => sumn n (fun j => c i j * z k j)).
    rewrite (iE_ext E steps n W _ (fun z => 1 * (1 * (u i z * u l z) + s * (u i z * x l z)) + 1 * (s * (u l z * x i z) + s * s * (x i z * x l z)))) by (intros z; unfold y', u, x; ring).
    rewrite (in_linear _ _ _ W 1 1 (fun z => 1 * (u i z * u l z) + s * (u i z * x l z))), (in_linear _ _ _ W 1 s (fun z => u i z * u l z)), (in_linear _ _ _ W s (s * s) (fun z => u l z * x i z)).
    assert (X1 : E (fun z => u i z * x l z) = 0) by apply (iE_shock E steps n W k (c l) (u i) K (Bu i)). assert (X2 : E (fun z => u l z * x i z) = 0) by apply (iE_shock E steps n W k (c i) (u l) K (Bu l)).
    assert (X3 : E (fun z => x i z * x l z) = sumn n (fun j => c i j * c l j)) by apply (iE_shock_pair k (c i) (c l) K). rewrite X1, X2, X3.
    rewrite (iE_ext E steps n W (fun z => u i z * u l z) (fun z => sumn n (fun a => sumn n (fun b => A i a * A l b * (y a z * y b z))))).
    2:{ intros z. unfold u. rewrite prod_sums. apply sumn_ext; intros a _. apply sumn_ext; intros b _. ring. }
    rewrite (iE_sumn n (fun a z => sumn n (fun b => A i a * A l b * (y a z * y b z)))). rewrite (sumn_ext n _ (fun a => sumn n (fun b => A i a * E (fun z => y a z * y b z) * A l b))); [ring|].
    intros a _. rewrite (iE_sumn n (fun b z => A i a * A l b * (y a z * y b z))). apply sumn_ext; intros b _. rewrite (iE_scal E steps n W (A i a * A l b) (fun z => y a z * y b z)). ring.
Qed.
End Bilinear.

(** The state simulated to the j-th grid time has the mean and the covariance of the recursions, the noise having covariance
    S C S^T per unit of time for a Brownian motion of correlation matrix C. *)
Theorem C106_moments : forall la mu g level K Sg C rows b dt m h start z0 m0 h0 gr dts E, linalg_ok la -> new_multi la mu g level K Sg rows b dt = Ok m -> forward dt -> bm_dcc b <> THIRTY360 -> stamp_ok (bm_dcc b) (bm_start b) -> stamp_ok (bm_dcc b) (bm_end b) ->
  (dt_abs (bm_start b) <= dt_abs (bm_end b))%Z -> (start < fresh h)%nat -> let n := bm_dim b in (forall p q, (p < n)%nat -> (q < n)%nat -> sumn n (fun k => bm_chol b p k * bm_chol b q k) = C p q) ->
  mv_generate m h start true z0 = (m0, h0, Ok tt) -> bm_times (sr_bm (mv_model m0)) = Some gr -> bm_dts (sr_bm (mv_model m0)) = Some dts -> independent_noise E (List.length dts) n ->
  List.length gr = S (List.length dts) /\ (forall z, exists m' h', mv_generate m h start true z = (m', h', Ok tt)) /\
  forall j x, nth_error gr j = Some x -> let M := step_mean n K level (arr h start) dts j in
    (forall i, (i < n)%nat -> E (sim_state m h start x i) = M i) /\
    (forall i l, (i < n)%nat -> (l < n)%nat -> E (fun z => (sim_state m h start x i z - M i) * (sim_state m h start x l z - M l)) = step_cov n K (noise_cov n Sg C) dts j i l).
Proof.
  intros la mu g level K Sg C rows b dt m h start z0 m0 h0 gr dts E La N F NC Ss Se Lse St n HC Ge Tg Td W.
  assert (All : forall z, exists m' h', mv_generate m h start true z = (m', h', Ok tt) /\ sr_bm (mv_model m') = sr_bm (mv_model m0)).
  { intros z. unfold mv_generate, sr_generate_path, pr_generate_path in *.
    destruct (generate_increments (pr_bm (sr_proc (mv_model m))) (pr_dt (sr_proc (mv_model m))) z0) as [b1 [[incs dts0]|]] eqn:G; [|discriminate]. rewrite (increments_draws _ _ _ _ _ _ G z). destruct (alloc _ _) as [cur h1]. destruct (euler _ _ _ _ _ (combine incs dts0)) as [h2 sol]. destruct (euler _ _ _ _ _ _) as [h3 sol']. cbn [pr_path] in *. injection Ge as <- _. do 2 eexists. split; reflexivity. }
  assert (Rt : forall z, exists states, List.length states = List.length gr /\ List.length gr = S (List.length dts) /\ nth_error states 0 = Some (arr h start) /\ time_grid (bm_start b) (bm_end b) dt gr /\
     (forall j x y q, nth_error gr j = Some x -> nth_error gr (S j) = Some y -> nth_error dts j = Some q -> compute_accrual_length (Stamp x) (Stamp y) (bm_dcc b) = Ok q) /\
     (forall j q v v' i, nth_error dts j = Some q -> nth_error states j = Some v -> nth_error states (S j) = Some v' -> (i < n)%nat ->
       v' i = v i + sumn n (fun k => K i k * (level k - v k)) * Q2R q + sumn n (fun k => Sg i k * (sqrt (Q2R q) * sumn n (fun l => bm_chol b k l * z j l)))) /\
     (forall j x v i, nth_error gr j = Some x -> nth_error states j = Some v -> sim_state m h start x i z = v i)).
  { intros z. destruct (All z) as (m' & h' & G' & Eb). destruct (multi_walk _ _ _ _ _ _ _ _ _ _ _ _ _ _ _ La N F (proj1 Ss) (proj1 Se) Lse St G') as (g' & dts' & states & Eg1 & Eg2 & TG & Lr & Lg & R0 & Ac & Sk & Ev).
    rewrite Eb, Tg in Eg1. rewrite Eb, Td in Eg2. injection Eg1 as <-. injection Eg2 as <-. exists states. do 6 (split; [assumption|]). intros j x v i X V. unfold sim_state. rewrite G', (Ev j x v X V). reflexivity. }
  destruct (Rt z0) as (states0 & _ & Lg & _ & TG & Ac & _). pose proof (grid_dts _ _ _ _ _ _ NC Ss Se Lse TG Lg Ac) as Dp.
  split; [exact Lg|]. split; [intros z; destruct (All z) as (m' & h' & G' & _); exists m', h'; exact G'|].
  set (X := fun x i z => sim_state m h start x i z). set (x0 := arr h start) in *.
  assert (V0 : forall x i z, nth_error gr 0 = Some x -> X x i z = x0 i) by (intros x i z Hx; destruct (Rt z) as (rs & _ & _ & R0 & _ & _ & _ & Ev); exact (Ev 0%nat x x0 i Hx R0)).
  assert (Vs : forall j x y i z, nth_error gr j = Some x -> nth_error gr (S j) = Some y -> (i < n)%nat ->
     X y i z = X x i z + sumn n (fun k => K i k * (level k - X x k z)) * dt_of dts j + sqrt (dt_of dts j) * sumn n (fun l => sumn n (fun k => Sg i k * bm_chol b k l) * z j l)).
  { intros j x y i z Hx Hy Hi. destruct (Rt z) as (rs & Lr & _ & _ & _ & _ & Sk & Ev). assert (S j < List.length gr)%nat by (apply nth_error_Some; congruence).
    destruct (nth_error rs j) as [r|] eqn:R; [|apply nth_error_None in R; lia]. destruct (nth_error rs (S j)) as [r'|] eqn:R'; [|apply nth_error_None in R'; lia]. destruct (nth_error dts j) as [q|] eqn:Q; [|apply nth_error_None in Q; lia].
    unfold X. rewrite (Ev (S j) y r' i Hy R'), (Sk j q r r' i Q R R' Hi), (Ev j x r i Hx R). unfold dt_of. rewrite (nth_error_nth _ _ 0%Q Q). f_equal.
    - f_equal. f_equal. apply sumn_ext; intros k _. rewrite (Ev j x r k Hx R). reflexivity.
    - rewrite (sumn_ext n (fun l => sumn n _ * z j l) (fun l => sumn n (fun k => Sg i k * bm_chol b k l * z j l))) by (intros l _; rewrite <- sumn_scal_r; reflexivity).
      rewrite (sumn_swap n n (fun l k => Sg i k * bm_chol b k l * z j l)), <- sumn_scal. apply sumn_ext; intros k _. rewrite <- !sumn_scal. apply sumn_ext; intros l _. ring. }
  assert (Bf : forall j x i, nth_error gr j = Some x -> (i < n)%nat -> before j (X x i)).
  { induction j as [|j IH]; intros x i Hx Hi z z' Hz; [rewrite !V0 by exact Hx; reflexivity|]. assert (S j < List.length gr)%nat by (apply nth_error_Some; congruence). destruct (nth_error gr j) as [y|] eqn:Y; [|apply nth_error_None in Y; lia].
    assert (Hp : forall l p, (l < j)%nat -> z l p = z' l p) by (intros l p Hl; apply Hz; lia).
    rewrite !(Vs j y x i _ Y Hx Hi). rewrite (IH y i eq_refl Hi z z' Hp). f_equal; [f_equal; f_equal; apply sumn_ext; intros k Hk; rewrite (IH y k eq_refl Hk z z' Hp); reflexivity|]. f_equal. apply sumn_ext; intros l _. rewrite (Hz j l) by lia. reflexivity. }
  assert (Main : forall j x, nth_error gr j = Some x -> let M := step_mean n K level x0 dts j in (forall i, (i < n)%nat -> E (fun z => X x i z - M i) = 0) /\
     (forall i l, (i < n)%nat -> (l < n)%nat -> E (fun z => (X x i z - M i) * (X x l z - M l)) = step_cov n K (noise_cov n Sg C) dts j i l)).
  { induction j as [|j IH]; intros x Hx M.
    - split.
      + intros i Hi. rewrite (in_ext _ _ _ W _ (fun _ => 0)) by (intros z; rewrite V0 by exact Hx; unfold M; cbn; ring). apply (iE_const E _ n W).
      + intros i l Hi Hl. rewrite (in_ext _ _ _ W _ (fun _ => 0)) by (intros z; rewrite !V0 by exact Hx; unfold M; cbn; ring). apply (iE_const E _ n W).
    - assert (S j < List.length gr)%nat by (apply nth_error_Some; congruence). destruct (nth_error gr j) as [y|] eqn:Y; [|apply nth_error_None in Y; lia]. destruct (IH y eq_refl) as [I1 I2]. clear IH. set (P := step_mean n K level x0 dts j) in *.
      set (d := dt_of dts j) in *. assert (D0 : 0 < d) by (apply Dp; lia).
      set (A := fun i a => delta i a - K i a * d). set (c := fun i l => sumn n (fun k => Sg i k * bm_chol b k l)).
      assert (Yn : forall i z, (i < n)%nat -> X x i z - M i = sumn n (fun a => A i a * (X y a z - P a)) + sqrt d * sumn n (fun l => c i l * z j l)).
      { intros i z Hi. rewrite (Vs j y x i z Y Hx Hi). fold d. unfold M. cbn [step_mean]. fold P d. unfold A, c.
        rewrite (sumn_ext n (fun a => (delta i a - K i a * d) * (X y a z - P a)) (fun a => delta i a * (X y a z - P a) - d * (K i a * (X y a z - P a)))) by (intros; ring). rewrite sumn_minus, (sumn_delta n i (fun a => X y a z - P a) Hi), sumn_scal.
        assert (Dif : sumn n (fun k => K i k * (level k - X y k z)) - sumn n (fun k => K i k * (level k - P k)) = - sumn n (fun a => K i a * (X y a z - P a))) by (rewrite <- sumn_minus, <- sumn_opp; apply sumn_ext; intros; ring).
        replace (sumn n (fun k => K i k * (level k - X y k z))) with (sumn n (fun k => K i k * (level k - P k)) - sumn n (fun a => K i a * (X y a z - P a))) by lra. ring. }
      destruct (step_vector E _ n W j A (sqrt d) c (fun a z => X y a z - P a) ltac:(lia)) as [S1 S2]; [intros i Hi z z' Hz; rewrite (Bf j y i Y Hi z z' Hz); reflexivity|]. split.
      + intros i Hi. rewrite (in_ext _ _ _ W _ _ (fun z => Yn i z Hi)). rewrite S1. apply sumn_zero. intros a Ha. rewrite (I1 a Ha). ring.
      + intros i l Hi Hl. rewrite (in_ext _ _ _ W _ (fun z => (sumn n (fun a => A i a * (X y a z - P a)) + sqrt d * sumn n (fun k => c i k * z j k)) * (sumn n (fun a => A l a * (X y a z - P a)) + sqrt d * sumn n (fun k => c l k * z j k)))) by (intros z; rewrite (Yn i z Hi), (Yn l z Hl); reflexivity).
        rewrite S2. cbn [step_cov]. fold d. rewrite sqrt_sqrt by lra. f_equal.
        * apply sumn_ext; intros a Ha. apply sumn_ext; intros a' Ha'. rewrite (I2 a a' Ha Ha'). reflexivity.
        * rewrite Rmult_comm. f_equal. unfold noise_cov, c.
          rewrite (sumn_ext n (fun k => sumn n _ * sumn n _) (fun k => sumn n (fun p => sumn n (fun q => Sg i p * (bm_chol b p k * bm_chol b q k) * Sg l q)))) by (intros k _; rewrite prod_sums; apply sumn_ext; intros p _; apply sumn_ext; intros q _; ring).
          rewrite (sumn_swap n n (fun k p => sumn n (fun q => Sg i p * (bm_chol b p k * bm_chol b q k) * Sg l q))). apply sumn_ext; intros p Hp. rewrite (sumn_swap n n (fun k q => Sg i p * (bm_chol b p k * bm_chol b q k) * Sg l q)). apply sumn_ext; intros q Hq.
          rewrite <- (HC p q Hp Hq). rewrite <- sumn_scal, <- sumn_scal_r. reflexivity. }
  intros j x Hx M. destruct (Main j x Hx) as [M1 M2]. split; [|exact M2]. intros i Hi. assert (Z : E (fun z => X x i z - M i) = 0) by exact (M1 i Hi). clearbody M. rewrite (iE_ext E _ n W _ (fun z => X x i z + (- M i) * 1)) in Z by (intros; ring). rewrite (iE_plus E _ n W (X x i)), (iE_scal E _ n W (- M i) (fun _ => 1)), (in_one _ _ _ W) in Z. change (E (sim_state m h start x i)) with (E (X x i)). lra.
Qed.
Print Assumptions C106_moments.

(** ---- closeness to the closed formulas ---- *)
(** covariance of two coordinates in the eigenvector basis *)
Fixpoint step_scalar (lk lp c : R) (dts : list Q) (j : nat) : R :=
  match j with O => 0 | S j => (1 - lk * dt_of dts j) * (1 - lp * dt_of dts j) * step_scalar lk lp c dts j + c * dt_of dts j end.
Lemma one_minus_exp x : Rabs (1 - exp (- x)) <= Rabs x * exp (Rabs x).
Proof.
  destruct (Rle_or_lt 0 x) as [P|N].
  - rewrite (Rabs_pos_eq x P). destruct (exp_neg_bounds x P) as [B1 _]. assert (E1 : exp (- x) <= 1) by (rewrite <- exp_0; apply exp_le_abs; lra). rewrite Rabs_pos_eq by lra. pose proof (exp_ineq1_le x) as L. assert (0 <= x * (exp x - 1)) by (apply Rmult_le_pos; lra). lra.
  - rewrite (Rabs_left x N). assert (E1 : 1 <= exp (- x)) by (rewrite <- exp_0; apply exp_le_abs; lra). rewrite Rabs_left1 by lra. pose proof (exp_ineq1_le x) as L. pose proof (exp_pos (- x)) as P. apply (Rmult_le_compat_r (exp (- x))) in L; [|lra]. rewrite <- exp_plus, Rplus_opp_r, exp_0 in L. lra.
Qed.
Lemma scalar_close lk lp c dts j : lk + lp <> 0 -> (forall t, (t < j)%nat -> 0 <= dt_of dts t) -> let s := lk + lp in let T := total dts j in
  Rabs (step_scalar lk lp c dts j - c * ((1 - exp (- s * T)) / s)) <= exp (2 * (Rabs lk + Rabs lp) * T) * (Rabs c * ((Rabs (lk * lp) + s * s / 2) * T + Rabs s / 2)) * squares dts j.
Proof.
  intros Ns Dp s. fold s in Ns. induction j as [|j IH]; unfold total, squares in *; cbn [step_scalar sumn]; [rewrite Rmult_0_r, exp_0, Rmult_0_r; replace (0 - c * ((1 - 1) / s)) with 0 by (field; exact Ns); rewrite Rabs_R0; lra|].
  specialize (IH (fun t L => Dp t ltac:(lia))). cbv zeta in IH. assert (T0 : 0 <= sumn j (dt_of dts)) by (apply sumn_nonneg; intros t Ht; apply Dp; lia). pose proof (Dp j ltac:(lia)) as D0.
  assert (Q0 : 0 <= sumn j (fun t => dt_of dts t * dt_of dts t)) by (apply sumn_nonneg; intros t Ht; apply Rle_0_sqr).
  set (d := dt_of dts j) in *. set (q := step_scalar lk lp c dts j) in *. set (T := sumn j (dt_of dts)) in *. set (Q := sumn j (fun t => dt_of dts t * dt_of dts t)) in *.
  set (C := Rabs lk + Rabs lp) in *. set (p := Rabs (lk * lp) + s * s / 2) in *. pose proof (Rabs_pos lk) as Ak. pose proof (Rabs_pos lp) as Ap. pose proof (Rabs_pos s) as As. pose proof (Rabs_pos c) as Ac.
  assert (Cs : Rabs s <= C) by (unfold s, C; apply Rabs_triang). assert (P0 : 0 <= p) by (unfold p; pose proof (Rabs_pos (lk * lp)); pose proof (Rle_0_sqr s) as X; unfold Rsqr in X; lra).
  set (w := c * ((1 - exp (- s * T)) / s)) in *. set (e := exp (- (s * d))).
  assert (Ew : c * ((1 - exp (- s * (T + d))) / s) = e * w + c * ((1 - e) / s)) by (unfold w, e; replace (- s * (T + d)) with (- (s * d) + - s * T) by ring; rewrite exp_plus; field; exact Ns). rewrite Ew.
  set (f := (1 - lk * d) * (1 - lp * d)). set (Z := exp (C * d)). assert (Z1 : 1 <= Z) by (rewrite <- exp_0; apply exp_le_abs; apply Rmult_le_pos; unfold C; lra).
  assert (Fz : Rabs f <= Z).
  { unfold f, Z, C. rewrite Rabs_mult, Rmult_plus_distr_r, exp_plus. apply Rmult_le_compat; try apply Rabs_pos.
    - replace (1 - lk * d) with (1 + - (lk * d)) by ring. replace (Rabs lk * d) with (Rabs (- (lk * d))) by (rewrite Rabs_Ropp, Rabs_mult, (Rabs_pos_eq d D0); reflexivity). apply one_plus_abs.
    - replace (1 - lp * d) with (1 + - (lp * d)) by ring. replace (Rabs lp * d) with (Rabs (- (lp * d))) by (rewrite Rabs_Ropp, Rabs_mult, (Rabs_pos_eq d D0); reflexivity). apply one_plus_abs. }
  assert (Sd : Rabs (- (s * d)) = Rabs s * d) by (rewrite Rabs_Ropp, Rabs_mult, (Rabs_pos_eq d D0); reflexivity).
  assert (Ed : exp (Rabs s * d) <= Z) by (apply exp_le_abs, Rmult_le_compat_r; assumption).
  pose proof (exp_second (- (s * d))) as X2. fold e in X2. rewrite Sd in X2. replace (e - 1 - - (s * d)) with (e - 1 + s * d) in X2 by ring.
  assert (X3 : Rabs (e - 1 + s * d) <= s * s / 2 * (d * d) * Z). { eapply Rle_trans; [exact X2|]. replace (- (s * d) * - (s * d) / 2) with (s * s / 2 * (d * d)) by field. apply Rmult_le_compat_l; [|exact Ed]. apply Rmult_le_pos; [pose proof (Rle_0_sqr s) as X; unfold Rsqr in X; lra|apply Rle_0_sqr]. }
  assert (D2 : 0 <= d * d) by apply Rle_0_sqr.
  assert (Fe : Rabs (f - e) <= p * (d * d) * Z).
  { replace (f - e) with (lk * lp * (d * d) - (e - 1 + s * d)) by (unfold f, s; ring). unfold Rminus at 1. eapply Rle_trans; [apply Rabs_triang|]. rewrite Rabs_Ropp, Rabs_mult, (Rabs_pos_eq (d * d) D2). unfold p.
    assert (Y : Rabs (lk * lp) * (d * d) * 1 <= Rabs (lk * lp) * (d * d) * Z) by (apply Rmult_le_compat_l; [apply Rmult_le_pos; [apply Rabs_pos|exact D2]|exact Z1]). replace ((Rabs (lk * lp) + s * s / 2) * (d * d) * Z) with (Rabs (lk * lp) * (d * d) * Z + s * s / 2 * (d * d) * Z) by ring. lra. }
  assert (As0 : 0 < Rabs s) by (apply Rabs_pos_lt; exact Ns).
  assert (Ge : Rabs (d - (1 - e) / s) <= Rabs s / 2 * (d * d) * Z).
  { replace (d - (1 - e) / s) with ((e - 1 + s * d) / s) by (field; exact Ns). unfold Rdiv at 1. rewrite Rabs_mult, Rabs_inv. apply (Rmult_le_reg_r (Rabs s)); [exact As0|]. rewrite Rmult_assoc, Rinv_l, Rmult_1_r by lra.
    eapply Rle_trans; [exact X3|]. apply Req_le. replace (Rabs s / 2 * (d * d) * Z * Rabs s) with (Rabs s * Rabs s / 2 * (d * d) * Z) by field. rewrite <- Rabs_mult, (Rabs_pos_eq (s * s)) by apply Rle_0_sqr. reflexivity. }
  assert (Wb : Rabs w <= Rabs c * (T * exp (C * T))).
  { unfold w. rewrite Rabs_mult. apply Rmult_le_compat_l; [exact Ac|]. unfold Rdiv. rewrite Rabs_mult, Rabs_inv. apply (Rmult_le_reg_r (Rabs s)); [exact As0|]. rewrite Rmult_assoc, Rinv_l, Rmult_1_r by lra.
    replace (- s * T) with (- (s * T)) by ring. eapply Rle_trans; [apply one_minus_exp|]. rewrite Rabs_mult, (Rabs_pos_eq T T0). replace (T * exp (C * T) * Rabs s) with (Rabs s * T * exp (C * T)) by ring. apply Rmult_le_compat_l; [apply Rmult_le_pos; assumption|]. apply exp_le_abs. apply Rmult_le_compat_r; assumption. }
  replace (f * q + c * d - (e * w + c * ((1 - e) / s))) with (f * (q - w) + (f - e) * w + c * (d - (1 - e) / s)) by ring.
  eapply Rle_trans; [apply Rabs_triang|]. eapply Rle_trans; [apply Rplus_le_compat_r, Rabs_triang|]. rewrite !Rabs_mult.
  set (Y := exp (C * T)) in *. assert (Y1 : 1 <= Y) by (rewrite <- exp_0; apply exp_le_abs; apply Rmult_le_pos; unfold C; lra).
  assert (B1 : Rabs f * Rabs (q - w) <= Z * (exp (2 * C * T) * (Rabs c * (p * T + Rabs s / 2)) * Q)) by (apply Rmult_le_compat; try assumption; apply Rabs_pos).
  assert (B2 : Rabs (f - e) * Rabs w <= p * (d * d) * Z * (Rabs c * (T * Y))) by (apply Rmult_le_compat; try assumption; apply Rabs_pos).
  assert (B3 : Rabs c * Rabs (d - (1 - e) / s) <= Rabs c * (Rabs s / 2 * (d * d) * Z)) by (apply Rmult_le_compat_l; assumption).
  replace (exp (2 * C * T)) with (Y * Y) in B1 by (unfold Y; rewrite <- exp_plus; f_equal; ring). replace (exp (2 * C * (T + d))) with (Y * Y * (Z * Z)) by (unfold Y, Z; rewrite <- !exp_plus; f_equal; ring).
  assert (Pt : 0 <= p * T) by (apply Rmult_le_pos; assumption). assert (Pd : 0 <= p * d) by (apply Rmult_le_pos; assumption). set (H := Rabs c * (p * T + Rabs s / 2)) in *. set (H' := Rabs c * (p * (T + d) + Rabs s / 2)).
  assert (HH : 0 <= H <= H') by (unfold H, H'; split; [apply Rmult_le_pos; lra|apply Rmult_le_compat_l; lra]).
  assert (YY : 1 <= Y * Y) by (rewrite <- (Rmult_1_r 1); apply Rmult_le_compat; lra).
  assert (ZZ : Z <= Z * Z) by (rewrite <- (Rmult_1_r Z) at 1; apply Rmult_le_compat_l; lra).
  assert (YZ : Y * Y * Z <= Y * Y * (Z * Z)) by (apply Rmult_le_compat_l; lra).
  assert (YZ0 : 0 <= Y * Y * Z) by (apply Rmult_le_pos; lra).
  assert (G1 : Z * (Y * Y * H * Q) <= Y * Y * (Z * Z) * H' * Q).
  { replace (Z * (Y * Y * H * Q)) with (Y * Y * Z * (H * Q)) by ring. rewrite (Rmult_assoc _ H' Q). apply Rmult_le_compat; [exact YZ0|apply Rmult_le_pos; lra|exact YZ|apply Rmult_le_compat_r; lra]. }
  assert (G2 : p * (d * d) * Z * (Rabs c * (T * Y)) + Rabs c * (Rabs s / 2 * (d * d) * Z) <= Y * Y * (Z * Z) * H' * (d * d)).
  { apply (Rle_trans _ (Y * Y * Z * H * (d * d))).
    - unfold H. replace (Y * Y * Z * (Rabs c * (p * T + Rabs s / 2)) * (d * d)) with (p * (d * d) * Z * (Rabs c * (T * (Y * Y))) + Rabs c * (Rabs s / 2 * (d * d) * (Y * Y * Z))) by ring. apply Rplus_le_compat.
      + apply Rmult_le_compat_l; [apply Rmult_le_pos; [apply Rmult_le_pos; assumption|lra]|]. apply Rmult_le_compat_l; [exact Ac|]. apply Rmult_le_compat_l; [exact T0|]. rewrite <- (Rmult_1_r Y) at 1. apply Rmult_le_compat_l; lra.
      + apply Rmult_le_compat_l; [exact Ac|]. apply Rmult_le_compat_l; [apply Rmult_le_pos; lra|]. rewrite <- (Rmult_1_l Z) at 1. apply Rmult_le_compat_r; lra.
    - apply Rmult_le_compat_r; [exact D2|]. apply Rmult_le_compat; lra. }
  rewrite (Rmult_plus_distr_l (Y * Y * (Z * Z) * H')). lra.
Qed.

Lemma sumn_abs n f : Rabs (sumn n f) <= sumn n (fun i => Rabs (f i)).
Proof. induction n as [|n IH]; cbn [sumn]; [rewrite Rabs_R0; lra|]. eapply Rle_trans; [apply Rabs_triang|]. lra. Qed.
(** the recursions in the eigenvector basis *)
Section Spectral.
Context (n : nat) (K V Vi : mat) (lam : vec) (Hk : forall i j, (i < n)%nat -> (j < n)%nat -> sumn n (fun a => K i a * V a j) = V i j * lam j)
  (Hr : forall i j, (i < n)%nat -> (j < n)%nat -> sumn n (fun a => V i a * Vi a j) = delta i j).
Definition in_basis (v : vec) : vec := fun k => sumn n (fun l => Vi k l * v l).
Definition cov_basis (G : mat) : mat := fun k p => sumn n (fun a => sumn n (fun b => Vi k a * G a b * Vi p b)).
Lemma from_basis v i : (i < n)%nat -> sumn n (fun k => V i k * in_basis v k) = v i.
Proof.
  intros I. unfold in_basis. rewrite (sumn_ext n _ (fun k => sumn n (fun l => V i k * Vi k l * v l))) by (intros; rewrite <- sumn_scal; apply sumn_ext; intros; ring). rewrite (sumn_swap n n (fun k l => V i k * Vi k l * v l)).
  rewrite (sumn_ext n _ (fun l => delta i l * v l)) by (intros l Hl; rewrite sumn_scal_r, Hr by assumption; reflexivity). apply (sumn_delta n i v I).
Qed.
Lemma from_cov_basis G i l : (i < n)%nat -> (l < n)%nat -> sumn n (fun k => sumn n (fun p => V i k * cov_basis G k p * V l p)) = G i l.
Proof.
  intros I L. unfold cov_basis. rewrite (sums_through n V Vi G V Vi i l). rewrite (sumn_ext n _ (fun a => delta i a * sumn n (fun b => delta l b * G a b))).
  - rewrite (sumn_delta n i (fun a => sumn n (fun b => delta l b * G a b)) I). apply (sumn_delta n l (G i) L).
  - intros a Ha. rewrite <- sumn_scal. apply sumn_ext. intros b Hb. rewrite !Hr by assumption. ring.
Qed.
Lemma step_column i k d : (i < n)%nat -> (k < n)%nat -> sumn n (fun a => (delta i a - K i a * d) * V a k) = V i k * (1 - lam k * d).
Proof.
  intros I L. rewrite (sumn_ext n _ (fun a => delta i a * V a k - K i a * V a k * d)) by (intros; ring). rewrite sumn_minus, sumn_scal_r, Hk by assumption. rewrite (sumn_delta n i (fun a => V a k) I). ring.
Qed.
Lemma mean_spectral level x0 dts j i : (i < n)%nat -> step_mean n K level x0 dts j i = level i + sumn n (fun k => V i k * (prodn j (fun t => 1 - lam k * dt_of dts t) * in_basis (fun l => x0 l - level l) k)).
Proof.
  set (y := in_basis (fun l => x0 l - level l)). revert i. induction j as [|j IH]; intros i I; cbn [step_mean prodn].
  - rewrite (sumn_ext n _ (fun k => V i k * y k)) by (intros; ring). unfold y. rewrite (from_basis _ i I). ring.
  - set (P := fun k => prodn j (fun t => 1 - lam k * dt_of dts t) * y k) in *. set (d := dt_of dts j). assert (IH' : forall i, (i < n)%nat -> step_mean n K level x0 dts j i = level i + sumn n (fun p => V i p * P p)) by exact IH. clear IH. rename IH' into IH.
    rewrite (sumn_ext n (fun k => K i k * _) (fun k => - (K i k * sumn n (fun p => V k p * P p)))) by (intros k Lk; rewrite (IH k Lk); ring). rewrite sumn_opp.
    assert (Kv : sumn n (fun k => K i k * sumn n (fun p => V k p * P p)) = sumn n (fun p => V i p * (lam p * P p))).
    { rewrite (sumn_ext n _ (fun k => sumn n (fun p => K i k * V k p * P p))) by (intros; rewrite <- sumn_scal; apply sumn_ext; intros; ring). rewrite (sumn_swap n n (fun k p => K i k * V k p * P p)). apply sumn_ext; intros p Lp. rewrite sumn_scal_r, Hk by assumption. ring. }
    rewrite Kv, (IH i I).
    rewrite (sumn_ext n (fun k => V i k * (prodn j (fun t => 1 - lam k * dt_of dts t) * (1 - lam k * d) * y k)) (fun k => V i k * P k - d * (V i k * (lam k * P k)))) by (intros; unfold P; ring). rewrite sumn_minus, sumn_scal. ring.
Qed.
Lemma cov_spectral G dts j i l : (i < n)%nat -> (l < n)%nat -> step_cov n K G dts j i l = sumn n (fun k => sumn n (fun p => V i k * step_scalar (lam k) (lam p) (cov_basis G k p) dts j * V l p)).
Proof.
  revert i l. induction j as [|j IH]; intros i l I L; cbn [step_cov step_scalar].
  - symmetry. apply sumn_zero; intros k _. apply sumn_zero; intros p _. ring.
  - set (d := dt_of dts j). set (q := fun k p => step_scalar (lam k) (lam p) (cov_basis G k p) dts j).
    rewrite (sumn_ext n _ (fun a => sumn n (fun b => (delta i a - K i a * d) * sumn n (fun k => sumn n (fun p => V a k * q k p * V b p)) * (delta l b - K l b * d)))) by (intros a Ha; apply sumn_ext; intros b Hb; rewrite (IH a b Ha Hb); reflexivity).
    rewrite (sums_through n (fun i a => delta i a - K i a * d) V q (fun i a => delta i a - K i a * d) V i l). rewrite <- (from_cov_basis G i l I L), <- sumn_scal_r, <- sumn_plus. apply sumn_ext; intros k Lk. rewrite <- sumn_scal_r, <- sumn_plus. apply sumn_ext; intros p Lp.
    rewrite !step_column by assumption. fold (q k p). ring.
Qed.
End Spectral.

(** The simulation converges to the model: for every reversion matrix, level, volatility matrix, correlation matrix and starting state there are
    the mean M and covariance Sg of dX = K (level - X) dt + S dW (solutions of their differential equations) and bounds, independent
    of the time step, such that with steps of at most D the simulated mean and covariance are within D times the bounds of them;
    when actual days over a fixed basis are counted, M is what expected_state reports. *)
Theorem C106_converges : forall la n K level Sg C x0 lam V Vi, linalg_ok la -> la_eig la n K = Some (lam, V) -> la_inv la n V = Some Vi -> mean_reverting n K ->
  exists (M : R -> vec) (Cv : R -> mat) (Bm : R -> vec) (Bc : R -> mat),
    (forall i, (i < n)%nat -> M 0 i = x0 i /\ forall t, derivable_pt_lim (fun t => M t i) t (sumn n (fun j => K i j * (level j - M t j)))) /\ covariance_equation n K (noise_cov n Sg C) Cv /\
    forall mu g rows b dt m h start z0 m0 h0 gr dts E D, new_multi la mu g level K Sg rows b dt = Ok m -> bm_dim b = n -> forward dt -> bm_dcc b <> THIRTY360 -> stamp_ok (bm_dcc b) (bm_start b) -> stamp_ok (bm_dcc b) (bm_end b) ->
      (dt_abs (bm_start b) <= dt_abs (bm_end b))%Z -> (start < fresh h)%nat -> (forall p q, (p < n)%nat -> (q < n)%nat -> sumn n (fun k => bm_chol b p k * bm_chol b q k) = C p q) -> (forall i, (i < n)%nat -> arr h start i = x0 i) ->
      mv_generate m h start true z0 = (m0, h0, Ok tt) -> bm_times (sr_bm (mv_model m0)) = Some gr -> bm_dts (sr_bm (mv_model m0)) = Some dts -> independent_noise E (List.length dts) n -> Forall (fun q => Q2R q <= D) dts ->
      forall j x, nth_error gr j = Some x -> let T := total dts j in
        (forall i, (i < n)%nat -> Rabs (E (sim_state m h start x i) - M T i) <= D * Bm T i) /\
        (forall i l, (i < n)%nat -> (l < n)%nat -> Rabs (E (fun z => (sim_state m h start x i z - E (sim_state m h start x i)) * (sim_state m h start x l z - E (sim_state m h start x l))) - Cv T i l) <= D * Bc T i l) /\
        (forall N, In (bm_dcc b, N) actual_over -> mv_accrual m0 (Stamp x) None = Ok T /\ exists e, expected_state m0 (Stamp x) None = Ok e /\ forall i, (i < n)%nat -> e i = M T i).
Proof.
  intros la n K level Sg C x0 lam V Vi La Ee Ei Mr.
  assert (Hk : forall i j, (i < n)%nat -> (j < n)%nat -> sumn n (fun a => K i a * V a j) = V i j * lam j) by (intros i j I J; apply (eig_ok la La _ _ _ _ Ee i j I J)).
  assert (Hr : forall i j, (i < n)%nat -> (j < n)%nat -> sumn n (fun a => V i a * Vi a j) = delta i j) by (intros i j I J; apply (proj1 (inv_ok la La _ _ _ Ei i j I J))).
  assert (Hl : forall i j, (i < n)%nat -> (j < n)%nat -> sumn n (fun a => Vi i a * V a j) = delta i j) by (intros i j I J; apply (proj2 (inv_ok la La _ _ _ Ei i j I J))).
  assert (Ev : forall k, (k < n)%nat -> eigenvalue n K (lam k)).
  { intros k Lk. exists (fun i => V i k). split; [|intros i I; rewrite (Hk i k I Lk); ring]. destruct (classic_zero n (fun i => V i k)) as [A|A]; [|exact A]. exfalso. pose proof (Hl k k Lk Lk) as E. rewrite delta_refl in E. rewrite sumn_zero in E; [lra|]. intros i I. rewrite A by exact I. ring. }
  assert (Ns : forall k p, (k < n)%nat -> (p < n)%nat -> lam k + lam p <> 0) by (intros k p Lk Lp; apply (proj2 (Mr _ _ (Ev k Lk) (Ev p Lp)))).
  set (y := in_basis n Vi (fun l => x0 l - level l)). set (G := noise_cov n Sg C). set (c := cov_basis n Vi G).
  set (M := fun t i => level i + sumn n (fun k => V i k * (exp (- lam k * t) * y k))).
  set (w := fun t k p => c k p * ((1 - exp (- (lam k + lam p) * t)) / (lam k + lam p))).
  set (Cv := fun t i l => sumn n (fun k => sumn n (fun p => V i k * w t k p * V l p))).
  set (Bm := fun T i => sumn n (fun k => Rabs (V i k) * (exp (Rabs (lam k) * T) * (lam k * lam k / 2 * T) * Rabs (y k)))).
  set (bc := fun T k p => exp (2 * (Rabs (lam k) + Rabs (lam p)) * T) * (Rabs (c k p) * ((Rabs (lam k * lam p) + (lam k + lam p) * (lam k + lam p) / 2) * T + Rabs (lam k + lam p) / 2)) * T).
  set (Bc := fun T i l => sumn n (fun k => sumn n (fun p => Rabs (V i k) * bc T k p * Rabs (V l p)))).
  exists M, Cv, Bm, Bc. split; [|split].
  - intros i I. split.
    + unfold M. rewrite (sumn_ext n _ (fun k => V i k * y k)) by (intros; rewrite Rmult_0_r, exp_0; ring). unfold y. rewrite (from_basis n V Vi Hr _ i I). ring.
    + intros t. assert (Kv : sumn n (fun j => K i j * (level j - M t j)) = sumn n (fun k => V i k * y k * (- lam k * exp (- lam k * t)))).
      { rewrite (sumn_ext n _ (fun j => - sumn n (fun k => K i j * V j k * (exp (- lam k * t) * y k)))) by (intros j J; unfold M; rewrite <- sumn_opp; rewrite (sumn_ext n (fun k => - _) (fun k => - K i j * (V j k * (exp (- lam k * t) * y k)))) by (intros; ring); rewrite sumn_scal; ring).
        rewrite sumn_opp, (sumn_swap n n (fun j k => K i j * V j k * (exp (- lam k * t) * y k))), <- sumn_opp. apply sumn_ext; intros k Lk. rewrite sumn_scal_r, Hk by assumption. ring. }
      rewrite Kv. apply (d_fun (fun t => level i + sumn n (fun k => V i k * y k * exp (- lam k * t)))); [intros u; unfold M; f_equal; apply sumn_ext; intros; ring|].
      apply (d_eq _ _ (0 + sumn n (fun k => V i k * y k * (- lam k * exp (- lam k * t))))); [ring|]. apply d_plus; [apply d_const|]. apply (sumn_deriv n (fun k t => V i k * y k * exp (- lam k * t)) (fun k t => V i k * y k * (- lam k * exp (- lam k * t)))). intros k Lk. apply d_scal, d_exp.
  - intros i l I L. split.
    + unfold Cv. apply sumn_zero; intros k Lk. apply sumn_zero; intros p Lp. unfold w. rewrite Rmult_0_r, exp_0. unfold Rdiv. ring.
    + intros t.
      assert (K1 : sumn n (fun k => K i k * Cv t k l) = sumn n (fun k => sumn n (fun p => V i k * (lam k * w t k p) * V l p))).
      { unfold Cv. rewrite (sumn_ext n _ (fun a => sumn n (fun k => K i a * V a k * sumn n (fun p => w t k p * V l p)))).
        2:{ intros a _. rewrite <- sumn_scal. apply sumn_ext; intros k _. rewrite <- !sumn_scal. apply sumn_ext; intros p _. ring. }
        rewrite (sumn_swap n n (fun a k => K i a * V a k * sumn n (fun p => w t k p * V l p))). apply sumn_ext; intros k Lk. rewrite sumn_scal_r, Hk by assumption. rewrite <- sumn_scal. apply sumn_ext; intros p _. ring. }
      assert (K2 : sumn n (fun k => Cv t i k * K l k) = sumn n (fun k => sumn n (fun p => V i k * (lam p * w t k p) * V l p))).
      { unfold Cv. rewrite (sumn_ext n _ (fun a => sumn n (fun k => sumn n (fun p => V i k * w t k p * (K l a * V a p))))).
        2:{ intros a _. rewrite <- sumn_scal_r. apply sumn_ext; intros k _. rewrite <- sumn_scal_r. apply sumn_ext; intros p _. ring. }
        rewrite (sumn_swap n n (fun a k => sumn n (fun p => V i k * w t k p * (K l a * V a p)))). apply sumn_ext; intros k _. rewrite (sumn_swap n n (fun a p => V i k * w t k p * (K l a * V a p))). apply sumn_ext; intros p Lp. rewrite sumn_scal, Hk by assumption. ring. }
      rewrite K1, K2. fold G. rewrite <- (from_cov_basis n V Vi Hr G i l I L). fold c. rewrite <- !sumn_minus.
      apply (sumn_deriv n (fun k t => sumn n (fun p => V i k * w t k p * V l p)) (fun k t => sumn n (fun p => V i k * c k p * V l p) - sumn n (fun p => V i k * (lam k * w t k p) * V l p) - sumn n (fun p => V i k * (lam p * w t k p) * V l p))). intros k Lk. rewrite <- !sumn_minus.
      apply (sumn_deriv n (fun p t => V i k * w t k p * V l p) (fun p t => V i k * c k p * V l p - V i k * (lam k * w t k p) * V l p - V i k * (lam p * w t k p) * V l p)). intros p Lp. pose proof (Ns k p Lk Lp) as Nz.
      apply (d_fun (fun t => V i k * V l p * c k p / (lam k + lam p) * (1 - exp (- (lam k + lam p) * t)))); [intros u; unfold w; field; exact Nz|].
      eapply d_eq; [|apply d_scal, d_minus; [apply d_const|apply d_exp]]. unfold w. field. exact Nz.
  - intros mu g rows b dt m h start z0 m0 h0 gr dts E D N Bn F NC Ss Se Lse St HC Hx Ge Tg Td W Fd j x X T.
    assert (HC' : forall p q, (p < bm_dim b)%nat -> (q < bm_dim b)%nat -> sumn (bm_dim b) (fun k => bm_chol b p k * bm_chol b q k) = C p q) by (rewrite Bn; exact HC).
    assert (W' : independent_noise E (List.length dts) (bm_dim b)) by (rewrite Bn; exact W).
    destruct (C106_moments _ _ _ _ _ _ C _ _ _ _ _ _ _ _ _ _ _ E La N F NC Ss Se Lse St HC' Ge Tg Td W') as (Lg & _ & Mo). destruct (Mo j x X) as [M1 M2]. rewrite Bn in M1, M2. clear Mo HC' W'.
    destruct (multi_walk _ _ _ _ _ _ _ _ _ _ _ _ _ _ _ La N F (proj1 Ss) (proj1 Se) Lse St Ge) as (g' & dts' & states & Eg1 & Eg2 & TG & Lr & _ & R0 & Ac & _ & Evl). rewrite Tg in Eg1. injection Eg1 as <-. rewrite Td in Eg2. injection Eg2 as <-.
    pose proof (grid_dts _ _ _ _ _ _ NC Ss Se Lse TG Lg Ac) as Dp.
    assert (Hj : (j <= List.length dts)%nat) by (assert (j < List.length gr)%nat by (apply nth_error_Some; congruence); lia).
    assert (Hd : forall t, (t < j)%nat -> 0 <= dt_of dts t <= D). { intros t Ht. split; [apply Rlt_le, Dp; lia|]. rewrite Forall_forall in Fd. apply Fd. apply nth_In. lia. }
    pose proof (squares_le dts j D Hd) as Sq. fold T in Sq.
    assert (Yb : forall k, in_basis n Vi (fun l => arr h start l - level l) k = y k) by (intros k; unfold y, in_basis; apply sumn_ext; intros l Hl0; rewrite (Hx l Hl0); reflexivity).
    split; [|split].
    + intros i I. rewrite (M1 i I), (mean_spectral n K V Vi lam Hk Hr level (arr h start) dts j i I). unfold M.
      rewrite (sumn_ext n (fun k => V i k * (prodn j _ * _)) (fun k => V i k * (prodn j (fun t => 1 - lam k * dt_of dts t) * y k))) by (intros k _; rewrite Yb; reflexivity).
      replace (level i + sumn n (fun k => V i k * (prodn j (fun t => 1 - lam k * dt_of dts t) * y k)) - (level i + sumn n (fun k => V i k * (exp (- lam k * T) * y k)))) with (sumn n (fun k => V i k * ((prodn j (fun t => 1 - lam k * dt_of dts t) - exp (- lam k * T)) * y k))) by (rewrite (sumn_ext n _ (fun k => V i k * (prodn j (fun t => 1 - lam k * dt_of dts t) * y k) - V i k * (exp (- lam k * T) * y k))) by (intros; ring); rewrite sumn_minus; ring).
      eapply Rle_trans; [apply sumn_abs|]. unfold Bm. rewrite <- sumn_scal. apply sumn_le. intros k Lk. rewrite !Rabs_mult.
      replace (D * (Rabs (V i k) * (exp (Rabs (lam k) * T) * (lam k * lam k / 2 * T) * Rabs (y k)))) with (Rabs (V i k) * (exp (Rabs (lam k) * T) * (lam k * lam k / 2 * (D * T)) * Rabs (y k))) by ring. apply Rmult_le_compat_l; [apply Rabs_pos|]. apply Rmult_le_compat_r; [apply Rabs_pos|].
      pose proof (gbm_mean_close (- lam k) dts j (fun t Ht => proj1 (Hd t Ht))) as Mc. fold T in Mc. rewrite Rabs_Ropp in Mc. replace (- lam k * - lam k / 2) with (lam k * lam k / 2) in Mc by field.
      assert (Pe : prodn j (fun t => 1 - lam k * dt_of dts t) = prodn j (fun t => 1 + - lam k * dt_of dts t)) by (clear; induction j as [|j IH]; cbn [prodn]; [reflexivity|]; rewrite IH; ring). rewrite Pe.
      eapply Rle_trans; [exact Mc|]. apply Rmult_le_compat_l; [apply Rlt_le, exp_pos|]. apply Rmult_le_compat_l; [pose proof (Rle_0_sqr (lam k)) as Hs; unfold Rsqr in Hs; lra|exact Sq].
    + intros i l I L. rewrite (M1 i I), (M1 l L), (M2 i l I L), (cov_spectral n K V Vi lam Hk Hr (noise_cov n Sg C) dts j i l I L). fold G c. unfold Cv. rewrite <- sumn_minus.
      eapply Rle_trans; [apply sumn_abs|]. unfold Bc. rewrite <- sumn_scal. apply sumn_le. intros k Lk. rewrite <- sumn_minus. eapply Rle_trans; [apply sumn_abs|]. rewrite <- sumn_scal. apply sumn_le. intros p Lp.
      rewrite <- Rmult_minus_distr_r, <- Rmult_minus_distr_l, !Rabs_mult. replace (D * (Rabs (V i k) * bc T k p * Rabs (V l p))) with (Rabs (V i k) * (D * bc T k p) * Rabs (V l p)) by ring. apply Rmult_le_compat_r; [apply Rabs_pos|]. apply Rmult_le_compat_l; [apply Rabs_pos|].
      pose proof (scalar_close (lam k) (lam p) (c k p) dts j (Ns k p Lk Lp) (fun t Ht => proj1 (Hd t Ht))) as Sc. cbv zeta in Sc. fold T in Sc. unfold w. eapply Rle_trans; [exact Sc|]. unfold bc.
      set (Z := exp _ * _). replace (D * (Z * T)) with (Z * (D * T)) by ring. apply Rmult_le_compat_l; [|exact Sq]. unfold Z. assert (T0 : 0 <= T) by (apply sumn_nonneg; intros t Ht; apply (Hd t Ht)).
      apply Rmult_le_pos; [apply Rlt_le, exp_pos|]. apply Rmult_le_pos; [apply Rabs_pos|]. pose proof (Rabs_pos (lam k + lam p)) as P1. pose proof (Rabs_pos (lam k * lam p)) as P2. pose proof (Rle_0_sqr (lam k + lam p)) as P3. unfold Rsqr in P3.
      assert (0 <= (Rabs (lam k * lam p) + (lam k + lam p) * (lam k + lam p) / 2) * T) by (apply Rmult_le_pos; lra). lra.
    + intros N' A. destruct (elapsed_sum _ _ _ _ _ _ _ A (proj1 Ss) Se TG Lg Ac j x X) as (q & Eq & Vq).
      assert (Gm : generated m m0) by (eapply gen_path; [apply gen_start|exact Ge]). rewrite <- Bn in Mr. destruct (prepared _ _ _ _ _ _ _ _ _ _ _ N La Mr Gm) as (De & Re & En & Em & Eg & El & EK & ES & Est & Edc & Ef). rewrite Bn in *.
      assert (Aq : mv_accrual m0 (Stamp x) None = Ok T). { unfold mv_accrual, mv_purchase. rewrite Est, Edc, Eq. cbn [bind]. rewrite Vq. reflexivity. }
      assert (Sx : mv_state m0 None = Ok (arr h start)). { pose proof (Evl 0%nat _ _ (tg_first _ _ _ _ TG) R0) as H. unfold mv_state, mv_purchase in *. rewrite Est. exact H. }
      split; [exact Aq|]. exists (mean_at m0 (arr h start) T). split; [unfold expected_state; rewrite Aq; cbn [bind]; rewrite Sx; reflexivity|]. intros i I. rewrite <- En in I. rewrite (mean_value m0 (arr h start) T i I), El, En.
      pose proof (generated_same _ _ Gm) as Sm. pose proof (new_multi_eig _ _ _ _ _ _ _ _ _ _ N) as Eg0. rewrite Bn, Ee in Eg0. injection Eg0 as EL EV. rewrite (sm_V _ _ Sm), (sm_lam _ _ Sm), <- EL, <- EV.
      assert (EVi : mv_Vi m0 = Vi). { rewrite (sm_Vi _ _ Sm). clear - N Bn Ee Ei. unfold new_multi in N. rewrite Bn in N. destruct rows as [[nS nl] nK]. destruct (negb _); [discriminate|]. rewrite Ee, Ei in N. cbn [or_lin bind] in N. injection N as <-. reflexivity. }
      rewrite EVi. unfold M, mvec, dot, vsub. rewrite Rplus_comm. f_equal. apply sumn_ext; intros k Lk. f_equal. f_equal. exact (Yb k).
Qed.
Print Assumptions C106_converges.

(** ---- concrete cases ---- *)
(** two factors driven by Brownian motions of correlation 3/5 *)
Definition chol_two : mat := mat_of [[1; 0]; [3 / 5; 4 / 5]].
Definition corr_two : mat := mat_of [[1; 3 / 5]; [3 / 5; 1]].
Definition bm_corr : brownian := new_brownian (t_day 0) (t_day 4) 2 chol_two ACT360.
Definition vols_two : mat := mat_of [[1 / 100; 0]; [0; 1 / 50]].
Definition two_corr : res multi := new_multi axes 0 (vec_of [1; 1]) (vec_of [1 / 20; 1 / 50]) two_speeds vols_two (2, 2, 2)%nat bm_corr one_day.
Lemma chol_two_ok p q : (p < 2)%nat -> (q < 2)%nat -> sumn 2 (fun k => chol_two p k * chol_two q k) = corr_two p q.
Proof. intros P Q. destruct p as [|[|p]]; [| |lia]; (destruct q as [|[|q]]; [| |lia]); cbn; field. Qed.
Lemma two_corr_run : exists m m0 h0, two_corr = Ok m /\ la_eig axes 2 two_speeds = Some (fun i => two_speeds i i, delta) /\ la_inv axes 2 delta = Some delta /\ mv_generate m two_rates 0 true ones = (m0, h0, Ok tt) /\
  bm_times (sr_bm (mv_model m0)) = Some days_2024 /\ bm_dts (sr_bm (mv_model m0)) = Some [q1; q1; q1; q1] /\ Forall (fun q => Q2R q <= 1 / 360) [q1; q1; q1; q1] /\ mv_lam m0 = (fun i => two_speeds i i) /\ mv_V m0 = delta /\ mv_Vi m0 = delta /\ mv_C m0 = mmul 2 vols_two (tr vols_two) /\ mv_n m0 = 2%nat /\
  forall k, (0 <= k <= 4)%Z -> mv_accrual m0 (Stamp (t_day k)) None = Ok (IZR k / 360).
Proof.
  assert (E : eqm 2 two_speeds (diag (fun i => two_speeds i i)) = true) by (apply eqm_ok; intros i j I J; unfold diag, delta; destruct i as [|[|i]]; [| |lia]; (destruct j as [|[|j]]; [| |lia]); cbn; ring).
  assert (Ed : eqm 2 delta delta = true) by (apply eqm_ok; reflexivity).
  assert (N : exists m, two_corr = Ok m /\ mv_lam m = (fun i => two_speeds i i) /\ mv_V m = delta /\ mv_Vi m = delta /\ mv_C m = mmul 2 vols_two (tr vols_two)) by (unfold two_corr, new_multi; cbn [bm_dim bm_corr new_brownian Nat.eqb andb negb axes la_eig la_inv]; rewrite E; cbn [axes la_inv]; rewrite Ed; cbn [or_lin bind]; eexists; repeat split; reflexivity).
  destruct N as (m & N & N1 & N2 & N3 & N4).
  destruct (mv_total axes _ _ _ _ _ _ bm_corr 86400000000 m two_rates 0 ones axes_ok N ltac:(lia) (day_ok 0 ltac:(lia)) (day_ok 4 ltac:(lia))) as (m0 & h0 & G & Gm & Sx & Es & Dc).
  { apply Z.leb_le. vm_compute. reflexivity. } { eexists. vm_compute. reflexivity. } { cbn. lia. }
  pose proof (generated_same _ _ Gm) as Sm. exists m, m0, h0. split; [exact N|]. split; [cbn [axes la_eig]; rewrite E; reflexivity|]. split; [cbn [axes la_inv]; rewrite Ed; reflexivity|]. split; [exact G|].
  destruct (new_multi_inv _ _ _ _ _ _ _ _ _ _ N axes_ok) as (_ & _ & En & _ & _ & _ & _ & _ & Mo).
  assert (T : bm_times (sr_bm (mv_model m0)) = Some days_2024 /\ bm_dts (sr_bm (mv_model m0)) = Some [q1; q1; q1; q1]).
  { unfold mv_generate, sr_generate_path, pr_generate_path in G. rewrite Mo in G. cbn [new_short_rate sr_proc new_process pr_bm pr_dt] in G.
    rewrite (incs_2024 bm_corr eq_refl eq_refl eq_refl) in G. destruct (alloc _ _) as [cur h1]. destruct (euler _ _ _ _ _ _) as [h2 sol]. cbn [pr_path] in G. injection G as <- _. split; reflexivity. }
  destruct T as [Tg Td]. split; [exact Tg|]. split; [exact Td|]. split; [repeat constructor; rewrite q1_value; lra|].
  rewrite (sm_lam _ _ Sm), (sm_V _ _ Sm), (sm_Vi _ _ Sm), (sm_C _ _ Sm), (sm_n _ _ Sm). do 4 (split; [assumption|]). split; [exact En|].
  intros k Hk. destruct (accrual_day k ltac:(lia)) as (Tq & HT & VT). unfold mv_accrual, mv_purchase. rewrite Es, Dc. cbn [bm_start bm_dcc bm_corr new_brownian]. rewrite HT. cbn [bind]. rewrite VT. reflexivity.
Qed.
(** a case of C106_moments and C106_converges: the correlated two-factor model above, simulated over four days by coin tosses *)
Example C106_case : exists m m0 h0, two_corr = Ok m /\ mv_generate m two_rates 0 true ones = (m0, h0, Ok tt) /\ bm_times (sr_bm (mv_model m0)) = Some days_2024 /\ bm_dts (sr_bm (mv_model m0)) = Some [q1; q1; q1; q1] /\ mean_reverting 2 two_speeds /\
  la_eig axes 2 two_speeds = Some (fun i => two_speeds i i, delta) /\ la_inv axes 2 delta = Some delta /\ independent_noise (coin_noise 4 2) 4 2 /\
  Forall (fun q => Q2R q <= 1 / 360) [q1; q1; q1; q1] /\ coin_noise 4 2 (sim_state m two_rates 0 (t_day 4) 1) = 1 / 50 + 1 / 100 * (179 / 180) ^ 4.
Proof.
  destruct two_corr_run as (m & m0 & h0 & N & Ee & Ei & G & Tg & Td & Fd & _). exists m, m0, h0. do 4 (split; [assumption|]). split; [exact two_speeds_reverting|]. split; [exact Ee|]. split; [exact Ei|]. split; [apply C100_noise|]. split; [exact Fd|].
  destruct (C106_moments axes 0 (vec_of [1; 1]) (vec_of [1 / 20; 1 / 50]) two_speeds vols_two corr_two (2, 2, 2)%nat bm_corr one_day m two_rates 0%nat ones m0 h0 days_2024 [q1; q1; q1; q1] (coin_noise 4 2) axes_ok N eq_refl ltac:(discriminate) (day_ok 0 ltac:(lia)) (day_ok 4 ltac:(lia)) ltac:(apply Z.leb_le; vm_compute; reflexivity) ltac:(cbn; lia) chol_two_ok G Tg Td (C100_noise 4 2)) as (_ & _ & H).
  destruct (H 4%nat (t_day 4) eq_refl) as [H1 _]. rewrite (H1 1%nat ltac:(cbn; lia)). change (bm_dim bm_corr) with 2%nat. cbn [step_mean sumn]. unfold dt_of. cbn [nth]. rewrite q1_value. unfold two_speeds, two_rates, mat_of, vec_of. cbn [nth arr]. field.
Qed.
Print Assumptions C106_case.
(** Not true of the code: that the covariance the model reports is that of the states it simulates also when the Brownian motions
    passed to it are correlated.  Above, the model reports covariance 0 for the next day; the simulated states have 1 / 3000000. *)
Theorem C106_refuted : exists m m0 h0 c, two_corr = Ok m /\ mv_generate m two_rates 0 true ones = (m0, h0, Ok tt) /\ state_covariance m0 (Stamp (t_day 1)) None = Ok c /\ c 0%nat 1%nat = 0 /\
  forall E, independent_noise E 4 2 -> let X := sim_state m two_rates 0 (t_day 1) in E (fun z => (X 0%nat z - E (X 0%nat)) * (X 1%nat z - E (X 1%nat))) = 1 / 3000000.
Proof.
  destruct two_corr_run as (m & m0 & h0 & N & Ee & Ei & G & Tg & Td & Fd & L0 & V0 & Vi0 & C0 & n0 & Ac). exists m, m0, h0. eexists. split; [exact N|]. split; [exact G|]. split; [unfold state_covariance; rewrite (Ac 1%Z ltac:(lia)); cbn [bind]; reflexivity|]. split.
  - rewrite n0, V0, Vi0, C0. cbn. unfold mmul, delta, tr. cbn. unfold Rdiv. ring.
  - intros E W. destruct (C106_moments axes 0 (vec_of [1; 1]) (vec_of [1 / 20; 1 / 50]) two_speeds vols_two corr_two (2, 2, 2)%nat bm_corr one_day m two_rates 0%nat ones m0 h0 days_2024 [q1; q1; q1; q1] E axes_ok N eq_refl ltac:(discriminate) (day_ok 0 ltac:(lia)) (day_ok 4 ltac:(lia)) ltac:(apply Z.leb_le; vm_compute; reflexivity) ltac:(cbn; lia) chol_two_ok G Tg Td W) as (_ & _ & H).
    destruct (H 1%nat (t_day 1) eq_refl) as [H1 H2]. change (bm_dim bm_corr) with 2%nat in H1, H2. intros X. unfold X. rewrite (H1 0%nat ltac:(lia)), (H1 1%nat ltac:(lia)), (H2 0%nat 1%nat ltac:(lia) ltac:(lia)).
    cbn [step_cov sumn]. unfold dt_of. cbn [nth]. rewrite q1_value. unfold noise_cov. cbn [sumn]. unfold vols_two, corr_two, mat_of. cbn [nth]. field.
Qed.
Print Assumptions C106_refuted.
