(** C100, C101: means and variances of simulated paths, against the closed formulas. *)
From Verif Require Import Base PyDate PyDateFacts PyList Loan DayCount DayCountFacts RVec Deriv Stochastic StochasticFacts P_DayCount Multi BrownianInit P_Stochastic ShortRate P_ShortRate Vasicek P_Vasicek P_BrownianInit.
From Coq Require Import Reals Qreals Lra.
Ltac lra := Lra.lra.
Ltac nra := Lra.nra.
Open Scope R_scope.

(** ---- specification: independent draws ---- *)
(** f looks at the draws of the first k steps only *)
Definition before (k : nat) (f : (nat -> vec) -> R) : Prop := forall z z' : nat -> vec, (forall l j, (l < k)%nat -> z l j = z' l j) -> f z = f z'.
(** An expectation under which the draws of each step are centred, uncorrelated and of variance 1 given the earlier steps *)
Record independent_noise (E : ((nat -> vec) -> R) -> R) (steps n : nat) : Prop := {
  in_ext : forall f g, (forall z, f z = g z) -> E f = E g;
  in_linear : forall a b f g, E (fun z => a * f z + b * g z) = a * E f + b * E g;
  in_one : E (fun _ => 1) = 1;
  in_centred : forall k i f, (k < steps)%nat -> (i < n)%nat -> before k f -> E (fun z => f z * z k i) = 0;
  in_variance : forall k i j f, (k < steps)%nat -> (i < n)%nat -> (j < n)%nat -> before k f -> E (fun z => f z * (z k i * z k j)) = delta i j * E f
}.
Lemma independent_white E steps n : independent_noise E steps n -> white_noise E steps n.
Proof.
  intros [A B C D F]. assert (Sc : forall a f, E (fun z => a * f z) = a * E f) by (intros a f; rewrite (A _ (fun z => a * f z + 0 * f z)) by (intros; ring); rewrite B; ring). constructor; auto.
  - intros k i K I. rewrite (A _ (fun z => 1 * z k i)) by (intros; ring). apply (D k i (fun _ => 1) K I). intros z z' _. reflexivity.
  - intros k l i j K L I J. destruct (Nat.lt_trichotomy k l) as [H|[->|H]].
    + destruct (Nat.eqb_spec k l); [lia|]. apply (D l j (fun z => z k i) L J). intros z z' Hz. apply Hz, H.
    + rewrite Nat.eqb_refl. rewrite (A _ (fun z => 1 * (z l i * z l j))) by (intros; ring). rewrite (F l i j (fun _ => 1) L I J) by (intros z z' _; reflexivity). rewrite C. ring.
    + destruct (Nat.eqb_spec k l); [lia|]. rewrite (A _ (fun z => z l j * z k i)) by (intros; ring). apply (D k i (fun z => z l j) K I). intros z z' Hz. apply Hz, H.
Qed.

(** ---- they exist: fair coins ---- *)
Definition put (z : nat -> vec) (c : nat * nat) (a : R) : nat -> vec := fun l j => if Nat.eqb l (fst c) && Nat.eqb j (snd c) then a else z l j.
Fixpoint coins (cs : list (nat * nat)) (f : (nat -> vec) -> R) (z : nat -> vec) : R :=
  match cs with [] => f z | c :: cs => (coins cs f (put z c 1) + coins cs f (put z c (-1))) / 2 end.
Definition grid_of (steps n : nat) : list (nat * nat) := list_prod (seq 0 steps) (seq 0 n).
Definition coin_noise (steps n : nat) (f : (nat -> vec) -> R) : R := coins (grid_of steps n) f (fun _ _ => 0).
Definition blind (c : nat * nat) (f : (nat -> vec) -> R) : Prop := forall z z' : nat -> vec, (forall l j, (l, j) <> c -> z l j = z' l j) -> f z = f z'.
Lemma put_same z c a : put z c a (fst c) (snd c) = a.
Proof. unfold put. rewrite !Nat.eqb_refl. reflexivity. Qed.
Lemma put_other z c a l j : (l, j) <> c -> put z c a l j = z l j.
Proof. intros N. unfold put. destruct (Nat.eqb_spec l (fst c)), (Nat.eqb_spec j (snd c)); try reflexivity. destruct N. subst. destruct c; reflexivity. Qed.
Lemma coins_ext cs f g : (forall z, f z = g z) -> forall z, coins cs f z = coins cs g z.
Proof. intros H. induction cs as [|c cs IH]; intros z; cbn [coins]; [apply H|rewrite !IH; reflexivity]. Qed.
Lemma coins_linear cs a b f g : forall z, coins cs (fun z => a * f z + b * g z) z = a * coins cs f z + b * coins cs g z.
Proof. induction cs as [|c cs IH]; intros z; cbn [coins]; [reflexivity|rewrite !IH; field]. Qed.
Lemma coins_const cs a : forall z, coins cs (fun _ => a) z = a.
Proof. induction cs as [|c cs IH]; intros z; cbn [coins]; [reflexivity|rewrite !IH; field]. Qed.
Lemma coins_blind cs c f : blind c f -> forall z z', (forall l j, (l, j) <> c -> z l j = z' l j) -> coins cs f z = coins cs f z'.
Proof.
  intros B. induction cs as [|d cs IH]; intros z z' H; cbn [coins]; [apply B, H|]. f_equal. f_equal; apply IH; intros l j N; unfold put; destruct (Nat.eqb l (fst d) && Nat.eqb j (snd d)); auto.
Qed.
Lemma coins_outside cs c f (g : R -> R) : ~ In c cs -> blind c f -> forall z, coins cs (fun z => f z * g (z (fst c) (snd c))) z = coins cs f z * g (z (fst c) (snd c)).
Proof.
  induction cs as [|d cs IH]; intros N B z; cbn [coins]; [reflexivity|]. rewrite !IH by (intros; try assumption; intros H; apply N; right; exact H).
  rewrite !put_other by (intros H; apply N; left; destruct c; cbn in H; congruence). field.
Qed.
Lemma coins_inside cs c f (g : R -> R) : NoDup cs -> In c cs -> blind c f -> forall z, coins cs (fun z => f z * g (z (fst c) (snd c))) z = coins cs f z * ((g 1 + g (-1)) / 2).
Proof.
  induction cs as [|d cs IH]; intros Nd I B z; [destruct I|]. cbn [coins]. inversion_clear Nd. destruct I as [->|I].
  - rewrite !coins_outside by assumption. rewrite !put_same.
    rewrite (coins_blind cs c f B (put z c 1) z) by (intros; apply put_other; assumption). rewrite (coins_blind cs c f B (put z c (-1)) z) by (intros; apply put_other; assumption). field.
  - rewrite !IH by assumption. field.
Qed.
Theorem C100_noise : forall steps n, independent_noise (coin_noise steps n) steps n.
Proof.
  intros steps n. assert (Nd : NoDup (grid_of steps n)).
  { unfold grid_of. generalize (seq_NoDup steps 0). induction (seq 0 steps) as [|a l IH]; intros H; [constructor|]. cbn [list_prod]. inversion_clear H.
    assert (A : NoDup (List.map (fun y => (a, y)) (seq 0 n))) by (apply FinFun.Injective_map_NoDup; [intros x y [= ->]; reflexivity|apply seq_NoDup]).
    assert (G : forall (l1 l2 : list (nat * nat)), NoDup l1 -> NoDup l2 -> (forall x, In x l1 -> ~ In x l2) -> NoDup (l1 ++ l2)).
    { clear. induction l1 as [|x l1 IH]; intros l2 N1 N2 D; [exact N2|]. inversion_clear N1. constructor; [intros I; apply in_app_or in I; destruct I as [I|I]; [contradiction|apply (D x); [left; reflexivity|exact I]]|apply IH; auto; intros y Y; apply D; right; exact Y]. }
    apply G; [exact A|apply IH; assumption|]. intros [x y] I1 I2. apply in_map_iff in I1. destruct I1 as (u & [= <- <-] & _). apply in_prod_iff in I2. destruct I2. contradiction. }
  assert (In_ : forall k i, (k < steps)%nat -> (i < n)%nat -> In (k, i) (grid_of steps n)) by (intros k i K I; apply in_prod_iff; split; apply in_seq; lia).
  assert (Bl : forall k i f, before k f -> blind (k, i) f) by (intros k i f B z z' H; apply B; intros l j L; apply H; intros [= -> _]; lia).
  constructor; unfold coin_noise.
  - intros f g H. apply coins_ext, H.
  - intros. apply coins_linear.
  - apply coins_const.
  - intros k i f K I B. pose proof (coins_inside (grid_of steps n) (k, i) f (fun x => x) Nd (In_ k i K I) (Bl k i f B) (fun _ _ => 0)) as H. cbn [fst snd] in H. rewrite H. lra.
  - intros k i j f K I J B. unfold delta. destruct (Nat.eqb_spec i j) as [->|N].
    + pose proof (coins_inside (grid_of steps n) (k, j) f (fun x => x * x) Nd (In_ k j K J) (Bl k j f B) (fun _ _ => 0)) as H. cbn [fst snd] in H. rewrite H. lra.
    + rewrite (coins_ext _ _ (fun z => f z * z k j * z k i)) by (intros; ring).
      pose proof (coins_inside (grid_of steps n) (k, i) (fun z => f z * z k j) (fun x => x) Nd (In_ k i K I)) as H. cbn [fst snd] in H. rewrite H; [lra|].
      intros z z' Hz. rewrite (Bl k i f B z z' Hz). rewrite (Hz k j) by congruence. reflexivity.
Qed.
Print Assumptions C100_noise.

(** f 0 * ... * f (k-1) *)
Fixpoint prodn (k : nat) (f : nat -> R) : R := match k with O => 1 | S k => prodn k f * f k end.
(** the k-th time increment *)
Definition dt_of (dts : list Q) (k : nat) : R := Q2R (nth k dts 0%Q).

Section Independent.
Context (E : ((nat -> vec) -> R) -> R) (steps n : nat) (W : independent_noise E steps n).
Lemma iE_ext f g : (forall z, f z = g z) -> E f = E g.
Proof. apply (in_ext _ _ _ W). Qed.
Lemma iE_scal a f : E (fun z => a * f z) = a * E f.
Proof. apply (E_scal E steps n (independent_white _ _ _ W)). Qed.
Lemma iE_plus f g : E (fun z => f z + g z) = E f + E g.
Proof. rewrite (iE_ext _ (fun z => 1 * f z + 1 * g z)) by (intros; ring). rewrite (in_linear _ _ _ W). ring. Qed.
Lemma iE_const a : E (fun _ => a) = a.
Proof. rewrite (iE_ext _ (fun _ => a * 1)) by (intros; ring). rewrite (iE_scal a (fun _ => 1)), (in_one _ _ _ W). ring. Qed.
Lemma iE_shock k (a : vec) f : (k < steps)%nat -> before k f -> E (fun z => f z * sumn n (fun j => a j * z k j)) = 0.
Proof.
  intros K B. rewrite (iE_ext _ (fun z => sumn n (fun j => a j * (f z * z k j)))) by (intros; rewrite <- sumn_scal; apply sumn_ext; intros; ring).
  rewrite (E_sumn E steps n (independent_white _ _ _ W) n (fun j z => a j * (f z * z k j))). apply sumn_zero. intros j J. rewrite (iE_scal (a j) (fun z => f z * z k j)), (in_centred _ _ _ W k j f K J B). ring.
Qed.
Lemma iE_shock2 k (a : vec) f : (k < steps)%nat -> before k f -> E (fun z => f z * (sumn n (fun j => a j * z k j) * sumn n (fun j => a j * z k j))) = sumn n (fun j => a j * a j) * E f.
Proof.
  intros K B. rewrite (iE_ext _ (fun z => sumn n (fun i => sumn n (fun j => a i * a j * (f z * (z k i * z k j)))))).
  2:{ intros z. rewrite prod_sums, <- sumn_scal. apply sumn_ext. intros i _. rewrite <- sumn_scal. apply sumn_ext. intros. ring. }
  pose proof (independent_white _ _ _ W) as Wh. rewrite (E_sumn E steps n Wh n (fun i z => sumn n (fun j => a i * a j * (f z * (z k i * z k j))))). rewrite <- sumn_scal_r. apply sumn_ext. intros i I.
  rewrite (E_sumn E steps n Wh n (fun j z => a i * a j * (f z * (z k i * z k j)))). rewrite (sumn_ext n _ (fun j => delta i j * (a i * a j * E f))).
  - apply (sumn_delta n i (fun j => a i * a j * E f) I).
  - intros j J. rewrite (iE_scal (a i * a j) (fun z => f z * (z k i * z k j))), (in_variance _ _ _ W k i j f K I J B). ring.
Qed.
(** one step of a recursion x' = c x + d + s x (shock), resp. + s (shock) *)
Lemma step_scaled k x c s (a : vec) : (k < steps)%nat -> before k x -> 
  E (fun z => x z * (c + s * sumn n (fun j => a j * z k j))) = c * E x /\
  E (fun z => x z * (c + s * sumn n (fun j => a j * z k j)) * (x z * (c + s * sumn n (fun j => a j * z k j)))) = (c * c + s * s * sumn n (fun j => a j * a j)) * E (fun z => x z * x z).
Proof.
  intros K B. assert (B2 : before k (fun z => x z * x z)) by (intros z z' H; rewrite (B z z' H); reflexivity). split.
  - rewrite (iE_ext _ (fun z => c * x z + s * (x z * sumn n (fun j => a j * z k j)))) by (intros; ring). rewrite (in_linear _ _ _ W), (iE_shock k a x K B). ring.
  - rewrite (iE_ext _ (fun z => 1 * (c * c * (x z * x z) + 2 * c * s * (x z * x z * sumn n (fun j => a j * z k j))) + s * s * (x z * x z * (sumn n (fun j => a j * z k j) * sumn n (fun j => a j * z k j))))) by (intros; ring).
    rewrite (in_linear _ _ _ W _ _ (fun z => c * c * (x z * x z) + 2 * c * s * (x z * x z * sumn n (fun j => a j * z k j)))), (in_linear _ _ _ W), (iE_shock k a _ K B2), (iE_shock2 k a _ K B2). ring.
Qed.
Lemma step_added k x c d s (a : vec) : (k < steps)%nat -> before k x ->
  E (fun z => c * x z + d + s * sumn n (fun j => a j * z k j)) = c * E x + d /\
  E (fun z => (c * x z + s * sumn n (fun j => a j * z k j)) * (c * x z + s * sumn n (fun j => a j * z k j))) = c * c * E (fun z => x z * x z) + s * s * sumn n (fun j => a j * a j).
Proof.
  intros K B. assert (B1 : before k (fun _ => 1)) by (intros z z' _; reflexivity). split.
  - rewrite (iE_ext _ (fun z => 1 * (c * x z + d * 1) + s * (1 * sumn n (fun j => a j * z k j)))) by (intros; ring).
    rewrite (in_linear _ _ _ W 1 s (fun z => c * x z + d * 1)), (in_linear _ _ _ W c d x (fun _ => 1)), (iE_shock k a (fun _ => 1) K B1), (in_one _ _ _ W). ring.
  - rewrite (iE_ext _ (fun z => 1 * (c * c * (x z * x z) + 2 * c * s * (x z * sumn n (fun j => a j * z k j))) + s * s * (1 * (sumn n (fun j => a j * z k j) * sumn n (fun j => a j * z k j))))) by (intros; ring).
    rewrite (in_linear _ _ _ W _ _ (fun z => c * c * (x z * x z) + 2 * c * s * (x z * sumn n (fun j => a j * z k j)))), (in_linear _ _ _ W), (iE_shock k a _ K B), (iE_shock2 k a _ K B1), (in_one _ _ _ W). ring.
Qed.
End Independent.

(** ---- C100: geometric Brownian motion ---- *)
Lemma gbm_loop_step mu sigma st : forall v k w w' s q i, nth_error (gbm_loop mu sigma v st) k = Some w -> nth_error (gbm_loop mu sigma v st) (S k) = Some w' -> nth_error st k = Some (s, q) ->
  w' i = w i * (1 + mu * Q2R q + sigma * s i).
Proof.
  induction st as [|[s0 q0] st IH]; intros v k w w' s q i; [destruct k; discriminate|]. cbn [gbm_loop]. destruct k as [|k]; cbn [nth_error].
  - intros [= <-] Hw [= <- <-]. destruct st as [|[s1 q1] st]; cbn [gbm_loop nth_error] in Hw; injection Hw as <-; ring.
  - intros A B C. exact (IH _ k w w' s q i A B C).
Qed.
(** coordinate i of the k-th column of the path generated from the draws z *)
Definition gbm_value (g : gbm) (v : vec) (k i : nat) (z : nat -> vec) : R :=
  match snd (gbm_generate_path g (StartArray v) true z) with Ok sol => match nth_error sol k with Some w => w i | None => 0 end | Err _ => 0 end.

(** The mean and mean square of a simulated geometric Brownian motion: factors 1 + mu dt and (1 + mu dt)^2 + sigma^2 C_ii dt. *)
Theorem C100_moments : forall mu sigma s e n L dt (C : mat) v z0 b1 incs dts E, let g := new_gbm mu sigma s e n L dt in
  forward dt -> stamp_ok ACTACT s -> stamp_ok ACTACT e -> (dt_abs s <= dt_abs e)%Z -> (forall i, (i < n)%nat -> sumn n (fun k => L i k * L i k) = C i i) ->
  generate_increments (g_bm g) dt z0 = (b1, Ok (incs, dts)) -> independent_noise E (List.length dts) n ->
  (forall z, exists g' sol, gbm_generate_path g (StartArray v) true z = (g', Ok sol) /\ List.length sol = S (List.length dts)) /\
  forall k i, (k <= List.length dts)%nat -> (i < n)%nat ->
    E (gbm_value g v k i) = v i * prodn k (fun t => 1 + mu * dt_of dts t) /\
    E (fun z => gbm_value g v k i z * gbm_value g v k i z) = v i * v i * prodn k (fun t => (1 + mu * dt_of dts t) * (1 + mu * dt_of dts t) + sigma * sigma * C i i * dt_of dts t).
Proof.
  intros mu sigma s e n L dt C v z0 b1 incs dts E g F Ss Se Lse HL G W.
  assert (Gz : forall z, generate_increments (g_bm g) dt z = (b1, Ok (columns_from (g_bm g) z 0 dts, dts))) by apply (increments_draws _ _ _ _ _ _ G).
  destruct (C48_grid _ _ _ _ _ _ F (proj1 Ss : datetime_ok (bm_start (g_bm g))) (proj1 Se : datetime_ok (bm_end (g_bm g))) Lse G) as (gr & T & D & _ & TG & Lg & _ & Ac & _). destruct TG as [G1 G2 G3 G4 G5]. change (bm_start (g_bm g)) with s in *. change (bm_end (g_bm g)) with e in *. change (bm_dcc (g_bm g)) with ACTACT in *.
  assert (Stp : forall x, In x gr -> stamp_ok ACTACT x).
  { intros x I. destruct (G4 x I) as [Ox Bx]. destruct Ss as (Os' & Ls & Ys), Se as (Oe' & Le & Ye). split; [exact Ox|]. split.
    - pose proof (dt_abs_date x e Ox Oe' ltac:(lia)). lia.
    - intros X. specialize (Ys X). pose proof (dt_abs_date s x Os' Ox ltac:(lia)). pose proof (year_mono (dt_date s) (dt_date x) ltac:(lia)). lia. }
  assert (Dp : forall t, (t < List.length dts)%nat -> 0 < dt_of dts t).
  { intros t Ht. destruct (nth_error dts t) as [q|] eqn:Q; [|apply nth_error_None in Q; lia]. destruct (nth_error gr t) as [x|] eqn:X; [|apply nth_error_None in X; lia]. destruct (nth_error gr (S t)) as [y|] eqn:Y; [|apply nth_error_None in Y; lia].
    unfold dt_of. rewrite (nth_error_nth _ _ 0%Q Q). replace 0 with (Q2R 0) by (unfold Q2R; cbn; lra). apply Qlt_Rlt.
    apply (accrual_positive ACTACT x y q ltac:(discriminate) (Stp x (nth_error_In _ _ X)) (Stp y (nth_error_In _ _ Y))); [apply (G3 t (S t) x y ltac:(lia) X Y)|apply (Ac t x y q X Y Q)]. }
  set (sol := fun z => gbm_loop mu sigma v (combine (columns_from (g_bm g) z 0 dts) dts)).
  assert (Ge : forall z, exists g', gbm_generate_path g (StartArray v) true z = (g', Ok (sol z))).
  { intros z. unfold gbm_generate_path. change (g_dt g) with dt. rewrite (Gz z). eauto. }
  assert (Ln : forall z, List.length (sol z) = S (List.length dts)).
  { intros z. unfold sol. rewrite (proj1 (gbm_loop_spec _ _ _ _)), combine_length, columns_length, Nat.min_id. reflexivity. }
  split; [intros z; destruct (Ge z) as [g' Hg]; exists g', (sol z); split; [exact Hg|apply Ln]|].
  assert (Va : forall k i z, gbm_value g v k i z = match nth_error (sol z) k with Some w => w i | None => 0 end) by (intros k i z; unfold gbm_value; destruct (Ge z) as [g' ->]; reflexivity).
  assert (V0 : forall i z, gbm_value g v 0 i z = v i).
  { intros i z. rewrite Va. unfold sol. destruct (combine _ _) as [|[a b] l]; reflexivity. }
  assert (Vs : forall k i z, (k < List.length dts)%nat -> gbm_value g v (S k) i z = gbm_value g v k i z * ((1 + mu * dt_of dts k) + (sigma * sqrt (dt_of dts k)) * sumn n (fun j => L i j * z k j))).
  { intros k i z K. rewrite !Va. pose proof (Ln z) as Lz. destruct (nth_error (sol z) k) as [w|] eqn:A; [|apply nth_error_None in A; lia]. destruct (nth_error (sol z) (S k)) as [w'|] eqn:B; [|apply nth_error_None in B; lia].
    destruct (nth_error dts k) as [q|] eqn:Q; [|apply nth_error_None in Q; lia]. destruct (nth_error (columns_from (g_bm g) z 0 dts) k) as [c|] eqn:Cn; [|apply nth_error_None in Cn; rewrite columns_length in Cn; lia].
    rewrite (gbm_loop_step mu sigma _ v k w w' c q i A B (combine_nth' _ _ _ _ _ Cn Q)).
    destruct (C48_grid _ _ z _ _ _ F (proj1 Ss : datetime_ok (bm_start (g_bm g))) (proj1 Se : datetime_ok (bm_end (g_bm g))) Lse (Gz z)) as (_ & _ & _ & _ & _ & _ & _ & _ & Cl). rewrite (Cl k q c i Q Cn). unfold dt_of. rewrite (nth_error_nth _ _ 0%Q Q). change (bm_dim (g_bm g)) with n. change (bm_chol (g_bm g)) with L. ring. }
  assert (Bf : forall k i, (k <= List.length dts)%nat -> before k (gbm_value g v k i)).
  { induction k as [|k IH]; intros i K z z' H; [rewrite !V0; reflexivity|]. rewrite !Vs by lia. rewrite (IH i ltac:(lia) z z') by (intros; apply H; lia). f_equal. f_equal. f_equal. apply sumn_ext. intros j _. rewrite (H k j) by lia. reflexivity. }
  induction k as [|k IH]; intros i K I.
  - split; [rewrite (in_ext _ _ _ W _ (fun _ => v i)) by (intros; apply V0); rewrite (iE_const E _ n W); cbn; ring|]. rewrite (in_ext _ _ _ W _ (fun _ => v i * v i)) by (intros; rewrite !V0; reflexivity). rewrite (iE_const E _ n W). cbn. ring.
  - destruct (IH i ltac:(lia) I) as [M1 M2]. destruct (step_scaled E _ n W k (gbm_value g v k i) (1 + mu * dt_of dts k) (sigma * sqrt (dt_of dts k)) (L i) ltac:(lia) (Bf k i ltac:(lia))) as [N1 N2]. split.
    + rewrite (in_ext _ _ _ W _ _ (fun z => Vs k i z ltac:(lia))), N1, M1. cbn [prodn]. ring.
    + rewrite (in_ext _ _ _ W _ (fun z => gbm_value g v k i z * ((1 + mu * dt_of dts k) + (sigma * sqrt (dt_of dts k)) * sumn n (fun j => L i j * z k j)) * (gbm_value g v k i z * ((1 + mu * dt_of dts k) + (sigma * sqrt (dt_of dts k)) * sumn n (fun j => L i j * z k j))))) by (intros z; rewrite !Vs by lia; reflexivity).
      rewrite N2, M2, (HL i I). cbn [prodn]. replace (sigma * sqrt (dt_of dts k) * (sigma * sqrt (dt_of dts k))) with (sigma * sigma * (sqrt (dt_of dts k) * sqrt (dt_of dts k))) by ring. rewrite sqrt_sqrt by (specialize (Dp k ltac:(lia)); lra). ring.
Qed.
Print Assumptions C100_moments.

(** ---- C101: the Vasicek model's simulated rate against its closed formulas ---- *)
(** the rate at time x of the model simulated from the draws z *)
Definition sim_rate (v : vasicek) (h : arrays) (start : nat) (x : datetime) (z : nat -> vec) : R :=
  match va_generate v h start true z with (v', _, Ok _) => match va_rate v' (Some x) with Ok r => r | Err _ => 0 end | (_, _, Err _) => 0 end.
(** variance of y' = (1 - k dt) y + sigma (shock of variance dt) from 0, after j steps *)
Fixpoint step_variance (k sigma : R) (dts : list Q) (j : nat) : R :=
  match j with O => 0 | S j => (1 - k * dt_of dts j) * (1 - k * dt_of dts j) * step_variance k sigma dts j + sigma * sigma * dt_of dts j end.

Lemma grid_dts s e dt c g dts : c <> THIRTY360 -> stamp_ok c s -> stamp_ok c e -> (dt_abs s <= dt_abs e)%Z -> time_grid s e dt g -> List.length g = S (List.length dts) ->
  (forall j x y q, nth_error g j = Some x -> nth_error g (S j) = Some y -> nth_error dts j = Some q -> compute_accrual_length (Stamp x) (Stamp y) c = Ok q) ->
  forall t, (t < List.length dts)%nat -> 0 < dt_of dts t.
Proof.
  intros NC Ss Se Lse [G1 G2 G3 G4 G5] Lg Ac t Ht.
  assert (Stp : forall x, In x g -> stamp_ok c x).
  { intros x I. destruct (G4 x I) as [Ox Bx]. destruct Ss as (Os' & Ls & Ys), Se as (Oe' & Le & Ye). split; [exact Ox|]. split.
    - pose proof (dt_abs_date x e Ox Oe' ltac:(lia)). lia.
    - intros X. specialize (Ys X). pose proof (dt_abs_date s x Os' Ox ltac:(lia)). pose proof (year_mono (dt_date s) (dt_date x) ltac:(lia)). lia. }
  destruct (nth_error dts t) as [q|] eqn:Q; [|apply nth_error_None in Q; lia]. destruct (nth_error g t) as [x|] eqn:X; [|apply nth_error_None in X; lia]. destruct (nth_error g (S t)) as [y|] eqn:Y; [|apply nth_error_None in Y; lia].
  unfold dt_of. rewrite (nth_error_nth _ _ 0%Q Q). replace 0 with (Q2R 0) by (unfold Q2R; cbn; lra). apply Qlt_Rlt.
  apply (accrual_positive c x y q NC (Stp x (nth_error_In _ _ X)) (Stp y (nth_error_In _ _ Y))); [apply (G3 t (S t) x y ltac:(lia) X Y)|apply (Ac t x y q X Y Q)].
Qed.

(** The rate simulated to each grid time has the mean theta + (r0 - theta) prod (1 - k dt) and the variance of the recursion. *)
Theorem C101_moments : forall theta k sigma b dt v h start z0 v0 h0 g dts E, new_vasicek theta k sigma b dt = Ok v -> forward dt -> bm_dcc b <> THIRTY360 -> stamp_ok (bm_dcc b) (bm_start b) -> stamp_ok (bm_dcc b) (bm_end b) ->
  (dt_abs (bm_start b) <= dt_abs (bm_end b))%Z -> (start < fresh h)%nat -> bm_dim b = 1%nat -> bm_chol b 0%nat 0%nat * bm_chol b 0%nat 0%nat = 1 ->
  va_generate v h start true z0 = (v0, h0, Ok tt) -> bm_times (sr_bm (va_model v0)) = Some g -> bm_dts (sr_bm (va_model v0)) = Some dts -> independent_noise E (List.length dts) 1 ->
  let r0 := arr h start 0%nat in
  List.length g = S (List.length dts) /\ (forall z, exists v' h', va_generate v h start true z = (v', h', Ok tt)) /\
  forall j x, nth_error g j = Some x -> let M := theta + (r0 - theta) * prodn j (fun t => 1 - k * dt_of dts t) in
    E (sim_rate v h start x) = M /\ E (fun z => (sim_rate v h start x z - M) * (sim_rate v h start x z - M)) = step_variance k sigma dts j.
Proof.
  intros theta k sigma b dt v h start z0 v0 h0 g dts E N F NC Ss Se Lse St D1 Ch Ge Tg Td W r0.
  (* every draw table gives a path on the same grid *)
  assert (All : forall z, exists v' h', va_generate v h start true z = (v', h', Ok tt) /\ sr_bm (va_model v') = sr_bm (va_model v0)).
  { intros z. unfold new_vasicek in N. destruct (fdiv _ _) as [lim|]; [|discriminate]. cbn [bind] in N. injection N as <-. unfold va_generate, sr_generate_path, pr_generate_path in *. cbn [va_model sr_proc new_short_rate pr_bm new_process pr_dt] in *.
    destruct (generate_increments b dt z0) as [b1 [[incs dts0]|]] eqn:G; [|discriminate]. rewrite (increments_draws _ _ _ _ _ _ G z). destruct (alloc _ _) as [cur h1]. destruct (euler _ _ _ _ _ (combine incs dts0)) as [h2 sol]. destruct (euler _ _ _ _ _ _) as [h3 sol']. cbn [pr_path] in *. injection Ge as <- _. do 2 eexists. split; reflexivity. }
  assert (Rt : forall z, exists rates, List.length rates = List.length g /\ List.length g = S (List.length dts) /\ nth_error rates 0 = Some r0 /\ time_grid (bm_start b) (bm_end b) dt g /\
     (forall j x y q, nth_error g j = Some x -> nth_error g (S j) = Some y -> nth_error dts j = Some q -> compute_accrual_length (Stamp x) (Stamp y) (bm_dcc b) = Ok q) /\
     (forall j q r r', nth_error dts j = Some q -> nth_error rates j = Some r -> nth_error rates (S j) = Some r' -> r' = r + k * (theta - r) * Q2R q + sigma * (bm_chol b 0%nat 0%nat * (z j 0%nat * sqrt (Q2R q)))) /\
     (forall j x r, nth_error g j = Some x -> nth_error rates j = Some r -> sim_rate v h start x z = r)).
  { intros z. destruct (All z) as (v' & h' & G' & Eb). destruct (vasicek_walk _ _ _ _ _ _ _ _ _ _ _ N F (proj1 Ss) (proj1 Se) Lse St D1 G') as (g' & dts' & rates & Eg1 & Eg2 & Pa & TG & Lr & Lg & R0 & Ac & Sk & Ev).
    pose proof (conj Eg1 Eg2) as Eg.
    rewrite Eb, Tg, Td in Eg. destruct Eg as [[= <-] [= <-]]. exists rates. do 6 (split; [assumption|]). intros j x r X R. unfold sim_rate. rewrite G'. rewrite (Ev j x r X R). reflexivity. }
  destruct (Rt z0) as (rates0 & _ & Lg & _ & TG & Ac & _).
  pose proof (grid_dts _ _ _ _ _ _ NC Ss Se Lse TG Lg Ac) as Dp.
  split; [exact Lg|]. split; [intros z; destruct (All z) as (v' & h' & G' & _); exists v', h'; exact G'|].
  assert (V0 : forall x z, nth_error g 0 = Some x -> sim_rate v h start x z = r0) by (intros x z X; destruct (Rt z) as (rs & _ & _ & R0 & _ & _ & _ & Ev); exact (Ev 0%nat x r0 X R0)).
  assert (Vs : forall j x y z, nth_error g j = Some x -> nth_error g (S j) = Some y -> sim_rate v h start y z = (1 - k * dt_of dts j) * sim_rate v h start x z + k * theta * dt_of dts j + (sigma * sqrt (dt_of dts j)) * sumn 1 (fun i => bm_chol b 0%nat i * z j i)).
  { intros j x y z X Y. destruct (Rt z) as (rs & Lr & _ & _ & _ & _ & Sk & Ev). assert (S j < List.length g)%nat by (apply nth_error_Some; congruence).
    destruct (nth_error rs j) as [r|] eqn:R; [|apply nth_error_None in R; lia]. destruct (nth_error rs (S j)) as [r'|] eqn:R'; [|apply nth_error_None in R'; lia]. destruct (nth_error dts j) as [q|] eqn:Q; [|apply nth_error_None in Q; lia].
    rewrite (Ev (S j) y r' Y R'), (Ev j x r X R), (Sk j q r r' Q R R'). unfold dt_of. rewrite (nth_error_nth _ _ 0%Q Q). cbn [sumn]. ring. }
  assert (Bf : forall j x, nth_error g j = Some x -> before j (sim_rate v h start x)).
  { induction j as [|j IH]; intros x X z z' Hz; [rewrite !V0 by exact X; reflexivity|]. assert (S j < List.length g)%nat by (apply nth_error_Some; congruence). destruct (nth_error g j) as [y|] eqn:Y; [|apply nth_error_None in Y; lia].
    rewrite !(Vs j y x _ Y X). rewrite (IH y eq_refl z z') by (intros; apply Hz; lia). f_equal. f_equal. apply sumn_ext. intros i _. rewrite (Hz j i) by lia. reflexivity. }
  induction j as [|j IH]; intros x X M.
  - split; [rewrite (in_ext _ _ _ W _ (fun _ => r0)) by (intros; apply V0, X); rewrite (iE_const E _ 1 W); unfold M; cbn; ring|].
    rewrite (in_ext _ _ _ W _ (fun _ => 0)) by (intros; rewrite !V0 by exact X; unfold M; cbn; ring). rewrite (iE_const E _ 1 W). reflexivity.
  - assert (S j < List.length g)%nat by (apply nth_error_Some; congruence). destruct (nth_error g j) as [y|] eqn:Y; [|apply nth_error_None in Y; lia]. destruct (IH y eq_refl) as [M1 M2].
    set (My := theta + (r0 - theta) * prodn j (fun t => 1 - k * dt_of dts t)) in *.
    assert (MM : M = (1 - k * dt_of dts j) * My + k * theta * dt_of dts j) by (unfold M, My; cbn [prodn]; ring).
    assert (Bc : before j (fun z => sim_rate v h start y z - My)) by (intros z z' Hz; rewrite (Bf j y Y z z' Hz); reflexivity).
    destruct (step_added E _ 1 W j (sim_rate v h start y) (1 - k * dt_of dts j) (k * theta * dt_of dts j) (sigma * sqrt (dt_of dts j)) (bm_chol b 0%nat) ltac:(lia) (Bf j y Y)) as [N1 _].
    destruct (step_added E _ 1 W j (fun z => sim_rate v h start y z - My) (1 - k * dt_of dts j) 0 (sigma * sqrt (dt_of dts j)) (bm_chol b 0%nat) ltac:(lia) Bc) as [_ N2]. split.
    + rewrite (in_ext _ _ _ W _ _ (fun z => Vs j y x z Y X)), N1, M1. symmetry. exact MM.
    + rewrite (in_ext _ _ _ W _ (fun z => ((1 - k * dt_of dts j) * (sim_rate v h start y z - My) + sigma * sqrt (dt_of dts j) * sumn 1 (fun i => bm_chol b 0%nat i * z j i)) * ((1 - k * dt_of dts j) * (sim_rate v h start y z - My) + sigma * sqrt (dt_of dts j) * sumn 1 (fun i => bm_chol b 0%nat i * z j i)))) by (intros z; rewrite (Vs j y x z Y X), MM; ring).
      rewrite N2, M2. cbn [step_variance sumn]. rewrite Rplus_0_l, Ch. replace (sigma * sqrt (dt_of dts j) * (sigma * sqrt (dt_of dts j))) with (sigma * sigma * (sqrt (dt_of dts j) * sqrt (dt_of dts j))) by ring. rewrite sqrt_sqrt by (specialize (Dp j ltac:(lia)); lra). ring.
Qed.
Print Assumptions C101_moments.

(** ---- closeness to the closed formulas ---- *)
Lemma exp_neg_bounds x : 0 <= x -> 1 - x <= exp (- x) <= 1 - x + x * x / 2.
Proof.
  intros X. assert (Lo : forall y, 1 - y <= exp (- y)) by (intros y; pose proof (exp_ineq1_le (- y)); lra). split; [apply Lo|].
  destruct (Req_dec x 0) as [->|Nx]; [rewrite Ropp_0, exp_0; lra|]. set (f := fun t => 1 - t + t * t / 2 - exp (- t)).
  assert (D : forall t, derivable_pt_lim f t (t - 1 + exp (- t))).
  { intros t. apply (d_fun (fun t => (1 - t + / 2 * (t * t)) - exp (-1 * t))); [intros y; unfold f; replace (-1 * y) with (- y) by ring; field|].
    apply (d_eq _ _ (0 - 1 + / 2 * (1 * t + t * 1) - -1 * exp (-1 * t))); [replace (-1 * t) with (- t) by ring; field|].
    apply d_minus; [apply d_plus; [apply d_minus; [apply d_const|apply d_id]|apply d_scal; apply (d_mult (fun t => t) (fun t => t)); apply d_id]|apply d_exp]. }
  destruct (MVT_cor2 f (fun t => t - 1 + exp (- t)) 0 x ltac:(lra) (fun c _ => D c)) as (c & Eq & [C1 C2]). assert (F0 : f 0 = 0) by (unfold f; rewrite Ropp_0, exp_0; lra). rewrite F0 in Eq.
  assert (0 <= (c - 1 + exp (- c)) * (x - 0)) by (apply Rmult_le_pos; [specialize (Lo c)|]; lra). unfold f in Eq. lra.
Qed.
(** sum of the steps, and of their squares *)
Definition total (dts : list Q) (j : nat) : R := sumn j (dt_of dts).
Definition squares (dts : list Q) (j : nat) : R := sumn j (fun t => dt_of dts t * dt_of dts t).
Lemma mean_close k dts j : 0 <= k -> (forall t, (t < j)%nat -> 0 <= dt_of dts t /\ k * dt_of dts t <= 1) ->
  Rabs (prodn j (fun t => 1 - k * dt_of dts t) - exp (- k * total dts j)) <= k * k / 2 * squares dts j.
Proof.
  intros K. induction j as [|j IH]; intros H; unfold total, squares in *; cbn [prodn sumn]; [rewrite Rmult_0_r, exp_0, Rmult_0_r; replace (1 - 1) with 0 by ring; rewrite Rabs_R0; lra|].
  specialize (IH (fun t L => H t ltac:(lia))). destruct (H j ltac:(lia)) as [D1 D2]. set (d := dt_of dts j) in *. set (P := prodn j _) in *. set (T := sumn j (dt_of dts)) in *. set (Q := sumn j (fun t => dt_of dts t * dt_of dts t)) in *.
  replace (- k * (T + d)) with (- k * T + - (k * d)) by ring. rewrite exp_plus. assert (X : 0 <= k * d) by (apply Rmult_le_pos; lra). destruct (exp_neg_bounds (k * d) X) as [B1 B2].
  assert (T0 : 0 <= T) by (apply sumn_nonneg; intros t Ht; apply (H t); lia).
  assert (W : 0 < exp (- k * T) <= 1). { split; [apply exp_pos|]. rewrite <- exp_0. assert (Kt : 0 <= k * T) by (apply Rmult_le_pos; lra). destruct (Req_dec (- k * T) 0) as [->|Nz]; [lra|]. apply Rlt_le, exp_increasing. lra. }
  set (e := exp (- k * T)) in *. set (w := exp (- (k * d))) in *. replace (P * (1 - k * d) - e * w) with ((1 - k * d) * (P - e) + e * ((1 - k * d) - w)) by ring.
  eapply Rle_trans; [apply Rabs_triang|]. rewrite !Rabs_mult, (Rabs_pos_eq (1 - k * d)), (Rabs_pos_eq e) by lra.
  assert (A1 : (1 - k * d) * Rabs (P - e) <= 1 * Rabs (P - e)) by (apply Rmult_le_compat_r; [apply Rabs_pos|lra]).
  assert (A2 : e * Rabs (1 - k * d - w) <= 1 * (k * d * (k * d) / 2)) by (apply Rmult_le_compat; [lra|apply Rabs_pos|lra|apply Rabs_le; lra]).
  replace (k * k / 2 * (Q + d * d)) with (k * k / 2 * Q + 1 * (k * d * (k * d) / 2)) by field. lra.
Qed.
Lemma variance_close k sigma dts j : 0 < k -> (forall t, (t < j)%nat -> 0 <= dt_of dts t /\ k * dt_of dts t <= 1) ->
  Rabs (step_variance k sigma dts j - sigma * sigma / (2 * k) * (1 - exp (-2 * k * total dts j))) <= 3 / 2 * (sigma * sigma * k) * squares dts j.
Proof.
  intros K. induction j as [|j IH]; intros H; unfold total, squares in *; cbn [step_variance sumn]; [rewrite Rmult_0_r, exp_0, Rmult_0_r; replace (0 - sigma * sigma / (2 * k) * (1 - 1)) with 0 by ring; rewrite Rabs_R0; lra|].
  specialize (IH (fun t L => H t ltac:(lia))). destruct (H j ltac:(lia)) as [D1 D2]. set (d := dt_of dts j) in *. set (V := step_variance k sigma dts j) in *. set (T := sumn j (dt_of dts)) in *. set (Q := sumn j (fun t => dt_of dts t * dt_of dts t)) in *.
  replace (-2 * k * (T + d)) with (-2 * k * T + - (2 * (k * d))) by ring. rewrite exp_plus. assert (X : 0 <= k * d) by (apply Rmult_le_pos; lra). destruct (exp_neg_bounds (2 * (k * d)) ltac:(lra)) as [B1 B2].
  assert (T0 : 0 <= T) by (apply sumn_nonneg; intros t Ht; apply (H t); lia).
  assert (W : 0 < exp (-2 * k * T) <= 1). { split; [apply exp_pos|]. rewrite <- exp_0. assert (Kt : 0 <= k * T) by (apply Rmult_le_pos; lra). destruct (Req_dec (-2 * k * T) 0) as [->|Nz]; [lra|]. apply Rlt_le, exp_increasing. lra. }
  set (e := exp (-2 * k * T)) in *. set (w := exp (- (2 * (k * d)))) in *. set (x := k * d) in *. set (c := sigma * sigma / (2 * k)) in *.
  assert (C0 : 0 <= c) by (apply Rmult_le_pos; [apply Rle_0_sqr|apply Rlt_le, Rinv_0_lt_compat; lra]).
  assert (Sd : sigma * sigma * d = c * (2 * x)) by (unfold c, x; field; lra).
  rewrite Sd. replace ((1 - x) * (1 - x) * V + c * (2 * x) - c * (1 - e * w)) with ((1 - x) * (1 - x) * (V - c * (1 - e)) + c * (((1 - x) * (1 - x) - w) * (1 - e) + (2 * x - 1 + w))) by ring.
  eapply Rle_trans; [apply Rabs_triang|]. assert (Sq : 0 <= (1 - x) * (1 - x) <= 1).
  { split; [apply Rle_0_sqr|]. rewrite <- (Rmult_1_r 1). apply Rmult_le_compat; lra. }
  rewrite !Rabs_mult, (Rabs_pos_eq c) by lra. rewrite <- (Rabs_mult (1 - x)), (Rabs_pos_eq ((1 - x) * (1 - x))) by lra.
  assert (A1 : (1 - x) * (1 - x) * Rabs (V - c * (1 - e)) <= 1 * Rabs (V - c * (1 - e))) by (apply Rmult_le_compat_r; [apply Rabs_pos|lra]).
  assert (A2 : Rabs (((1 - x) * (1 - x) - w) * (1 - e) + (2 * x - 1 + w)) <= 3 * (x * x)).
  { eapply Rle_trans; [apply Rabs_triang|]. rewrite Rabs_mult. assert (Rabs ((1 - x) * (1 - x) - w) <= x * x) by (apply Rabs_le; lra). assert (Rabs (1 - e) <= 1) by (apply Rabs_le; lra).
    assert (Rabs ((1 - x) * (1 - x) - w) * Rabs (1 - e) <= x * x * 1) by (apply Rmult_le_compat; try assumption; apply Rabs_pos). assert (Rabs (2 * x - 1 + w) <= 2 * (x * x)) by (apply Rabs_le; lra). lra. }
  assert (A3 : c * Rabs (((1 - x) * (1 - x) - w) * (1 - e) + (2 * x - 1 + w)) <= c * (3 * (x * x))) by (apply Rmult_le_compat_l; assumption).
  replace (3 / 2 * (sigma * sigma * k) * (Q + d * d)) with (3 / 2 * (sigma * sigma * k) * Q + c * (3 * (x * x))) by (unfold c, x; field; lra). lra.
Qed.
Lemma squares_le dts j D : (forall t, (t < j)%nat -> 0 <= dt_of dts t <= D) -> squares dts j <= D * total dts j.
Proof.
  intros H. unfold squares, total. rewrite <- sumn_scal. apply sumn_le. intros t Ht. destruct (H t Ht). apply Rmult_le_compat_r; lra.
Qed.
Lemma elapsed_sum s e dt c N g dts : In (c, N) actual_over -> datetime_ok s -> stamp_ok c e -> time_grid s e dt g -> List.length g = S (List.length dts) ->
  (forall j x y q, nth_error g j = Some x -> nth_error g (S j) = Some y -> nth_error dts j = Some q -> compute_accrual_length (Stamp x) (Stamp y) c = Ok q) ->
  forall j x, nth_error g j = Some x -> exists q, compute_accrual_length (Stamp s) (Stamp x) c = Ok q /\ Q2R q = total dts j.
Proof.
  intros A Os Se [G1 G2 G3 G4 G5] Lg Ac. destruct Se as (Oe & Le & _).
  assert (PN : (0 < N)%Q) by (unfold actual_over in A; cbn in A; repeat destruct A as [A|A]; try contradiction; injection A as _ <-; reflexivity).
  assert (NN : ~ (86400 * N == 0)%Q) by (intros Z; assert (X : (0 < 86400 * N)%Q) by (rewrite <- (Qmult_0_l N); apply Qmult_lt_compat_r; [exact PN|reflexivity]); rewrite Z in X; discriminate).
  assert (QN : Q2R N <> 0) by (apply Qlt_Rlt in PN; replace (Q2R 0) with 0 in PN by (unfold Q2R; cbn; lra); lra).
  assert (El : forall u v, In u g -> In v g -> (dt_abs u <= dt_abs v)%Z -> exists q, compute_accrual_length (Stamp u) (Stamp v) c = Ok q /\ Q2R q = IZR (dt_abs v - dt_abs u) / 1000000 / (86400 * Q2R N)).
  { intros u v U V L. destruct (G4 u U) as [Ou Bu]. destruct (G4 v V) as [Ov Bv]. destruct (C05_timestamps_exact c N (Stamp u) (Stamp v) A Ou Ov) as (q' & E1 & E2).
    - cbn. pose proof (dt_abs_date u e Ou Oe ltac:(lia)). lia.
    - cbn. pose proof (dt_abs_date v e Ov Oe ltac:(lia)). lia.
    - unfold elapsed. cbn. lia.
    - exists q'. split; [exact E1|]. rewrite (Qeq_eqR _ _ E2). unfold Qdiv. rewrite !Q2R_mult, !Q2R_inv, Q2R_mult by (exact NN || discriminate). replace (Q2R (inject_Z (elapsed (Stamp u) (Stamp v)))) with (IZR (dt_abs v - dt_abs u)) by (unfold Q2R, elapsed; cbn; rewrite Rinv_1; ring).
      replace (Q2R 1000000) with 1000000 by (unfold Q2R; cbn; lra). replace (Q2R 86400) with 86400 by (unfold Q2R; cbn; lra). unfold Rdiv. ring. }
  assert (Sum : forall k u, nth_error g k = Some u -> total dts k = IZR (dt_abs u - dt_abs s) / 1000000 / (86400 * Q2R N)).
  { unfold total. induction k as [|k IH]; intros u U; [rewrite G1 in U; injection U as <-; rewrite Z.sub_diag; cbn [sumn]; unfold Rdiv; ring|].
    assert (S k < List.length g)%nat by (apply nth_error_Some; congruence). destruct (nth_error g k) as [v|] eqn:V; [|apply nth_error_None in V; lia]. destruct (nth_error dts k) as [q|] eqn:Q; [|apply nth_error_None in Q; lia].
    cbn [sumn]. rewrite (IH v eq_refl). unfold dt_of. rewrite (nth_error_nth _ _ 0%Q Q). pose proof (Ac k v u q V U Q) as Aq. pose proof (G3 k (S k) v u ltac:(lia) V U) as Lt.
    destruct (El v u (nth_error_In _ _ V) (nth_error_In _ _ U) ltac:(lia)) as (q' & E1 & E2). rewrite Aq in E1. injection E1 as <-. rewrite E2, !minus_IZR. field. exact QN. }
  intros j x X. destruct (El s x (nth_error_In _ _ G1) (nth_error_In _ _ X)) as (q & E1 & E2); [destruct (G4 x (nth_error_In _ _ X)); lia|]. exists q. split; [exact E1|]. rewrite E2. symmetry. apply Sum, X.
Qed.

(** Counting actual days over a fixed basis, with steps of at most D and k D <= 1, the mean and variance of the simulated
    rate differ from the closed formulas by at most D times constants: the simulation converges to them as D goes to 0. *)
Theorem C101_converges : forall theta k sigma b dt N v h start z0 v0 h0 g dts E D, new_vasicek theta k sigma b dt = Ok v -> In (bm_dcc b, N) actual_over -> forward dt -> stamp_ok (bm_dcc b) (bm_start b) -> stamp_ok (bm_dcc b) (bm_end b) ->
  (dt_abs (bm_start b) <= dt_abs (bm_end b))%Z -> (start < fresh h)%nat -> bm_dim b = 1%nat -> bm_chol b 0%nat 0%nat * bm_chol b 0%nat 0%nat = 1 ->
  va_generate v h start true z0 = (v0, h0, Ok tt) -> bm_times (sr_bm (va_model v0)) = Some g -> bm_dts (sr_bm (va_model v0)) = Some dts -> independent_noise E (List.length dts) 1 ->
  0 < k -> Forall (fun q => Q2R q <= D) dts -> k * D <= 1 ->
  let r0 := arr h start 0%nat in
  forall x, In x g -> exists a e V, va_accrual v0 (Stamp x) None = Ok a /\ expected_short_rate v0 (Stamp x) None = Ok e /\ short_rate_variance v0 (Stamp x) None = Ok V /\
    Rabs (E (sim_rate v h start x) - e) <= D * (Rabs (r0 - theta) * (k * k) / 2 * a) /\
    Rabs (E (fun z => (sim_rate v h start x z - E (sim_rate v h start x)) * (sim_rate v h start x z - E (sim_rate v h start x))) - V) <= D * (3 / 2 * (sigma * sigma * k) * a).
Proof.
  intros theta k sigma b dt N v h start z0 v0 h0 g dts E D Nv A F Ss Se Lse St D1 Ch Ge Tg Td W K Fd KD r0 x Ix.
  assert (NC : bm_dcc b <> THIRTY360) by (intros EQ; rewrite EQ in A; cbn in A; repeat destruct A as [A|A]; try discriminate; contradiction).
  destruct (C101_moments _ _ _ _ _ _ _ _ _ _ _ _ _ E Nv F NC Ss Se Lse St D1 Ch Ge Tg Td W) as (Lg & _ & Mo). destruct (In_nth_error _ _ Ix) as [j X]. destruct (Mo j x X) as [M1 M2]. fold r0 in M1, M2.
  destruct (vasicek_walk _ _ _ _ _ _ _ _ _ _ _ Nv F (proj1 Ss) (proj1 Se) Lse St D1 Ge) as (g' & dts' & rates & Eg1 & Eg2 & Pa & TG & Lr & _ & R0 & Ac & _ & Ev). rewrite Tg in Eg1. injection Eg1 as <-. rewrite Td in Eg2. injection Eg2 as <-.
  pose proof (grid_dts _ _ _ _ _ _ NC Ss Se Lse TG Lg Ac) as Dp. destruct (elapsed_sum _ _ _ _ _ _ _ A (proj1 Ss) Se TG Lg Ac j x X) as (q & Eq & Vq).
  assert (Mv : va_mean v0 = theta /\ va_speed v0 = k /\ va_vol v0 = sigma /\ va_start v0 = bm_start b /\ va_dcc v0 = bm_dcc b).
  { unfold new_vasicek in Nv. destruct (fdiv _ _) as [lim|]; [|discriminate]. cbn [bind] in Nv. injection Nv as <-. unfold va_generate, sr_generate_path, pr_generate_path in Ge. cbn [va_model sr_proc new_short_rate pr_bm new_process pr_dt] in Ge.
    destruct (generate_increments b dt z0) as [b1 [[incs dts0]|]] eqn:G; [|discriminate]. destruct (alloc _ _) as [cur h1]. destruct (euler _ _ _ _ _ _) as [h2 sol]. cbn [pr_path] in Ge. injection Ge as <- _. unfold va_start, va_dcc, sr_bm. cbn.
    unfold generate_increments in G. destruct (generate_datetimes _ _ _ _) as [gg|]; [|discriminate]. destruct (nth_error _ _); [|discriminate]. destruct (mapM _ _) as [ds|]; [|discriminate]. injection G as <- _ _. repeat split. }
  destruct Mv as (V1 & V2 & V3 & V4 & V5).
  assert (Ra : va_rate v0 None = Ok r0). { pose proof (Ev 0%nat _ _ (tg_first _ _ _ _ TG) R0) as H. unfold va_rate, va_purchase in *. rewrite V4. exact H. }
  assert (Aq : va_accrual v0 (Stamp x) None = Ok (total dts j)). { unfold va_accrual, va_purchase. rewrite V4, V5, Eq. cbn [bind]. rewrite Vq. reflexivity. }
  assert (Hj : (j <= List.length dts)%nat) by (assert (j < List.length g)%nat by (apply nth_error_Some; congruence); lia).
  assert (Hd : forall t, (t < j)%nat -> 0 <= dt_of dts t <= D).
  { intros t Ht. split; [apply Rlt_le, Dp; lia|]. rewrite Forall_forall in Fd. apply Fd. apply nth_In. lia. }
  assert (Hk : forall t, (t < j)%nat -> 0 <= dt_of dts t /\ k * dt_of dts t <= 1).
  { intros t Ht. destruct (Hd t Ht) as [H1 H2]. split; [exact H1|]. apply (Rle_trans _ (k * D)); [apply Rmult_le_compat_l; lra|exact KD]. }
  pose proof (squares_le dts j D Hd) as Sq.
  exists (total dts j). eexists _, _. split; [exact Aq|]. unfold expected_short_rate, short_rate_variance. rewrite Aq, Ra. cbn [bind]. rewrite V1, V2, V3. rewrite fdiv_ok by lra. cbn [bind]. split; [reflexivity|]. split; [reflexivity|]. split.
  - rewrite M1. replace (theta + (r0 - theta) * prodn j (fun t => 1 - k * dt_of dts t) - (exp (- k * total dts j) * r0 + (1 - exp (- k * total dts j)) * theta)) with ((r0 - theta) * (prodn j (fun t => 1 - k * dt_of dts t) - exp (- k * total dts j))) by ring.
    rewrite Rabs_mult. pose proof (mean_close k dts j ltac:(lra) Hk) as Mc. replace (D * (Rabs (r0 - theta) * (k * k) / 2 * total dts j)) with (Rabs (r0 - theta) * (k * k / 2 * (D * total dts j))) by field. apply Rmult_le_compat_l; [apply Rabs_pos|].
    eapply Rle_trans; [exact Mc|]. apply Rmult_le_compat_l; [pose proof (Rle_0_sqr k) as Hs; unfold Rsqr in Hs; lra|exact Sq].
  - rewrite M1, M2. pose proof (variance_close k sigma dts j K Hk) as Vc. eapply Rle_trans; [exact Vc|]. replace (D * (3 / 2 * (sigma * sigma * k) * total dts j)) with (3 / 2 * (sigma * sigma * k) * (D * total dts j)) by ring. apply Rmult_le_compat_l; [|exact Sq].
    apply Rmult_le_pos; [lra|]. apply Rmult_le_pos; [apply Rle_0_sqr|lra].
Qed.
Print Assumptions C101_converges.

(** ---- geometric Brownian motion against its closed moments ---- *)
Lemma exp_second x : Rabs (exp x - 1 - x) <= x * x / 2 * exp (Rabs x).
Proof.
  destruct (Rle_or_lt 0 x) as [P|N].
  - rewrite (Rabs_pos_eq x P). pose proof (exp_ineq1_le x) as Lo. rewrite Rabs_pos_eq by lra.
    assert (Key : 1 - (1 + x) * exp (- x) <= x * x / 2).
    { destruct (Req_dec x 0) as [->|Nx]; [rewrite Ropp_0, exp_0; lra|]. set (f := fun t => t * t / 2 + (1 + t) * exp (- t)).
      assert (D : forall t, derivable_pt_lim f t (t * (1 - exp (- t)))).
      { intros t. apply (d_fun (fun t => / 2 * (t * t) + (1 + t) * exp (-1 * t))); [intros y; unfold f; replace (-1 * y) with (- y) by ring; field|].
        apply (d_eq _ _ (/ 2 * (1 * t + t * 1) + ((0 + 1) * exp (-1 * t) + (1 + t) * (-1 * exp (-1 * t))))); [replace (-1 * t) with (- t) by ring; field|].
        apply d_plus; [apply d_scal; apply (d_mult (fun t => t) (fun t => t)); apply d_id|]. apply (d_mult (fun t => 1 + t) (fun t => exp (-1 * t))); [apply d_plus; [apply d_const|apply d_id]|apply d_exp]. }
      destruct (MVT_cor2 f (fun t => t * (1 - exp (- t))) 0 x ltac:(lra) (fun c _ => D c)) as (c & Eq & [C1 C2]). assert (F0 : f 0 = 1) by (unfold f; rewrite Ropp_0, exp_0; lra). rewrite F0 in Eq.
      assert (E1 : exp (- c) <= 1) by (rewrite <- exp_0; apply Rlt_le, exp_increasing; lra).
      assert (0 <= c * (1 - exp (- c)) * (x - 0)) by (apply Rmult_le_pos; [apply Rmult_le_pos|]; lra). unfold f in Eq. lra. }
    pose proof (exp_pos x) as Ep. apply (Rmult_le_compat_r (exp x)) in Key; [|lra]. rewrite Rmult_minus_distr_r, (Rmult_assoc (1 + x)), <- exp_plus, Rplus_opp_l, exp_0 in Key. lra.
  - rewrite (Rabs_left x N). destruct (exp_neg_bounds (- x) ltac:(lra)) as [B1 B2]. rewrite Ropp_involutive in B1, B2. rewrite Rabs_pos_eq by lra.
    pose proof (exp_ineq1_le (- x)) as Lo. assert (0 <= x * x / 2 * (exp (- x) - 1)) by (apply Rmult_le_pos; [pose proof (Rle_0_sqr x) as Q; unfold Rsqr in Q; lra|lra]). lra.
Qed.
(** factors within q d^2 e^(c d) of each other and at most e^(c d) in size have products within e^(c T) q (sum of the d^2) *)
Lemma products_close (f g d : nat -> R) c q j : 0 <= c -> 0 <= q -> (forall t, (t < j)%nat -> 0 <= d t) ->
  (forall t, (t < j)%nat -> Rabs (f t) <= exp (c * d t) /\ Rabs (g t) <= exp (c * d t) /\ Rabs (f t - g t) <= q * (d t * d t) * exp (c * d t)) ->
  Rabs (prodn j f) <= exp (c * sumn j d) /\ Rabs (prodn j f - prodn j g) <= exp (c * sumn j d) * (q * sumn j (fun t => d t * d t)).
Proof.
  intros C Q. induction j as [|j IH]; intros Dp H; cbn [prodn sumn].
  - rewrite !Rmult_0_r, exp_0. replace (1 - 1) with 0 by ring. rewrite Rabs_R0, Rabs_R1. split; lra.
  - destruct (IH (fun t L => Dp t ltac:(lia)) (fun t L => H t ltac:(lia))) as [I1 I2]. destruct (H j ltac:(lia)) as (H1 & H2 & H3). set (F := prodn j f) in *. set (G := prodn j g) in *. set (T := sumn j d) in *. set (S2 := sumn j (fun t => d t * d t)) in *.
    rewrite Rmult_plus_distr_l, exp_plus. pose proof (exp_pos (c * T)) as P1. pose proof (exp_pos (c * d j)) as P2. set (e := exp (c * T)) in *. set (w := exp (c * d j)) in *. split.
    + rewrite Rabs_mult. apply Rmult_le_compat; try assumption; apply Rabs_pos.
    + replace (F * f j - G * g j) with (F * (f j - g j) + (F - G) * g j) by ring. eapply Rle_trans; [apply Rabs_triang|]. rewrite !Rabs_mult.
      assert (A1 : Rabs F * Rabs (f j - g j) <= e * (q * (d j * d j) * w)) by (apply Rmult_le_compat; try assumption; apply Rabs_pos).
      assert (A2 : Rabs (F - G) * Rabs (g j) <= e * (q * S2) * w) by (apply Rmult_le_compat; try assumption; apply Rabs_pos).
      replace (e * w * (q * (S2 + d j * d j))) with (e * (q * (d j * d j) * w) + e * (q * S2) * w) by ring. lra.
Qed.
Lemma prodn_exp a (d : nat -> R) j : prodn j (fun t => exp (a * d t)) = exp (a * sumn j d).
Proof. induction j as [|j IH]; cbn [prodn sumn]; [rewrite Rmult_0_r, exp_0; reflexivity|]. rewrite IH, Rmult_plus_distr_l, exp_plus. reflexivity. Qed.
Lemma one_plus_abs x : Rabs (1 + x) <= exp (Rabs x).
Proof. eapply Rle_trans; [apply Rabs_triang|]. rewrite Rabs_R1. apply exp_ineq1_le. Qed.
Lemma exp_le_abs x y : x <= y -> exp x <= exp y.
Proof. intros [L | ->]; [apply Rlt_le, exp_increasing, L|lra]. Qed.
Lemma gbm_mean_close mu dts j : (forall t, (t < j)%nat -> 0 <= dt_of dts t) ->
  Rabs (prodn j (fun t => 1 + mu * dt_of dts t) - exp (mu * total dts j)) <= exp (Rabs mu * total dts j) * (mu * mu / 2 * squares dts j).
Proof.
  intros Dp. unfold total, squares. rewrite <- (prodn_exp mu (dt_of dts) j). apply (products_close (fun t => 1 + mu * dt_of dts t) (fun t => exp (mu * dt_of dts t)) (dt_of dts) (Rabs mu) (mu * mu / 2) j (Rabs_pos mu)); [pose proof (Rle_0_sqr mu) as Q; unfold Rsqr in Q; lra|exact Dp|].
  intros t Ht. specialize (Dp t Ht). set (d := dt_of dts t) in *. assert (Ad : Rabs mu * d = Rabs (mu * d)) by (rewrite Rabs_mult, (Rabs_pos_eq d Dp); reflexivity). rewrite Ad. split; [apply one_plus_abs|]. split.
  - rewrite Rabs_pos_eq by apply Rlt_le, exp_pos. apply exp_le_abs, Rle_abs.
  - rewrite Rabs_minus_sym. replace (exp (mu * d) - (1 + mu * d)) with (exp (mu * d) - 1 - mu * d) by ring. replace (mu * mu / 2 * (d * d)) with (mu * d * (mu * d) / 2) by field. apply exp_second.
Qed.
Lemma gbm_square_close mu s dts j : 0 <= s -> (forall t, (t < j)%nat -> 0 <= dt_of dts t) ->
  Rabs (prodn j (fun t => (1 + mu * dt_of dts t) * (1 + mu * dt_of dts t) + s * dt_of dts t) - exp ((2 * mu + s) * total dts j)) <= exp ((2 * Rabs mu + s) * total dts j) * ((mu * mu + (2 * mu + s) * (2 * mu + s) / 2) * squares dts j).
Proof.
  intros S0 Dp. pose proof (Rabs_pos mu) as Am. pose proof (Rle_0_sqr mu) as Q1. pose proof (Rle_0_sqr (2 * mu + s)) as Q2. unfold Rsqr in Q1, Q2. unfold total, squares. rewrite <- (prodn_exp (2 * mu + s) (dt_of dts) j).
  apply (products_close (fun t => (1 + mu * dt_of dts t) * (1 + mu * dt_of dts t) + s * dt_of dts t) (fun t => exp ((2 * mu + s) * dt_of dts t)) (dt_of dts)); [lra|lra|exact Dp|].
  intros t Ht. specialize (Dp t Ht). set (d := dt_of dts t) in *. assert (Ad : Rabs (mu * d) = Rabs mu * d) by (rewrite Rabs_mult, (Rabs_pos_eq d Dp); reflexivity).
  assert (Sd : 0 <= s * d) by (apply Rmult_le_pos; assumption). assert (Md : 0 <= Rabs mu * d) by (apply Rmult_le_pos; assumption).
  assert (Ab : Rabs ((2 * mu + s) * d) <= (2 * Rabs mu + s) * d). { rewrite Rabs_mult, (Rabs_pos_eq d Dp). apply Rmult_le_compat_r; [exact Dp|]. eapply Rle_trans; [apply Rabs_triang|]. rewrite Rabs_mult, (Rabs_pos_eq 2), (Rabs_pos_eq s) by lra. lra. }
  split; [|split].
  - rewrite Rabs_pos_eq by (apply Rplus_le_le_0_compat; [apply Rle_0_sqr|exact Sd]). pose proof (one_plus_abs (mu * d)) as O1. rewrite Ad in O1.
    replace ((2 * Rabs mu + s) * d) with (Rabs mu * d + Rabs mu * d + s * d) by ring. rewrite !exp_plus. set (E := exp (Rabs mu * d)) in *. assert (E1 : 1 <= E) by (pose proof (exp_ineq1_le (Rabs mu * d)) as X; fold E in X; lra).
    assert (B1 : (1 + mu * d) * (1 + mu * d) <= E * E). { replace ((1 + mu * d) * (1 + mu * d)) with (Rabs (1 + mu * d) * Rabs (1 + mu * d)) by (rewrite <- Rabs_mult; apply Rabs_pos_eq, Rle_0_sqr). apply Rmult_le_compat; try assumption; apply Rabs_pos. }
    assert (B2 : 1 <= E * E) by (rewrite <- (Rmult_1_r 1); apply Rmult_le_compat; lra). pose proof (exp_ineq1_le (s * d)) as B3.
    assert (B4 : E * E * (1 + s * d) <= E * E * exp (s * d)) by (apply Rmult_le_compat_l; [lra|exact B3]). assert (B5 : 1 * (s * d) <= E * E * (s * d)) by (apply Rmult_le_compat_r; assumption). lra.
  - rewrite Rabs_pos_eq by apply Rlt_le, exp_pos. apply exp_le_abs. pose proof (Rle_abs ((2 * mu + s) * d)). lra.
  - pose proof (exp_second ((2 * mu + s) * d)) as X. set (x := (2 * mu + s) * d) in *. assert (Ex : exp (Rabs x) <= exp ((2 * Rabs mu + s) * d)) by (apply exp_le_abs, Ab). set (W := exp ((2 * Rabs mu + s) * d)) in *.
    assert (W1 : 1 <= W). { rewrite <- exp_0. apply exp_le_abs. pose proof (Rabs_pos x). lra. }
    replace ((1 + mu * d) * (1 + mu * d) + s * d - exp x) with (mu * d * (mu * d) - (exp x - 1 - x)) by (unfold x; ring). unfold Rminus at 1. eapply Rle_trans; [apply Rabs_triang|]. rewrite Rabs_Ropp.
    assert (M2 : 0 <= mu * d * (mu * d)) by apply Rle_0_sqr. rewrite (Rabs_pos_eq (mu * d * (mu * d)) M2). assert (X2 : 0 <= x * x / 2) by (pose proof (Rle_0_sqr x) as Q; unfold Rsqr in Q; lra).
    assert (Y1 : mu * d * (mu * d) * 1 <= mu * d * (mu * d) * W) by (apply Rmult_le_compat_l; assumption). assert (Y2 : x * x / 2 * exp (Rabs x) <= x * x / 2 * W) by (apply Rmult_le_compat_l; assumption).
    replace ((mu * mu + (2 * mu + s) * (2 * mu + s) / 2) * (d * d) * W) with (mu * d * (mu * d) * W + x * x / 2 * W) by (unfold x; field). lra.
Qed.

(** With steps of at most D, the mean and mean square of the k-th column differ from v e^(mu T) and v^2 e^((2 mu + sigma^2 C_ii) T), T the
    day-count length of the grid up to that column, by at most D times constants: the simulation converges to the law of
    geometric Brownian motion as D goes to 0. *)
Theorem C100_converges : forall mu sigma s e n L dt (C : mat) v z0 b1 incs dts E D, let g := new_gbm mu sigma s e n L dt in
  forward dt -> stamp_ok ACTACT s -> stamp_ok ACTACT e -> (dt_abs s <= dt_abs e)%Z -> (forall i, (i < n)%nat -> sumn n (fun k => L i k * L i k) = C i i) ->
  generate_increments (g_bm g) dt z0 = (b1, Ok (incs, dts)) -> independent_noise E (List.length dts) n -> Forall (fun q => Q2R q <= D) dts ->
  forall k i, (k <= List.length dts)%nat -> (i < n)%nat -> let T := total dts k in let c := sigma * sigma * C i i in
    Rabs (E (gbm_value g v k i) - v i * exp (mu * T)) <= D * (Rabs (v i) * (mu * mu / 2) * exp (Rabs mu * T) * T) /\
    Rabs (E (fun z => gbm_value g v k i z * gbm_value g v k i z) - v i * v i * exp ((2 * mu + c) * T)) <= D * (v i * v i * (mu * mu + (2 * mu + c) * (2 * mu + c) / 2) * exp ((2 * Rabs mu + c) * T) * T).
Proof.
  intros mu sigma s e n L dt C v z0 b1 incs dts E D g F Ss Se Lse HL G W Fd k i K I T c. destruct (C100_moments mu sigma s e n L dt C v z0 b1 incs dts E F Ss Se Lse HL G W) as [_ Mo]. destruct (Mo k i K I) as [M1 M2]. fold g in M1, M2. rewrite M1, M2. clear Mo M1 M2.
  destruct (C48_grid _ _ _ _ _ _ F (proj1 Ss : datetime_ok (bm_start (g_bm g))) (proj1 Se : datetime_ok (bm_end (g_bm g))) Lse G) as (gr & _ & _ & _ & TG & Lg & _ & Ac & _).
  pose proof (grid_dts s e dt ACTACT gr dts ltac:(discriminate) Ss Se Lse TG Lg Ac) as Dp.
  assert (Hd : forall t, (t < k)%nat -> 0 <= dt_of dts t <= D). { intros t Ht. split; [apply Rlt_le, Dp; lia|]. rewrite Forall_forall in Fd. apply Fd. apply nth_In. lia. }
  pose proof (squares_le dts k D Hd) as Sq. fold T in Sq. assert (C0 : 0 <= c). { unfold c. apply Rmult_le_pos; [apply Rle_0_sqr|]. rewrite <- (HL i I). apply sumn_nonneg. intros; apply Rle_0_sqr. }
  pose proof (Rle_0_sqr mu) as Q1. pose proof (Rle_0_sqr (2 * mu + c)) as Q2. unfold Rsqr in Q1, Q2. split.
  - rewrite <- Rmult_minus_distr_l, Rabs_mult. replace (D * (Rabs (v i) * (mu * mu / 2) * exp (Rabs mu * T) * T)) with (Rabs (v i) * (exp (Rabs mu * T) * (mu * mu / 2 * (D * T)))) by ring. apply Rmult_le_compat_l; [apply Rabs_pos|].
    eapply Rle_trans; [apply (gbm_mean_close mu dts k (fun t Ht => proj1 (Hd t Ht)))|]. fold T. apply Rmult_le_compat_l; [apply Rlt_le, exp_pos|]. apply Rmult_le_compat_l; [lra|exact Sq].
  - rewrite <- Rmult_minus_distr_l, Rabs_mult. rewrite (Rabs_pos_eq (v i * v i)) by apply Rle_0_sqr. fold c.
    replace (D * (v i * v i * (mu * mu + (2 * mu + c) * (2 * mu + c) / 2) * exp ((2 * Rabs mu + c) * T) * T)) with (v i * v i * (exp ((2 * Rabs mu + c) * T) * ((mu * mu + (2 * mu + c) * (2 * mu + c) / 2) * (D * T)))) by ring. apply Rmult_le_compat_l; [apply Rle_0_sqr|].
    eapply Rle_trans; [apply (gbm_square_close mu c dts k C0 (fun t Ht => proj1 (Hd t Ht)))|]. fold T. apply Rmult_le_compat_l; [apply Rlt_le, exp_pos|]. apply Rmult_le_compat_l; [lra|exact Sq].
Qed.
Print Assumptions C100_converges.

(** ---- concrete cases ---- *)
(** a case of C100: four days of 2024 in one dimension, drift 366, volatility 0: the mean doubles every day *)
Example C100_case : exists b1 incs dts, generate_increments (g_bm (new_gbm 366 0 (t_day 0) (t_day 4) 1 delta one_day)) one_day ones = (b1, Ok (incs, dts)) /\ List.length dts = 4%nat /\ (forall t, (t < 4)%nat -> dt_of dts t = 1 / 366) /\
  coin_noise 4 1 (gbm_value (new_gbm 366 0 (t_day 0) (t_day 4) 1 delta one_day) (fun _ => 100) 4 0) = 1600 /\
  coin_noise 4 1 (fun z => gbm_value (new_gbm 366 1 (t_day 0) (t_day 4) 1 delta one_day) (fun _ => 1) 1 0 z * gbm_value (new_gbm 366 1 (t_day 0) (t_day 4) 1 delta one_day) (fun _ => 1) 1 0 z) = 4 + 1 / 366.
Proof.
  set (g := new_gbm 366 0 (t_day 0) (t_day 4) 1 delta one_day).
  assert (G : exists b1 incs dts, generate_increments (g_bm g) one_day ones = (b1, Ok (incs, dts)) /\ List.length dts = 4%nat /\ forall t, (t < 4)%nat -> dt_of dts t = 1 / 366).
  { unfold generate_increments. change (bm_start (g_bm g)) with (t_day 0). change (bm_end (g_bm g)) with (t_day 4). change (bm_dcc (g_bm g)) with ACTACT. rewrite days_2024_ok.
    change (nth_error days_2024 (List.length days_2024 - 1)) with (Some (t_day 4)). change (dt_ltb (t_day 4) (t_day 4)) with false. cbv iota zeta. replace (dt_ltb (t_day 4) (t_day 4)) with false by (vm_compute; reflexivity). cbv iota.
    remember (mapM (fun xy : datetime * datetime => compute_accrual_length (Stamp (fst xy)) (Stamp (snd xy)) ACTACT) (pairwise days_2024)) as mm eqn:M.
    destruct mm as [ds|]; [|vm_compute in M; discriminate]. do 3 eexists. split; [reflexivity|].
    assert (C : match mapM (fun xy : datetime * datetime => compute_accrual_length (Stamp (fst xy)) (Stamp (snd xy)) ACTACT) (pairwise days_2024) with Ok [a; b; c; d] => Qeq_bool a (1 # 366) && Qeq_bool b (1 # 366) && Qeq_bool c (1 # 366) && Qeq_bool d (1 # 366) | _ => false end = true) by (vm_compute; reflexivity).
    rewrite <- M in C. destruct ds as [|a [|b [|c [|d [|]]]]]; try discriminate. apply andb_prop in C. destruct C as [C C4]. apply andb_prop in C. destruct C as [C C3]. apply andb_prop in C. destruct C as [C1 C2].
    assert (V : forall q, Qeq_bool q (1 # 366) = true -> Q2R q = 1 / 366) by (intros q H; rewrite (Qeq_eqR _ _ (Qeq_bool_eq _ _ H)); unfold Q2R; cbn; lra).
    split; [reflexivity|]. intros t Ht. unfold dt_of. destruct t as [|[|[|[|t]]]]; [exact (V _ C1)|exact (V _ C2)|exact (V _ C3)|exact (V _ C4)|lia]. }
  destruct G as (b1 & incs & dts & G & L4 & Dv). exists b1, incs, dts. split; [exact G|]. split; [exact L4|]. split; [exact Dv|].
  assert (La : (dt_abs (t_day 0) <= dt_abs (t_day 4))%Z) by (unfold dt_abs, t_day, us_per_day; cbn [dt_date dt_us]; lia).
  assert (Ok0 : forall i, i = 0%Z \/ i = 4%Z -> stamp_ok ACTACT (t_day i)) by (intros i I; destruct (day_ok i ltac:(lia)) as (A1 & A2 & _); split; [exact A1|]; split; [exact A2|]; intros _; destruct I as [-> | ->]; apply Z.leb_le; vm_compute; reflexivity).
  assert (HL : forall i, (i < 1)%nat -> sumn 1 (fun k => delta i k * delta i k) = 1) by (intros [|i] I; [|lia]; cbn; unfold delta; cbn; ring).
  assert (W : independent_noise (coin_noise 4 1) (List.length dts) 1) by (rewrite L4; apply C100_noise). split.
  - destruct (C100_moments 366 0 (t_day 0) (t_day 4) 1 delta one_day (fun _ _ => 1) (fun _ => 100) ones b1 incs dts (coin_noise 4 1) eq_refl (Ok0 0%Z ltac:(lia)) (Ok0 4%Z ltac:(lia)) La HL G W) as [_ H].
    destruct (H 4%nat 0%nat ltac:(lia) ltac:(lia)) as [E1 _]. unfold g. rewrite E1. cbn [prodn]. rewrite !Dv by lia. lra.
  - destruct (C100_moments 366 1 (t_day 0) (t_day 4) 1 delta one_day (fun _ _ => 1) (fun _ => 1) ones b1 incs dts (coin_noise 4 1) eq_refl (Ok0 0%Z ltac:(lia)) (Ok0 4%Z ltac:(lia)) La HL G W) as [_ H].
    destruct (H 1%nat 0%nat ltac:(lia) ltac:(lia)) as [_ E2]. rewrite E2. cbn [prodn]. rewrite !Dv by lia. lra.
Qed.
(** a case of C101: the hypotheses with steps of a day (D = 1/360), speed 1/2, mean 5%, start 3 *)
Example C101_case : exists v v0 h0 dts, new_vasicek (1 / 20) (1 / 2) (1 / 100) bm_2024 one_day = Ok v /\ va_generate v start_heap 0 true ones = (v0, h0, Ok tt) /\ bm_times (sr_bm (va_model v0)) = Some days_2024 /\ bm_dts (sr_bm (va_model v0)) = Some dts /\
  List.length dts = 4%nat /\ independent_noise (coin_noise 4 1) (List.length dts) 1 /\ Forall (fun q => Q2R q <= 1 / 360) dts /\
  exists e, expected_short_rate v0 (Stamp (t_day 4)) None = Ok e /\ Rabs (coin_noise 4 1 (sim_rate v start_heap 0 (t_day 4)) - e) <= 1 / 60000.
Proof.
  destruct (new_ok (1 / 20) (1 / 2) (1 / 100)) as [v N]; [lra|]. destruct (va_2024 _ _ _ _ start_heap 0 N ltac:(cbn; lia)) as (v0 & h0 & G & _).
  assert (T : bm_times (sr_bm (va_model v0)) = Some days_2024 /\ bm_dts (sr_bm (va_model v0)) = Some [q1; q1; q1; q1]).
  { pose proof N as N'. unfold new_vasicek in N'. destruct (fdiv _ _) as [lim|]; [|discriminate]. cbn [bind] in N'. injection N' as <-. unfold va_generate, sr_generate_path, pr_generate_path in G. cbn [va_model sr_proc new_short_rate pr_bm new_process pr_dt] in G.
    rewrite (incs_2024 bm_2024 eq_refl eq_refl eq_refl) in G. destruct (alloc _ _) as [cur h1]. destruct (euler _ _ _ _ _ _) as [h2 sol]. cbn [pr_path] in G. injection G as <- _. split; reflexivity. }
  destruct T as [Tg Td]. exists v, v0, h0, [q1; q1; q1; q1]. split; [exact N|]. split; [exact G|]. split; [exact Tg|]. split; [exact Td|]. split; [reflexivity|]. split; [apply C100_noise|].
  assert (Fd : Forall (fun q => Q2R q <= 1 / 360) [q1; q1; q1; q1]) by (repeat constructor; rewrite q1_value; lra). split; [exact Fd|].
  destruct (C101_converges (1 / 20) (1 / 2) (1 / 100) bm_2024 one_day 360%Q v start_heap 0 ones v0 h0 days_2024 [q1; q1; q1; q1] (coin_noise 4 1) (1 / 360) N (or_introl eq_refl) eq_refl (day_ok 0 ltac:(lia)) (day_ok 4 ltac:(lia)) ltac:(apply Z.leb_le; vm_compute; reflexivity) ltac:(cbn; lia) eq_refl
    ltac:(cbn; unfold delta; cbn; ring) G Tg Td (C100_noise 4 1) ltac:(lra) Fd ltac:(lra) (t_day 4) ltac:(do 4 right; left; reflexivity)) as (a & e & V & Aa & Ee & _ & B & _).
  exists e. split; [exact Ee|]. eapply Rle_trans; [exact B|].
  assert (Va : a = 4 / 360).
  { destruct (accrual_day 4 ltac:(lia)) as (Tq & HT & VT). assert (H : va_accrual v0 (Stamp (t_day 4)) None = Ok (Q2R Tq)); [|rewrite Aa in H; injection H as ->; rewrite VT; lra].
    destruct (va_2024 _ _ _ _ start_heap 0 N ltac:(cbn; lia)) as (v1 & h1 & G1 & _ & _ & _ & _ & E5 & E6 & _). rewrite G in G1. injection G1 as <- <-. unfold va_accrual, va_purchase. rewrite E5, E6, HT. reflexivity. }
  rewrite Va. change (arr start_heap 0%nat 0%nat) with 3. rewrite Rabs_pos_eq by lra. lra.
Qed.
