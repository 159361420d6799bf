(** C119: how simulated Vasicek rates depend on where they start. *)
From Verif Require Import Base PyDate PyDateFacts PyList Loan DayCount DayCountFacts RVec Deriv Stochastic StochasticFacts P_DayCount Multi BrownianInit P_Stochastic ShortRate P_ShortRate Vasicek P_Vasicek P_BrownianInit P_SimMoments.
From Coq Require Import Reals Qreals Lra.
Ltac lra := Lra.lra.
Ltac nra := Lra.nra.
Open Scope R_scope.

(** a simulation of the model from the array at [s] has run, on the grid [g] with time steps [dts] *)
Record simulated (theta k sigma : R) (b : brownian) (dt : dt_step) (v : vasicek) (h : arrays) (s : nat) (z : nat -> vec) (g : list datetime) (dts : list Q) : Prop := {
  sim_new : new_vasicek theta k sigma b dt = Ok v;
  sim_forward : forward dt;
  sim_dcc : bm_dcc b <> THIRTY360;
  sim_from : stamp_ok (bm_dcc b) (bm_start b);
  sim_to : stamp_ok (bm_dcc b) (bm_end b);
  sim_span : (dt_abs (bm_start b) <= dt_abs (bm_end b))%Z;
  sim_array : (s < fresh h)%nat;
  sim_dim : bm_dim b = 1%nat;
  sim_run : exists v0 h0, va_generate v h s true z = (v0, h0, Ok tt) /\ bm_times (sr_bm (va_model v0)) = Some g /\ bm_dts (sr_bm (va_model v0)) = Some dts }.

Lemma simulated_walk theta k sigma b dt v h s z g dts : simulated theta k sigma b dt v h s z g dts ->
  List.length g = S (List.length dts) /\ (forall t, (t < List.length dts)%nat -> 0 < dt_of dts t) /\
  (forall x, nth_error g 0 = Some x -> sim_rate v h s x z = arr h s 0%nat) /\
  (forall j x y, nth_error g j = Some x -> nth_error g (S j) = Some y ->
     sim_rate v h s y z = (1 - k * dt_of dts j) * sim_rate v h s x z + k * theta * dt_of dts j + sigma * (bm_chol b 0%nat 0%nat * (z j 0%nat * sqrt (dt_of dts j)))).
Proof.
  intros [N F NC Ss Se Lse St D1 (v0 & h0 & G & Tg & Td)].
  destruct (vasicek_walk _ _ _ _ _ _ _ _ _ _ _ N F (proj1 Ss) (proj1 Se) Lse St D1 G) as (g' & dts' & rates & Eg1 & Eg2 & Pa & TG & Lr & Lg & R0 & Ac & Sk & Ev).
  rewrite Tg in Eg1. injection Eg1 as <-. rewrite Td in Eg2. injection Eg2 as <-.
  assert (V : forall j x r, nth_error g j = Some x -> nth_error rates j = Some r -> sim_rate v h s x z = r) by (intros j x r X R; unfold sim_rate; rewrite G, (Ev j x r X R); reflexivity).
  split; [exact Lg|]. split; [exact (grid_dts _ _ _ _ _ _ NC Ss Se Lse TG Lg Ac)|]. split; [intros x X; exact (V 0%nat x _ X R0)|].
  intros j x y X Y. assert (S j < List.length g)%nat by (apply nth_error_Some; congruence).
  destruct (nth_error rates j) as [r|] eqn:R; [|apply nth_error_None in R; lia]. destruct (nth_error rates (S j)) as [r'|] eqn:R'; [|apply nth_error_None in R'; lia]. destruct (nth_error dts j) as [q|] eqn:Q; [|apply nth_error_None in Q; lia].
  rewrite (V (S j) y r' Y R'), (V j x r X R), (Sk j q r r' Q R R'). unfold dt_of. rewrite (nth_error_nth _ _ 0%Q Q). ring.
Qed.

(** From another starting array the same draws give a run on the same grid. *)
Theorem C119_same_grid : forall theta k sigma b dt v h s1 s2 z1 z2 g dts, simulated theta k sigma b dt v h s1 z1 g dts -> (s2 < fresh h)%nat -> simulated theta k sigma b dt v h s2 z2 g dts.
Proof.
  intros theta k sigma b dt v h s1 s2 z1 z2 g dts [N F NC Ss Se Lse St D1 (v0 & h0 & G & Tg & Td)] S2. constructor; auto.
  unfold new_vasicek in N. destruct (fdiv _ _) as [lim|]; [|discriminate]. cbn [bind] in N. injection N as <-. unfold va_generate, sr_generate_path, pr_generate_path in *. cbn [va_model sr_proc new_short_rate pr_bm new_process pr_dt] in *.
  destruct (generate_increments b dt z1) as [b1 [[incs dts0]|]] eqn:Gi; [|discriminate]. rewrite (increments_draws _ _ _ _ _ _ Gi z2).
  destruct (alloc _ _) as [cur h1]. destruct (euler _ _ _ _ _ (combine incs dts0)) as [h2 sol]. destruct (alloc _ (arr h s2)) as [cur' h1']. destruct (euler _ _ _ _ _ _) as [h3 sol']. cbn [pr_path] in *. injection G as <- _. do 2 eexists. split; [reflexivity|]. split; [exact Tg|exact Td].
Qed.
Print Assumptions C119_same_grid.

(** Two simulations on the same draws: their difference is that of the starting rates times the factors 1 - speed dt, whatever the
    volatility and the draws. *)
Theorem C119_common_draws : forall theta k sigma b dt v h s1 s2 z g dts, simulated theta k sigma b dt v h s1 z g dts -> simulated theta k sigma b dt v h s2 z g dts ->
  forall j x, nth_error g j = Some x -> sim_rate v h s1 x z - sim_rate v h s2 x z = (arr h s1 0%nat - arr h s2 0%nat) * prodn j (fun t => 1 - k * dt_of dts t).
Proof.
  intros theta k sigma b dt v h s1 s2 z g dts A B. destruct (simulated_walk _ _ _ _ _ _ _ _ _ _ _ A) as (_ & _ & A0 & AS). destruct (simulated_walk _ _ _ _ _ _ _ _ _ _ _ B) as (_ & _ & B0 & BS).
  induction j as [|j IH]; intros x X; [rewrite (A0 x X), (B0 x X); cbn [prodn]; ring|].
  assert (S j < List.length g)%nat by (apply nth_error_Some; congruence). destruct (nth_error g j) as [y|] eqn:Y; [|apply nth_error_None in Y; lia].
  rewrite (AS j y x Y X), (BS j y x Y X). specialize (IH y eq_refl). cbn [prodn]. set (P := prodn j _) in *. replace ((arr h s1 0%nat - arr h s2 0%nat) * (P * (1 - k * dt_of dts j))) with ((1 - k * dt_of dts j) * ((arr h s1 0%nat - arr h s2 0%nat) * P)) by ring. rewrite <- IH. ring.
Qed.
Print Assumptions C119_common_draws.

Lemma prodn_shrinks k dts j : 0 <= k -> (forall t, (t < j)%nat -> 0 <= dt_of dts t /\ k * dt_of dts t <= 1) -> 0 <= prodn j (fun t => 1 - k * dt_of dts t) <= exp (- k * total dts j).
Proof.
  intros K. induction j as [|j IH]; intros H; unfold total in *; cbn [prodn sumn]; [rewrite Rmult_0_r, exp_0; lra|].
  destruct (IH ltac:(intros; apply H; lia)) as [I1 I2]. destruct (H j ltac:(lia)) as [H1 H2]. pose proof (exp_neg_bounds (k * dt_of dts j) ltac:(apply Rmult_le_pos; lra)) as [E _].
  replace (- k * (sumn j (dt_of dts) + dt_of dts j)) with (- k * sumn j (dt_of dts) + - (k * dt_of dts j)) by ring. rewrite exp_plus. split; [apply Rmult_le_pos; lra|apply Rmult_le_compat; lra].
Qed.

(** With speed dt at most 1 throughout, the simulations approach each other at least as fast as exp(-speed t) and never cross. *)
Theorem C119_forgets : forall theta k sigma b dt v h s1 s2 z g dts, simulated theta k sigma b dt v h s1 z g dts -> simulated theta k sigma b dt v h s2 z g dts ->
  0 <= k -> Forall (fun q => k * Q2R q <= 1) dts -> forall j x, nth_error g j = Some x ->
  Rabs (sim_rate v h s1 x z - sim_rate v h s2 x z) <= exp (- k * total dts j) * Rabs (arr h s1 0%nat - arr h s2 0%nat) /\
  (arr h s1 0%nat <= arr h s2 0%nat -> sim_rate v h s1 x z <= sim_rate v h s2 x z).
Proof.
  intros theta k sigma b dt v h s1 s2 z g dts A B K Fd j x X. pose proof (C119_common_draws _ _ _ _ _ _ _ _ _ _ _ _ A B j x X) as E. destruct (simulated_walk _ _ _ _ _ _ _ _ _ _ _ A) as (Lg & Dp & _).
  assert (J : (j < List.length g)%nat) by (apply nth_error_Some; congruence).
  destruct (prodn_shrinks k dts j K) as [P1 P2].
  { intros t T. split; [apply Rlt_le, Dp; lia|]. rewrite Forall_forall in Fd. apply (Fd (nth t dts 0%Q)), nth_In. lia. }
  split.
  - rewrite E, Rabs_mult, Rmult_comm, (Rabs_pos_eq (prodn _ _)) by exact P1. apply Rmult_le_compat_r; [apply Rabs_pos|exact P2].
  - intros L. assert (0 <= (arr h s2 0%nat - arr h s1 0%nat) * prodn j (fun t => 1 - k * dt_of dts t)) by (apply Rmult_le_pos; lra). lra.
Qed.
Print Assumptions C119_forgets.

(** Without volatility the rate moves towards the long-term level, never away from it and never past it. *)
Theorem C119_noise_free : forall theta k b dt v h s z g dts, simulated theta k 0 b dt v h s z g dts ->
  (forall j x, nth_error g j = Some x -> sim_rate v h s x z = theta + (arr h s 0%nat - theta) * prodn j (fun t => 1 - k * dt_of dts t)) /\
  (0 <= k -> Forall (fun q => k * Q2R q <= 1) dts -> forall j x y, nth_error g j = Some x -> nth_error g (S j) = Some y ->
    (arr h s 0%nat <= theta -> sim_rate v h s x z <= sim_rate v h s y z <= theta) /\ (theta <= arr h s 0%nat -> theta <= sim_rate v h s y z <= sim_rate v h s x z)).
Proof.
  intros theta k b dt v h s z g dts A. destruct (simulated_walk _ _ _ _ _ _ _ _ _ _ _ A) as (Lg & Dp & A0 & AS).
  assert (E : forall j x, nth_error g j = Some x -> sim_rate v h s x z = theta + (arr h s 0%nat - theta) * prodn j (fun t => 1 - k * dt_of dts t)).
  { induction j as [|j IH]; intros x X; [rewrite (A0 x X); cbn [prodn]; ring|]. assert (S j < List.length g)%nat by (apply nth_error_Some; congruence). destruct (nth_error g j) as [y|] eqn:Y; [|apply nth_error_None in Y; lia].
    rewrite (AS j y x Y X), (IH y eq_refl). cbn [prodn]. ring. }
  split; [exact E|]. intros K Fd j x y X Y. assert (J : (S j < List.length g)%nat) by (apply nth_error_Some; congruence).
  assert (H : forall t, (t < List.length dts)%nat -> 0 <= dt_of dts t /\ k * dt_of dts t <= 1) by (intros t T; split; [apply Rlt_le, Dp, T|rewrite Forall_forall in Fd; apply (Fd (nth t dts 0%Q)), nth_In, T]).
  destruct (prodn_shrinks k dts j K) as [P1 _]; [intros; apply H; lia|]. destruct (H j ltac:(lia)) as [H1 H2]. assert (K1 : 0 <= k * dt_of dts j) by (apply Rmult_le_pos; lra).
  rewrite (E j x X), (E (S j) y Y). cbn [prodn]. set (P := prodn j _) in *. set (f := k * dt_of dts j) in *. set (d := arr h s 0%nat - theta).
  assert (S1 : 0 <= P * (1 - f)) by (apply Rmult_le_pos; lra). assert (S2 : 0 <= P * f) by (apply Rmult_le_pos; lra).
  split; intros L.
  - assert (0 <= (- d) * (P * (1 - f))) by (apply Rmult_le_pos; [unfold d; lra|exact S1]). assert (0 <= (- d) * (P * f)) by (apply Rmult_le_pos; [unfold d; lra|exact S2]). replace (d * P) with (d * (P * (1 - f)) + d * (P * f)) by ring. lra.
  - assert (0 <= d * (P * (1 - f))) by (apply Rmult_le_pos; [unfold d; lra|exact S1]). assert (0 <= d * (P * f)) by (apply Rmult_le_pos; [unfold d; lra|exact S2]). replace (d * P) with (d * (P * (1 - f)) + d * (P * f)) by ring. lra.
Qed.
Print Assumptions C119_noise_free.

(** With time steps too long for the speed the simulations do not revert: they drive apart, in every step by at least the factor q. *)
Theorem C119_explodes : forall theta k sigma b dt v h s1 s2 z g dts q, simulated theta k sigma b dt v h s1 z g dts -> simulated theta k sigma b dt v h s2 z g dts ->
  0 <= q -> Forall (fun d => 1 + q <= k * Q2R d) dts -> forall j x, nth_error g j = Some x ->
  q ^ j * Rabs (arr h s1 0%nat - arr h s2 0%nat) <= Rabs (sim_rate v h s1 x z - sim_rate v h s2 x z).
Proof.
  intros theta k sigma b dt v h s1 s2 z g dts q A B Q Fd j x X. rewrite (C119_common_draws _ _ _ _ _ _ _ _ _ _ _ _ A B j x X), Rabs_mult, Rmult_comm. apply Rmult_le_compat_l; [apply Rabs_pos|].
  destruct (simulated_walk _ _ _ _ _ _ _ _ _ _ _ A) as (Lg & _). assert (J : (j < List.length g)%nat) by (apply nth_error_Some; congruence). clear X x.
  induction j as [|j IH]; cbn [pow prodn]; [rewrite Rabs_R1; lra|]. rewrite Rabs_mult, Rmult_comm. apply Rmult_le_compat; [apply pow_le, Q|exact Q|apply IH; lia|].
  rewrite Forall_forall in Fd. assert (H : 1 + q <= k * dt_of dts j) by (apply (Fd (nth j dts 0%Q)), nth_In; lia). rewrite Rabs_left1 by lra. lra.
Qed.
Print Assumptions C119_explodes.

(** ---- four days of 2024 from the rates 3 and 5 ---- *)
Lemma simulated_2024 theta k sigma : k <> 0 -> exists v, forall s, (s < 2)%nat -> simulated theta k sigma bm_2024 one_day v two_starts s ones days_2024 [q1; q1; q1; q1].
Proof.
  intros K. destruct (new_ok theta k sigma K) as [v N]. exists v. intros s S.
  destruct (va_2024 _ _ _ _ two_starts s N S) as (v0 & h0 & G & _).
  constructor; [exact N|reflexivity|discriminate|exact (day_ok 0 ltac:(lia))|exact (day_ok 4 ltac:(lia))|apply Z.leb_le; vm_compute; reflexivity|exact S|reflexivity|].
  exists v0, h0. split; [exact G|]. unfold new_vasicek in N. destruct (fdiv _ _) as [lim|]; [|discriminate]. cbn [bind] in N. injection N as <-. unfold va_generate, sr_generate_path, pr_generate_path in G. cbn [va_model sr_proc new_short_rate pr_bm new_process pr_dt] in G.
  rewrite (incs_2024 bm_2024 eq_refl eq_refl eq_refl) in G. destruct (alloc _ _) as [cur h1]. destruct (euler _ _ _ _ _ _) as [h2 sol]. cbn [pr_path] in G. injection G as <- _. split; reflexivity.
Qed.

Example C119_case : exists v, simulated (1 / 20) (1 / 2) (1 / 100) bm_2024 one_day v two_starts 0 ones days_2024 [q1; q1; q1; q1] /\ simulated (1 / 20) (1 / 2) (1 / 100) bm_2024 one_day v two_starts 1 ones days_2024 [q1; q1; q1; q1] /\
  Forall (fun q => 1 / 2 * Q2R q <= 1) [q1; q1; q1; q1] /\ arr two_starts 0%nat 0%nat = 3 /\ arr two_starts 1%nat 0%nat = 5.
Proof.
  destruct (simulated_2024 (1 / 20) (1 / 2) (1 / 100) ltac:(lra)) as [v H]. exists v. split; [apply H; lia|]. split; [apply H; lia|]. split; [repeat constructor; rewrite q1_value; lra|]. split; reflexivity.
Qed.
Example C119_noise_free_case : exists v, simulated (1 / 20) (1 / 2) 0 bm_2024 one_day v two_starts 0 ones days_2024 [q1; q1; q1; q1] /\ 1 / 20 <= arr two_starts 0%nat 0%nat.
Proof.
  destruct (simulated_2024 (1 / 20) (1 / 2) 0 ltac:(lra)) as [v H]. exists v. split; [apply H; lia|]. change (arr two_starts 0%nat 0%nat) with 3. lra.
Qed.

(** So a rate started on different sides does not always come closer to the level: speed 1080 with daily steps doubles the
    distance of two simulations each day, a factor of sixteen in four days. *)
Theorem C119_reverts_refuted : exists theta k sigma v x, 0 < k /\ simulated theta k sigma bm_2024 one_day v two_starts 0 ones days_2024 [q1; q1; q1; q1] /\ simulated theta k sigma bm_2024 one_day v two_starts 1 ones days_2024 [q1; q1; q1; q1] /\
  nth_error days_2024 4 = Some x /\ Rabs (arr two_starts 0%nat 0%nat - arr two_starts 1%nat 0%nat) = 2 /\ 32 <= Rabs (sim_rate v two_starts 0 x ones - sim_rate v two_starts 1 x ones).
Proof.
  destruct (simulated_2024 (1 / 20) 1080 (1 / 100) ltac:(lra)) as [v H]. exists (1 / 20), 1080, (1 / 100), v, (t_day 4). split; [lra|]. split; [apply H; lia|]. split; [apply H; lia|]. split; [reflexivity|].
  assert (D : Rabs (arr two_starts 0%nat 0%nat - arr two_starts 1%nat 0%nat) = 2) by (change (Rabs (3 - 5) = 2); rewrite Rabs_left1; lra). split; [exact D|].
  pose proof (C119_explodes _ _ _ _ _ _ _ 0 1 ones _ _ 2 (H 0%nat ltac:(lia)) (H 1%nat ltac:(lia)) ltac:(lra) ltac:(repeat constructor; rewrite q1_value; lra) 4%nat (t_day 4) eq_refl) as E. rewrite D in E. cbn [pow] in E. lra.
Qed.
Print Assumptions C119_reverts_refuted.

Close Scope R_scope.
Open Scope Z_scope.
(** ---- C65 on an ensemble ---- *)
(** two coordinates with L = [[2, 0], [1, 3]], so L L^T = [[4, 2], [2, 10]]; four equally likely draws, the sign patterns *)
Definition two_motion : brownian := new_brownian (t_day 0) (t_day 4) 2 (mat_of [[2; 0]; [1; 3]])%R ACT360.
Definition signs (m : nat) : nat -> vec := fun _ j => (if Nat.eqb j 0 then if Nat.ltb m 2 then 1 else -1 else if Nat.even m then 1 else -1)%R.
Example C65_two_coordinates : exists b' (incs : nat -> list vec) (cols : nat -> vec),
  (forall m, (m < 4)%nat -> generate_increments two_motion one_day (signs m) = (b', Ok (incs m, [q1; q1; q1; q1])) /\ nth_error (incs m) 2 = Some (cols m)) /\
  (forall i j, (i < 2)%nat -> (j < 2)%nat -> sumn 4 (fun m => / 4 * signs m 2 i * signs m 2 j)%R = delta i j) /\
  sumn 4 (fun m => / 4 * cols m 0%nat * cols m 1%nat)%R = (1 / 360 * 2)%R /\ sumn 4 (fun m => / 4 * cols m 1%nat * cols m 1%nat)%R = (1 / 360 * 10)%R.
Proof.
  assert (G : forall m, generate_increments two_motion one_day (signs m) = (set_dts (set_times two_motion days_2024) [q1; q1; q1; q1], Ok (columns_from two_motion (signs m) 0 [q1; q1; q1; q1], [q1; q1; q1; q1]))).
  { intros m. unfold generate_increments. change (bm_start two_motion) with (t_day 0). change (bm_end two_motion) with (t_day 4). change (bm_dcc two_motion) with ACT360. rewrite days_2024_ok.
    change (nth_error days_2024 (List.length days_2024 - 1)) with (Some (t_day 4)). change (dt_ltb (t_day 4) (t_day 4)) with false. cbv iota.
    replace (mapM _ (pairwise days_2024)) with (@Ok (list Q) [q1; q1; q1; q1]) by (vm_compute; reflexivity). reflexivity. }
  assert (D : forall i j, (i < 2)%nat -> (j < 2)%nat -> sumn 4 (fun m => / 4 * signs m 2 i * signs m 2 j)%R = delta i j).
  { intros i j Hi Hj. assert (Ci : i = 0%nat \/ i = 1%nat) by lia. assert (Cj : j = 0%nat \/ j = 1%nat) by lia. destruct Ci as [-> | ->], Cj as [-> | ->]; unfold signs, delta; cbn; lra. }
  assert (Q1 : Q2R q1 = (1 / 360)%R) by (assert (E : (q1 == 1 # 360)%Q) by reflexivity; rewrite (Qeq_eqR _ _ E); unfold Q2R; cbn; lra).
  exists (set_dts (set_times two_motion days_2024) [q1; q1; q1; q1]), (fun m => columns_from two_motion (signs m) 0 [q1; q1; q1; q1]), (fun m => increment_column two_motion (signs m) 2 q1).
  assert (N : forall m, (m < 4)%nat -> generate_increments two_motion one_day (signs m) = (set_dts (set_times two_motion days_2024) [q1; q1; q1; q1], Ok (columns_from two_motion (signs m) 0 [q1; q1; q1; q1], [q1; q1; q1; q1])) /\ nth_error (columns_from two_motion (signs m) 0 [q1; q1; q1; q1]) 2 = Some (increment_column two_motion (signs m) 2 q1)).
  { intros m _. split; [apply G|reflexivity]. }
  split; [exact N|]. split; [exact D|].
  assert (C : forall i j, (i < 2)%nat -> (j < 2)%nat -> sumn 4 (fun m => / 4 * increment_column two_motion (signs m) 2 q1 i * increment_column two_motion (signs m) 2 q1 j)%R = (Q2R q1 * mat_of [[4; 2]; [2; 10]] i j)%R).
  { intros i j Hi Hj. refine (C65_correlation two_motion one_day 4 (fun _ => / 4)%R signs (mat_of [[4; 2]; [2; 10]])%R (fun _ => set_dts (set_times two_motion days_2024) [q1; q1; q1; q1]) (fun m => columns_from two_motion (signs m) 0 [q1; q1; q1; q1]) [q1; q1; q1; q1] 2 q1 (fun m => increment_column two_motion (signs m) 2 q1) _ _ _ _ _ N _ _ D i j Hi Hj).
    - reflexivity.
    - apply (day_ok 0). lia.
    - apply (day_ok 4). lia.
    - apply Z.leb_le. vm_compute. reflexivity.
    - intros a b Ha Hb. change (bm_dim two_motion) with 2%nat in *. assert (Ca : a = 0%nat \/ a = 1%nat) by lia. assert (Cb : b = 0%nat \/ b = 1%nat) by lia. destruct Ca as [-> | ->], Cb as [-> | ->]; cbn; lra.
    - reflexivity.
    - rewrite Q1. lra. }
  split; [rewrite (C 0%nat 1%nat) by lia|rewrite (C 1%nat 1%nat) by lia]; rewrite Q1; cbn; lra.
Qed.
