(** Property theorems C75 (factorised calibration of the doubly mean reverting model). *)
From Verif Require Import Base PyClass PyDate PyDateFacts DayCount DayCountFacts PyList KeyRate Curve Loan RVec Stochastic StochasticFacts ShortRate Vasicek Multi MultiFacts P_Multi P_Multi2 P_Multi3 YieldFactory P_YieldFit Calibrator.
From Coq Require Import Reals Lra Permutation Sorting.Sorted.
Open Scope R_scope.

(** ---- specification ---- *)
(** The doubly mean reverting model newly built with the volatility parameters x (long-term speed and volatility, short-rate
    speed and volatility, correlation) and the given long-term mean, on which a path from the given state has been generated
    from the given draws. *)
Definition model_with (la : linalg) (draw : nat -> vec) (s e : datetime) (dt : dt_step) (x : list R) (mean : R) (state : vec) : res multi :=
  match x with
  | [long_speed; long_vol; speed; vol; corr] =>
    do d <- new_doubly la (fun _ => 0) speed vol mean long_speed long_vol corr s e dt;
    match mv_generate (do_multi d) (Arrays (fun a => if Nat.eqb a 0 then state else fun _ => 0) 1) 0 true draw with
    | (m, _, Ok _) => Ok m
    | (_, _, Err e) => Err e
    end
  | _ => Err AssertionError
  end.
(** Euclidean distance between what a model says at the quoted maturities and the quotes *)
Fixpoint square_errors (f : moment -> res R) (l : list calib_input) : res R :=
  match l with [] => Ok 0 | (t, q) :: l => do v <- f t; do r <- square_errors f l; Ok (Rsqr (v - q) + r) end.
Definition misfit (f : moment -> res R) (l : list calib_input) : res R := do r <- square_errors f l; Ok (sqrt r).
(** as a function of the volatility parameters; as a function of the long-term mean and the two state variables *)
Definition vol_misfit la draw s e dt l mean state (x : list R) : res R :=
  do m <- model_with la draw s e dt x mean state; misfit (fun t => mv_yield_volatility m t None) l.
Definition price_misfit la draw s e dt l x (y : list R) : res R :=
  match y with
  | [mean; theta; r] => do m <- model_with la draw s e dt x mean (vec_of [theta; r]); misfit (fun t => mv_price m t None) l
  | _ => Err AssertionError
  end.

(** ---- lemmas ---- *)
Lemma fold_plus_start l : forall a, fold_left Rplus l a = a + fold_left Rplus l 0.
Proof. induction l as [|x l IH]; intros a; cbn; [ring|]. rewrite IH, (IH (0 + x)). ring. Qed.
Lemma misfit_distance f l : misfit f l = do vs <- mapM (fun i : calib_input => f (fst i)) l; Ok (distance vs (List.map snd l)).
Proof.
  unfold misfit, distance. assert (H : square_errors f l = do vs <- mapM (fun i : calib_input => f (fst i)) l; Ok (fold_left Rplus (List.map (fun p => (fst p - snd p) * (fst p - snd p)) (combine vs (List.map snd l))) 0)).
  { induction l as [|[t q] l IH]; [reflexivity|]. cbn [square_errors mapM fst]. destruct (f t) as [v|]; cbn [bind]; [|reflexivity]. rewrite IH. destruct (mapM _ l) as [vs|]; cbn [bind]; [|reflexivity].
    cbn [List.map combine fold_left fst snd]. rewrite (fold_plus_start _ (0 + _)). unfold Rsqr. f_equal. ring. }
  rewrite H. destruct (mapM _ l); reflexivity.
Qed.
Lemma garbage_irrelevant la g g' speed vol mean ls lv c s e dt : 
  match new_doubly la g speed vol mean ls lv c s e dt, new_doubly la g' speed vol mean ls lv c s e dt with
  | Ok d, Ok d' => do_multi d = do_multi d' /\ do_vol_params d = [ls; lv; speed; vol; c] /\ do_shape_params d = [mean] /\ do_state_params d = [g 0%nat; g 1%nat] /\
                   (mv_start (do_multi d) = s /\ bm_end (sr_bm (mv_model (do_multi d))) = e /\ sr_dt (mv_model (do_multi d)) = dt /\ mv_dcc (do_multi d) = ACTACT)
  | Err x, Err y => x = y
  | _, _ => False
  end.
Proof.
  unfold new_doubly. change (instantiate doubly_class ?x) with x. destruct (la_cholesky la 2 _); cbn [or_lin bind]; [|reflexivity]. destruct (la_cholesky la 2 delta); cbn [or_lin bind]; [|reflexivity].
  destruct (new_multi _ _ _ _ _ _ _ _ _) as [mm|] eqn:N; cbn [bind]; [|reflexivity]. cbn. split; [reflexivity|]. do 3 (split; [reflexivity|]).
  unfold new_multi in N. cbn [bm_dim new_brownian Nat.eqb andb negb] in N. destruct (la_eig la 2 _) as [[lam V]|]; [|discriminate]. destruct (la_inv la 2 V); [|discriminate]. injection N as <-. cbn. auto.
Qed.
Lemma generate_dt m h start set draw m' h' r : mv_generate m h start set draw = (m', h', r) -> sr_dt (mv_model m') = sr_dt (mv_model m).
Proof.
  unfold mv_generate, sr_generate_path. destruct (pr_generate_path _ _ _ _ _) as [[p h1] [x|x]]; [destruct (pr_path p)|]; intros E; injection E as <- _ _; reflexivity.
Qed.
(** the models the calibrator builds *)
Lemma build_spec la draw g t x mean state : tg_vol t = x -> tg_shape t = [mean] -> tg_state t = state -> List.length x = 5%nat ->
  match build la draw g t, model_with la draw (tg_start t) (tg_end t) (tg_dt t) x mean (vec_of state) with
  | Ok d, Ok m => do_multi d = m /\ doubly_target d = Target x [mean] [g 0%nat; g 1%nat] (tg_start t) (tg_end t) (tg_dt t) ACTACT
  | Err e, Err e' => e = e'
  | _, _ => False
  end.
Proof.
  intros <- Hs <- Hx. unfold build, model_with, alloc, doubly_from_parameters. cbn [fresh arr]. rewrite Hs. destruct (tg_vol t) as [|ls [|lv [|sp [|v [|c [|]]]]]]; try discriminate Hx.
  pose proof (garbage_irrelevant la g (fun _ => 0) sp v mean ls lv c (tg_start t) (tg_end t) (tg_dt t)) as H.
  destruct (new_doubly la g sp v mean ls lv c _ _ _) as [d|], (new_doubly la (fun _ => 0) sp v mean ls lv c _ _ _) as [d'|]; try contradiction; cbn [bind]; [|exact H].
  destruct H as (Em & Ev & Es & Eg & E1 & E2 & E3 & E4). rewrite <- Em.
  destruct (mv_generate (do_multi d) _ 0 true draw) as [[m h] [u|ex]] eqn:G; cbn [bind fst]; [|reflexivity]. split; [reflexivity|].
  pose proof (generate_same _ _ _ _ _ _ _ _ G) as Sm. pose proof (generate_dt _ _ _ _ _ _ _ _ G) as Dt. unfold doubly_target, model_target. cbn [do_multi do_vol_params do_shape_params do_state_params].
  rewrite Ev, Es, Eg, Dt, E3. pose proof (sm_start _ _ Sm) as X1. pose proof (sm_end _ _ Sm) as X2. pose proof (sm_dcc _ _ Sm) as X3. unfold mv_start, mv_dcc in *. rewrite X1, X2, X3, E1, E2, E4. reflexivity.
Qed.
Lemma run_last {X Y St} (f : X -> St -> St * res Y) (g : X -> res Y) (put : St -> X -> St) (I : St -> Prop) :
  (forall x st, I st -> snd (f x st) = g x) -> (forall x st, I st -> (fst (f x st) = put st x /\ I (put st x)) \/ (fst (f x st) = st /\ exists e, g x = Err e)) ->
  forall (s : solver X Y) st, I st ->
    (exists xs, fst (run_solver s f st) = fold_left put xs st) /\
    (forall r, snd (run_solver s f st) = Ok r -> exists t, conversation g s t r /\ fst (run_solver s f st) = fold_left put (List.map fst t) st) /\
    (forall t r, conversation g s t r -> run_solver s f st = (fold_left put (List.map fst t) st, Ok r)).
Proof.
  intros A B s. induction s as [x|x k IH]; intros st J; cbn [run_solver].
  - split; [exists []; reflexivity|]. split; [intros r [= <-]; exists []; split; [constructor|reflexivity] | intros t r H; inversion H; reflexivity].
  - pose proof (A x st J) as E. destruct (B x st J) as [[P Jp]|[P (e & Ge)]]; destruct (f x st) as [st' o]; cbn [fst snd] in *; subst st' o.
    + destruct (g x) as [y|e] eqn:Gx; cbn [fst snd].
      * destruct (IH y _ Jp) as ((xs & IH0) & IH1 & IH2). split; [exists (x :: xs); exact IH0|]. split.
        -- intros r H. destruct (IH1 r H) as (t & Ct & Et). exists ((x, y) :: t). split; [constructor; assumption|exact Et].
        -- intros t r H. inversion H; subst. replace y0 with y in * by congruence. cbn [List.map fold_left fst]. apply IH2. assumption.
      * split; [exists [x]; reflexivity|]. split; [discriminate|]. intros t r H. inversion H; subst. congruence.
    + rewrite Ge. cbn [fst snd]. split; [exists []; reflexivity|]. split; [discriminate|]. intros t r H. inversion H; subst. congruence.
Qed.
Lemma fold_put_vol xs : forall t, fold_left put_vol xs t = put_vol t (last xs (tg_vol t)).
Proof.
  induction xs as [|x xs IH]; intros t; [destruct t; reflexivity|]. cbn [fold_left]. rewrite IH. destruct xs as [|x' xs]; [reflexivity|].
  change (last (x :: x' :: xs) (tg_vol t)) with (last (x' :: xs) (tg_vol t)). unfold put_vol at 1 2. cbn [tg_vol tg_shape tg_state tg_start tg_end tg_dt tg_dcc]. unfold put_vol. f_equal.
  clear. revert x'. induction xs as [|z xs IH]; intros x'; [reflexivity|]. exact (IH z).
Qed.
Definition put_y (t : target) (y : list R) : target := put_shape_state t (firstn 1 y) (skipn 1 y).
Lemma fold_put_y ys : forall t, fold_left put_y ys t = match ys with [] => t | _ => put_y t (last ys []) end.
Proof.
  induction ys as [|y ys IH]; intros t; [reflexivity|]. cbn [fold_left]. rewrite IH. destruct ys as [|y' ys]; [reflexivity|].
  change (last (y :: y' :: ys) []) with (last (y' :: ys) (@nil R)). reflexivity.
Qed.
Lemma conversation_points {X Y} (f : X -> res Y) s t r : conversation f s t r -> forall x y, In (x, y) t -> f x = Ok y.
Proof. induction 1 as [|x k y t r E C IH]; intros a b; [intros []|]. intros [X0|J]; [injection X0 as <- <-; exact E | apply IH, J]. Qed.
Lemma last_app_one {A B} (t : list (A * B)) x a d : last (List.map fst (t ++ [(x, a)])) d = x.
Proof. rewrite map_app. apply last_last. Qed.
Lemma last_case {A} (t : list A) : t = [] \/ exists t' z, t = t' ++ [z].
Proof. destruct t as [|a t]; [left; reflexivity|]. right. destruct (exists_last (l := a :: t)) as (t' & z & E); [discriminate|]. eauto. Qed.

(** the two losses are those functions, and only change the entries they are given *)
Lemma volatility_loss_run la draw g0 l t mean : tg_shape t = [mean] -> List.length (tg_vol t) = 5%nat ->
  let g := vol_misfit la draw (tg_start t) (tg_end t) (tg_dt t) l mean (vec_of (tg_state t)) in
  forall s : solver (list R) R,
    (exists x, fst (run_solver s (volatility_loss la draw g0 l) t) = put_vol t x) /\
    (forall r, snd (run_solver s (volatility_loss la draw g0 l) t) = Ok r -> exists tr, conversation g s tr r /\ fst (run_solver s (volatility_loss la draw g0 l) t) = put_vol t (last (List.map fst tr) (tg_vol t))) /\
    (forall tr r, conversation g s tr r -> run_solver s (volatility_loss la draw g0 l) t = (put_vol t (last (List.map fst tr) (tg_vol t)), Ok r)).
Proof.
  intros Hs Hv g s.
  destruct (run_last (volatility_loss la draw g0 l) g put_vol (fun u => exists x, List.length x = 5%nat /\ u = put_vol t x)) with (s := s) (st := t) as ((xs & R0) & R1 & R2).
  - intros x u (x0 & L0 & ->). unfold volatility_loss. cbn [tg_vol put_vol]. rewrite L0. destruct (Nat.eqb_spec 5 (List.length x)) as [E|E]; cbn [negb snd].
    + pose proof (build_spec la draw g0 (put_vol (put_vol t x0) x) x mean (tg_state t) eq_refl Hs eq_refl (eq_sym E)) as B. cbn [tg_start tg_end tg_dt put_vol] in B |- *. unfold g, vol_misfit.
      destruct (build la draw g0 _) as [d|], (model_with _ _ _ _ _ _ _ _) as [m|]; try contradiction; cbn [bind]; [|congruence]. destruct B as (-> & _). rewrite misfit_distance. reflexivity.
    + unfold g, vol_misfit, model_with. destruct x as [|? [|? [|? [|? [|? [|]]]]]]; try reflexivity. cbn in E. congruence.
  - intros x u (x0 & L0 & ->). unfold volatility_loss. cbn [tg_vol put_vol]. rewrite L0. destruct (Nat.eqb_spec 5 (List.length x)) as [E|E]; cbn [negb fst].
    + left. split; [reflexivity|]. exists x. split; [congruence|reflexivity].
    + right. split; [reflexivity|]. exists AssertionError. unfold g, vol_misfit, model_with. destruct x as [|? [|? [|? [|? [|? [|]]]]]]; try reflexivity. cbn in E. congruence.
  - exists (tg_vol t). split; [exact Hv|]. destruct t; reflexivity.
  - split; [exists (last xs (tg_vol t)); rewrite R0; apply fold_put_vol|]. split.
    + intros r H. destruct (R1 r H) as (tr & Ct & Et). exists tr. split; [exact Ct|]. rewrite Et. apply fold_put_vol.
    + intros tr r H. rewrite (R2 tr r H), fold_put_vol. reflexivity.
Qed.
Lemma price_loss_run la draw g0 l t x : tg_vol t = x -> List.length x = 5%nat -> List.length (tg_shape t) = 1%nat -> List.length (tg_state t) = 2%nat ->
  let g := price_misfit la draw (tg_start t) (tg_end t) (tg_dt t) l x in
  forall s : solver (list R) R,
    (forall r, snd (run_solver s (price_loss la draw g0 l) t) = Ok r -> exists tr, conversation g s tr r /\ fst (run_solver s (price_loss la draw g0 l) t) = put_y t (last (List.map fst tr) (tg_shape t ++ tg_state t))) /\
    (forall tr r, conversation g s tr r -> run_solver s (price_loss la draw g0 l) t = (put_y t (last (List.map fst tr) (tg_shape t ++ tg_state t)), Ok r)).
Proof.
  intros Hv Hx Hs Hst g s.
  assert (Bad : forall y, List.length y <> 3%nat -> g y = Err AssertionError) by (intros [|? [|? [|? [|]]]] E; try reflexivity; cbn in E; congruence).
  assert (Fin : forall tr : list (list R * R), fold_left put_y (List.map fst tr) t = put_y t (last (List.map fst tr) (tg_shape t ++ tg_state t))).
  { intros tr. rewrite fold_put_y. destruct tr as [|p tr]; cbn [List.map].
    - destruct t as [a b c d e f h]. cbn in *. destruct b as [|b0 [|]]; try discriminate Hs. reflexivity.
    - f_equal. generalize (fst p). clear. induction (List.map fst tr) as [|z l IH]; intros w; [reflexivity|]. exact (IH z). }
  destruct (run_last (price_loss la draw g0 l) g put_y (fun u => tg_vol u = x /\ tg_start u = tg_start t /\ tg_end u = tg_end t /\ tg_dt u = tg_dt t /\ List.length (tg_shape u) = 1%nat /\ List.length (tg_state u) = 2%nat)) with (s := s) (st := t) as (_ & R1 & R2).
  - intros y u (E1 & E2 & E3 & E4 & E5 & E6). unfold price_loss. rewrite E5, E6. cbn [Nat.add]. destruct (Nat.eqb_spec 3 (List.length y)) as [E|E]; cbn [negb snd]; [|symmetry; apply Bad; auto].
    destruct y as [|mean [|th [|r [|]]]]; try discriminate E. cbn [firstn skipn]. unfold g, price_misfit.
    pose proof (build_spec la draw g0 (put_shape_state u [mean] [th; r]) x mean [th; r] E1 eq_refl eq_refl Hx) as B. cbn [tg_start tg_end tg_dt put_shape_state] in B. rewrite E2, E3, E4 in B.
    destruct (build la draw g0 _) as [d|], (model_with _ _ _ _ _ _ _ _) as [m|]; try contradiction; cbn [bind]; [|congruence]. destruct B as (-> & _). rewrite misfit_distance. reflexivity.
  - intros y u (E1 & E2 & E3 & E4 & E5 & E6). unfold price_loss. rewrite E5, E6. cbn [Nat.add]. destruct (Nat.eqb_spec 3 (List.length y)) as [E|E]; cbn [negb fst]; [left|right; split; [reflexivity|]; exists AssertionError; apply Bad; auto].
    split; [reflexivity|]. destruct y as [|mean [|th [|r [|]]]]; try discriminate E. cbn. auto 10.
  - auto 10.
  - split.
    + intros r H. destruct (R1 r H) as (tr & Ct & Et). exists tr. split; [exact Ct|]. rewrite Et. apply Fin.
    + intros tr r H. rewrite (R2 tr r H), Fin. reflexivity.
Qed.

(** ---- C75 ---- *)
(** The inputs are kept in order of maturity; dates and datetimes cannot be mixed. *)
Theorem C75_inputs : forall vols prices,
  (forall c, new_calibrator vols prices = Ok c -> Permutation vols (ca_vols c) /\ Permutation prices (ca_prices c) /\
     StronglySorted Z.le (List.map (fun i => moment_key (fst i)) (ca_vols c)) /\ StronglySorted Z.le (List.map (fun i => moment_key (fst i)) (ca_prices c))) /\
  ((exists d t q q', In (Day d, q) vols /\ In (Stamp t, q') vols) -> new_calibrator vols prices = Err TypeError) /\
  ((forall i, In i (vols ++ prices) -> exists d, fst i = Day d) \/ (forall i, In i (vols ++ prices) -> exists t, fst i = Stamp t) -> exists c, new_calibrator vols prices = Ok c).
Proof.
  intros vols prices. split; [|split].
  - intros c H. unfold new_calibrator, sort_inputs in H. destruct (_ || _) in H; [|discriminate]. cbn [bind] in H. destruct (_ || _) in H; [|discriminate]. cbn [bind] in H. injection H as <-. cbn.
    split; [symmetry; apply sort_by_perm|]. split; [symmetry; apply sort_by_perm|]. split; apply sort_by_sorted.
  - intros (d & t & q & q' & I & J). unfold new_calibrator, sort_inputs. assert (A : forallb (fun i : calib_input => is_day (fst i)) vols = false).
    { apply not_true_iff_false. intros F. rewrite forallb_forall in F. discriminate (F _ J). }
    assert (B : forallb (fun i : calib_input => negb (is_day (fst i))) vols = false). { apply not_true_iff_false. intros F. rewrite forallb_forall in F. discriminate (F _ I). }
    rewrite A, B. reflexivity.
  - intros H. unfold new_calibrator, sort_inputs. destruct H as [H|H].
    + assert (A : forall l, incl l (vols ++ prices) -> forallb (fun i : calib_input => is_day (fst i)) l = true) by (intros l Inc; apply forallb_forall; intros i I; destruct (H i (Inc i I)) as (d & ->); reflexivity).
      rewrite !A by (intros i I; apply in_or_app; auto). cbn. eauto.
    + assert (A : forall l, incl l (vols ++ prices) -> forallb (fun i : calib_input => negb (is_day (fst i))) l = true) by (intros l Inc; apply forallb_forall; intros i I; destruct (H i (Inc i I)) as (d & ->); reflexivity).
      rewrite !A by (intros i I; apply in_or_app; auto). rewrite !orb_true_r. cbn. eauto.
Qed.
Print Assumptions C75_inputs.

(** Imported as a module, it cannot calibrate to any quote: a name is missing. *)
Theorem C75_import : forall la draw g0 s1 s2 g1 g2 c t, 
  (ca_vols c <> [] -> calibrate la draw false g0 s1 s2 g1 g2 c t = (t, Err NameError)) /\
  (forall l s, l <> [] -> calibrate_volatility la draw false g0 s l t = (t, Err NameError) /\ calibrate_shape_state la draw false g0 s l t = (t, Err NameError)) /\
  (ca_prices c <> [] -> forall d, snd (calibrate la draw false g0 s1 s2 g1 g2 c t) <> Ok d).
Proof.
  intros la draw g0 s1 s2 g1 g2 c t. assert (A : forall l u, l <> [] -> accruals false u l = Err NameError) by (intros [|i l] u N; [congruence|reflexivity]). split; [|split].
  - intros N. unfold calibrate, calibrate_volatility. rewrite A by exact N. reflexivity.
  - intros l s N. unfold calibrate_volatility, calibrate_shape_state. rewrite A by exact N. auto.
  - intros N d. unfold calibrate. destruct (calibrate_volatility _ _ _ _ _ _ _) as [u [r|e]]; [|discriminate]. cbn [snd]. destruct (build la draw g1 u) as [m|]; [|discriminate]. cbn [bind].
    unfold calibrate_shape_state. rewrite A by exact N. discriminate.
Qed.
Print Assumptions C75_import.

(** What a calibration does, whatever the optimiser does: two optimisations of the misfit over newly built models, first of
    the yield volatilities over the volatility parameters, then of the prices over the long-term mean and the state.  Each
    stage keeps the last point tried (in the second stage, the mean and what np.empty returned if none was tried).  The
    result is the model with those parameters and a path from that state; its dictionary has whatever np.empty returned in
    place of the state.  Of the model given, only the volatility parameters in the dictionary are changed. *)
Theorem C75_calibrated : forall la draw script g0 s1 s2 g1 g2 c t mean t' d, List.length (tg_vol t) = 5%nat -> tg_shape t = [mean] ->
  calibrate la draw script g0 s1 s2 g1 g2 c t = (t', Ok d) ->
  exists tr1 r1 x tr2 r2 m' th r,
    conversation (vol_misfit la draw (tg_start t) (tg_end t) (tg_dt t) (ca_vols c) mean (vec_of (tg_state t))) s1 tr1 r1 /\ x = last (List.map fst tr1) (tg_vol t) /\
    conversation (price_misfit la draw (tg_start t) (tg_end t) (tg_dt t) (ca_prices c) x) s2 tr2 r2 /\ [m'; th; r] = last (List.map fst tr2) [mean; g1 0%nat; g1 1%nat] /\
    model_with la draw (tg_start t) (tg_end t) (tg_dt t) x m' (vec_of [th; r]) = Ok (do_multi d) /\
    do_vol_params d = x /\ do_shape_params d = [m'] /\ do_state_params d = [g2 0%nat; g2 1%nat] /\ t' = put_vol t x.
Proof.
  intros la draw script g0 s1 s2 g1 g2 c t mean t' d Hv Hs H. unfold calibrate, calibrate_volatility in H.
  destruct (accruals script t (ca_vols c)) as [ac|]; [|discriminate].
  destruct (volatility_loss_run la draw g0 (ca_vols c) t mean Hs Hv s1) as (_ & A & _). destruct (run_solver s1 _ t) as [u [r1|e]] eqn:R1; [|discriminate]. cbn [fst snd] in A. destruct (A r1 eq_refl) as (tr1 & C1 & Eu).
  injection H as <- H. exists tr1, r1, (last (List.map fst tr1) (tg_vol t)). set (x := last (List.map fst tr1) (tg_vol t)) in *.
  assert (Lx : List.length x = 5%nat).
  { unfold x. destruct (last_case tr1) as [->|(tr & [x' a] & ->)]; [exact Hv|]. rewrite last_app_one. pose proof (conversation_points _ _ _ _ C1 x' a ltac:(apply in_or_app; right; left; reflexivity)) as E.
    unfold vol_misfit, model_with in E. destruct x' as [|? [|? [|? [|? [|? [|]]]]]]; try discriminate E. reflexivity. }
  pose proof (build_spec la draw g1 u x mean (tg_state t) ltac:(subst u; reflexivity) ltac:(subst u; exact Hs) ltac:(subst u; reflexivity) Lx) as B. subst u. cbn [tg_start tg_end tg_dt put_vol] in B, H.
  destruct (build la draw g1 (put_vol t x)) as [m|]; [|discriminate]. cbn [bind] in H. destruct (model_with _ _ _ _ _ _ _ _) as [m1|] eqn:Mw; [|contradiction]. destruct B as (Em & Et). rewrite Et in H.
  unfold calibrate_shape_state in H. destruct (accruals script _ (ca_prices c)) as [ac2|]; [|discriminate].
  set (t1 := Target x [mean] [g1 0%nat; g1 1%nat] (tg_start t) (tg_end t) (tg_dt t) ACTACT) in *.
  destruct (price_loss_run la draw g0 (ca_prices c) t1 x eq_refl Lx eq_refl eq_refl s2) as (P & _). destruct (run_solver s2 (price_loss la draw g0 (ca_prices c)) t1) as [w [r2|e]] eqn:R2; [|discriminate]. cbn [fst snd] in P.
  destruct (P r2 eq_refl) as (tr2 & C2 & Ew). exists tr2, r2. cbn [t1 tg_shape tg_state app] in Ew. cbn [t1 tg_start tg_end tg_dt] in C2.
  assert (Ly : exists m' th r, last (List.map fst tr2) [mean; g1 0%nat; g1 1%nat] = [m'; th; r]).
  { destruct (last_case tr2) as [->|(tr & [y0 a0] & ->)]; [cbn; eauto|]. rewrite last_app_one. pose proof (conversation_points _ _ _ _ C2 y0 a0 ltac:(apply in_or_app; right; left; reflexivity)) as E.
    unfold price_misfit in E. destruct y0 as [|? [|? [|? [|]]]]; try discriminate E. eauto. }
  destruct Ly as (m' & th & r & Ey). exists m', th, r. split; [exact C1|]. split; [reflexivity|]. split; [exact C2|]. split; [symmetry; exact Ey|].
  rewrite Ey in Ew. cbn [put_y put_shape_state firstn skipn t1 tg_vol tg_start tg_end tg_dt tg_dcc] in Ew. subst w. cbn [put_y put_shape_state firstn skipn tg_vol tg_shape tg_state tg_start tg_end tg_dt tg_dcc] in H.
  match type of H with build _ _ _ ?T = _ => pose proof (build_spec la draw g2 T x m' [th; r] eq_refl eq_refl eq_refl Lx) as B2 end. rewrite H in B2. cbn [tg_start tg_end tg_dt put_vol t1] in B2.
  destruct (model_with la draw (tg_start t) (tg_end t) (tg_dt t) x m' (vec_of [th; r])) as [m2|]; [|contradiction]. destruct B2 as (<- & Ed). split; [reflexivity|].
  unfold doubly_target, model_target in Ed. injection Ed as E1 E2 E3 _ _ _ _. auto.
Qed.
Print Assumptions C75_calibrated.

(** Whatever happens, only the volatility parameters in the dictionary of the model given are changed. *)
Theorem C75_side_effect : forall la draw script g0 s1 s2 g1 g2 c t mean, List.length (tg_vol t) = 5%nat -> tg_shape t = [mean] ->
  exists x, fst (calibrate la draw script g0 s1 s2 g1 g2 c t) = put_vol t x.
Proof.
  intros la draw script g0 s1 s2 g1 g2 c t mean Hv Hs. unfold calibrate, calibrate_volatility. destruct (accruals script t (ca_vols c)) as [ac|]; [|exists (tg_vol t); destruct t; reflexivity].
  destruct (volatility_loss_run la draw g0 (ca_vols c) t mean Hs Hv s1) as ((x & A) & _). exists x. destruct (run_solver s1 _ t) as [u [r1|e]]; exact A.
Qed.
Print Assumptions C75_side_effect.

(** The factorisation works: yield volatilities depend neither on the mean nor on the state, so the second stage keeps the
    fit of the first. *)
Theorem C75_factorised : forall la draw s e dt x mean mean' state state' m m', 
  model_with la draw s e dt x mean state = Ok m -> model_with la draw s e dt x mean' state' = Ok m' ->
  forall t p, mv_yield_volatility m t p = mv_yield_volatility m' t p.
Proof.
  intros la draw s e dt x mean mean' state state' m m' H H'. unfold model_with in *. destruct x as [|ls [|lv [|sp [|v [|c [|]]]]]]; try discriminate.
  destruct (new_doubly la (fun _ => 0) sp v mean ls lv c s e dt) as [d|] eqn:N; [|discriminate]. cbn [bind] in H. destruct (new_doubly la (fun _ => 0) sp v mean' ls lv c s e dt) as [d'|] eqn:N'; [|discriminate]. cbn [bind] in H'.
  destruct (mv_generate (do_multi d) _ 0 true draw) as [[m1 h1] [u1|]] eqn:G; [|discriminate]. injection H as <-. destruct (mv_generate (do_multi d') _ 0 true draw) as [[m2 h2] [u2|]] eqn:G'; [|discriminate]. injection H' as <-.
  pose proof (generate_same _ _ _ _ _ _ _ _ G) as S1. pose proof (generate_same _ _ _ _ _ _ _ _ G') as S2.
  unfold new_doubly in N, N'. change (instantiate doubly_class ?x) with x in N, N'. destruct (la_cholesky la 2 (mat_of _)) as [S|]; [|discriminate]. cbn [or_lin bind] in N, N'. destruct (la_cholesky la 2 delta) as [L|]; [|discriminate]. cbn [or_lin bind] in N, N'.
  unfold new_multi in N, N'. cbn [bm_dim new_brownian Nat.eqb andb negb] in N, N'. destruct (la_eig la 2 _) as [[lam V]|]; [|discriminate]. destruct (la_inv la 2 V) as [W|]; [|discriminate]. cbn [or_lin bind] in N, N'.
  injection N as <-. injection N' as <-. destruct S1 as [], S2 as []. cbn in *.
  intros t p. unfold mv_yield_volatility, yield_covariance, mv_yield_coeffs, mv_price_coeffs. cbn [mapM].
  assert (A : mv_accrual m1 t p = mv_accrual m2 t p) by (unfold mv_accrual, mv_purchase; rewrite sm_start, sm_start0, sm_dcc, sm_dcc0; reflexivity). rewrite A. destruct (mv_accrual m2 t p) as [a|]; [|reflexivity]. cbn [bind fst snd].
  unfold gram, coefficient_term, exp_reversion, reversion_inv. rewrite sm_n, sm_n0, sm_g, sm_g0, sm_lam, sm_lam0, sm_V, sm_V0, sm_Vi, sm_Vi0, sm_C, sm_C0. reflexivity.
Qed.
Print Assumptions C75_factorised.

(** So the model returned misses the quoted volatilities and prices by exactly the last misfits the optimiser saw. *)
Theorem C75_misfit : forall la draw script g0 s1 s2 g1 g2 c t mean t' d, List.length (tg_vol t) = 5%nat -> tg_shape t = [mean] ->
  calibrate la draw script g0 s1 s2 g1 g2 c t = (t', Ok d) ->
  exists tr1 r1 tr2 r2,
    conversation (vol_misfit la draw (tg_start t) (tg_end t) (tg_dt t) (ca_vols c) mean (vec_of (tg_state t))) s1 tr1 r1 /\
    conversation (price_misfit la draw (tg_start t) (tg_end t) (tg_dt t) (ca_prices c) (last (List.map fst tr1) (tg_vol t))) s2 tr2 r2 /\
    (forall tr x a, tr1 = tr ++ [(x, a)] -> misfit (fun u => mv_yield_volatility (do_multi d) u None) (ca_vols c) = Ok a) /\
    (forall tr y a, tr2 = tr ++ [(y, a)] -> misfit (fun u => mv_price (do_multi d) u None) (ca_prices c) = Ok a).
Proof.
  intros la draw script g0 s1 s2 g1 g2 c t mean t' d Hv Hs H. destruct (C75_calibrated _ _ _ _ _ _ _ _ _ _ _ _ _ Hv Hs H) as (tr1 & r1 & x & tr2 & r2 & m' & th & r & C1 & Ex & C2 & Ey & Mw & _).
  exists tr1, r1, tr2, r2. split; [exact C1|]. split; [rewrite <- Ex; exact C2|]. split.
  - intros tr x' a E. subst tr1. rewrite last_app_one in Ex. subst x'. pose proof (conversation_points _ _ _ _ C1 x a ltac:(apply in_or_app; right; left; reflexivity)) as V. unfold vol_misfit in V.
    destruct (model_with la draw (tg_start t) (tg_end t) (tg_dt t) x mean (vec_of (tg_state t))) as [m1|] eqn:M1; [|discriminate]. cbn [bind] in V. rewrite <- V. unfold misfit. f_equal.
    assert (F : forall l, square_errors (fun u => mv_yield_volatility (do_multi d) u None) l = square_errors (fun u => mv_yield_volatility m1 u None) l).
    { induction l as [|[u q] l IH]; [reflexivity|]. cbn [square_errors]. rewrite IH, (C75_factorised _ _ _ _ _ _ _ _ _ _ _ _ Mw M1). reflexivity. }
    apply F.
  - intros tr y a E. subst tr2. rewrite last_app_one in Ey. subst y. pose proof (conversation_points _ _ _ _ C2 _ a ltac:(apply in_or_app; right; left; reflexivity)) as V. unfold price_misfit in V.
    rewrite Mw in V. exact V.
Qed.
Print Assumptions C75_misfit.
(** In particular it reproduces all quotes if each optimisation ended on an exact fit. *)
Lemma square_errors_zero f l : forall r, square_errors f l = Ok r -> 0 <= r /\ (r = 0 -> forall t q, In (t, q) l -> f t = Ok q).
Proof.
  induction l as [|[t q] l IH]; intros r H; cbn [square_errors] in H.
  - injection H as <-. split; [lra|]. intros _ ? ? [].
  - destruct (f t) as [v|] eqn:E; [|discriminate]. cbn [bind] in H. destruct (square_errors f l) as [r'|]; [|discriminate]. cbn [bind] in H. injection H as <-. destruct (IH r' eq_refl) as (P & K). pose proof (Rle_0_sqr (v - q)) as Q. split; [lra|].
    intros Z t' q' [X|J]; [injection X as <- <-|apply K; [lra|exact J]]. rewrite E. f_equal. assert (S0 : Rsqr (v - q) = 0) by lra. apply Rsqr_0_uniq in S0. lra.
Qed.
Lemma misfit_zero f l : misfit f l = Ok 0 -> forall t q, In (t, q) l -> f t = Ok q.
Proof.
  unfold misfit. destruct (square_errors f l) as [r|] eqn:E; [|discriminate]. cbn [bind]. intros H. injection H as H. destruct (square_errors_zero f l r E) as (P & K). apply K. apply sqrt_eq_0; assumption.
Qed.
Theorem C75_reproduces : forall la draw script g0 s1 s2 g1 g2 c t mean t' d, List.length (tg_vol t) = 5%nat -> tg_shape t = [mean] ->
  (forall tr r, conversation (vol_misfit la draw (tg_start t) (tg_end t) (tg_dt t) (ca_vols c) mean (vec_of (tg_state t))) s1 tr r ->
    exists tr' x, tr = tr' ++ [(x, 0)] /\
      forall tr2 r2, conversation (price_misfit la draw (tg_start t) (tg_end t) (tg_dt t) (ca_prices c) x) s2 tr2 r2 -> exists tr2' y, tr2 = tr2' ++ [(y, 0)]) ->
  calibrate la draw script g0 s1 s2 g1 g2 c t = (t', Ok d) ->
  (forall u q, In (u, q) (ca_vols c) -> mv_yield_volatility (do_multi d) u None = Ok q) /\ (forall u q, In (u, q) (ca_prices c) -> mv_price (do_multi d) u None = Ok q).
Proof.
  intros la draw script g0 s1 s2 g1 g2 c t mean t' d Hv Hs A H. destruct (C75_misfit _ _ _ _ _ _ _ _ _ _ _ _ _ Hv Hs H) as (tr1 & r1 & tr2 & r2 & C1 & C2 & V & P).
  destruct (A _ _ C1) as (tr & x & E & B). rewrite E, last_app_one in C2. destruct (B _ _ C2) as (tr' & y & E'). split; apply misfit_zero; [eapply V | eapply P]; eassumption.
Qed.
Print Assumptions C75_reproduces.

(** Conversely the calibration succeeds whenever the optimiser's runs do. *)
Theorem C75_defined : forall la draw g0 s1 s2 g1 g2 c t mean tr1 r1 tr2 r2 x m1 m' th r m2, List.length (tg_vol t) = 5%nat -> tg_shape t = [mean] ->
  (forall u q, In (u, q) (ca_vols c) -> exists a, compute_accrual_length (Stamp (tg_start t)) u (tg_dcc t) = Ok a) ->
  (forall u q, In (u, q) (ca_prices c) -> exists a, compute_accrual_length (Stamp (tg_start t)) u ACTACT = Ok a) ->
  conversation (vol_misfit la draw (tg_start t) (tg_end t) (tg_dt t) (ca_vols c) mean (vec_of (tg_state t))) s1 tr1 r1 -> x = last (List.map fst tr1) (tg_vol t) ->
  model_with la draw (tg_start t) (tg_end t) (tg_dt t) x mean (vec_of (tg_state t)) = Ok m1 ->
  conversation (price_misfit la draw (tg_start t) (tg_end t) (tg_dt t) (ca_prices c) x) s2 tr2 r2 -> [m'; th; r] = last (List.map fst tr2) [mean; g1 0%nat; g1 1%nat] ->
  model_with la draw (tg_start t) (tg_end t) (tg_dt t) x m' (vec_of [th; r]) = Ok m2 ->
  exists d, calibrate la draw true g0 s1 s2 g1 g2 c t = (put_vol t x, Ok d) /\ do_multi d = m2.
Proof.
  intros la draw g0 s1 s2 g1 g2 c t mean tr1 r1 tr2 r2 x m1 m' th r m2 Hv Hs A1 A2 C1 Ex M1 C2 Ey M2.
  assert (Ac : forall u l, (forall v q, In (v, q) l -> exists a, compute_accrual_length (Stamp (tg_start u)) v (tg_dcc u) = Ok a) -> exists ac, accruals true u l = Ok ac).
  { intros u l. unfold accruals. induction l as [|[v q] l IH]; intros K; [cbn; eauto|]. cbn [mapM fst]. destruct (K v q (or_introl eq_refl)) as (a & ->). cbn [bind]. destruct IH as (ac & ->); [intros; eapply K; right; eassumption|]. cbn. eauto. }
  unfold calibrate, calibrate_volatility. destruct (Ac t (ca_vols c) A1) as (ac & ->). destruct (volatility_loss_run la draw g0 (ca_vols c) t mean Hs Hv s1) as (_ & _ & R1). rewrite (R1 tr1 r1 C1), <- Ex.
  assert (Lx : List.length x = 5%nat) by (unfold model_with in M1; destruct x as [|? [|? [|? [|? [|? [|]]]]]]; try discriminate M1; reflexivity).
  pose proof (build_spec la draw g1 (put_vol t x) x mean (tg_state t) eq_refl Hs eq_refl Lx) as B. cbn [tg_start tg_end tg_dt put_vol] in B. rewrite M1 in B. destruct (build la draw g1 (put_vol t x)) as [m|]; [|contradiction]. destruct B as (_ & Et). cbn [bind].
  rewrite Et. unfold calibrate_shape_state. set (t1 := Target x [mean] [g1 0%nat; g1 1%nat] (tg_start t) (tg_end t) (tg_dt t) ACTACT). destruct (Ac t1 (ca_prices c) A2) as (ac2 & ->).
  destruct (price_loss_run la draw g0 (ca_prices c) t1 x eq_refl Lx eq_refl eq_refl s2) as (_ & P). rewrite (P tr2 r2 C2). cbn [t1 tg_shape tg_state app]. rewrite <- Ey. cbn [put_y put_shape_state firstn skipn tg_vol tg_shape tg_state tg_start tg_end tg_dt tg_dcc put_vol].
  match goal with |- context [build _ _ _ ?T] => pose proof (build_spec la draw g2 T x m' [th; r] eq_refl eq_refl eq_refl Lx) as B2 end. cbn [tg_start tg_end tg_dt t1] in B2. rewrite M2 in B2.
  destruct (build la draw g2 _) as [d|]; [|contradiction]. exists d. destruct B2 as (E & _). auto.
Qed.
Print Assumptions C75_defined.

(** Rebuilding a calibrated model from its own dictionary, as the script does, starts it from whatever np.empty returned. *)
Theorem C75_state_lost : forall la draw script g0 s1 s2 g1 g2 g3 c t mean t' d d', List.length (tg_vol t) = 5%nat -> tg_shape t = [mean] ->
  calibrate la draw script g0 s1 s2 g1 g2 c t = (t', Ok d) -> build la draw g3 (doubly_target d) = Ok d' ->
  exists m', do_shape_params d = [m'] /\ model_with la draw (tg_start t) (tg_end t) (tg_dt t) (do_vol_params d) m' (vec_of [g2 0%nat; g2 1%nat]) = Ok (do_multi d').
Proof.
  intros la draw script g0 s1 s2 g1 g2 g3 c t mean t' d d' Hv Hs H B. destruct (C75_calibrated _ _ _ _ _ _ _ _ _ _ _ _ _ Hv Hs H) as (tr1 & r1 & x & tr2 & r2 & m' & th & r & C1 & Ex & C2 & Ey & Mw & Ev & Es & Est & _).
  exists m'. split; [exact Es|]. 
  assert (Tg : tg_start (doubly_target d) = tg_start t /\ tg_end (doubly_target d) = tg_end t /\ tg_dt (doubly_target d) = tg_dt t).
  { unfold model_with in Mw. destruct x as [|ls [|lv [|sp [|v [|cc [|]]]]]]; try discriminate Mw. destruct (new_doubly la (fun _ => 0) sp v m' ls lv cc _ _ _) as [d0|] eqn:N; [|discriminate]. cbn [bind] in Mw.
    destruct (mv_generate (do_multi d0) _ 0 true draw) as [[m1 h1] [u1|]] eqn:G; [|discriminate]. injection Mw as Md. pose proof (garbage_irrelevant la (fun _ => 0) (fun _ => 0) sp v m' ls lv cc (tg_start t) (tg_end t) (tg_dt t)) as K. rewrite N in K.
    destruct K as (_ & _ & _ & _ & K1 & K2 & K3 & _). pose proof (generate_same _ _ _ _ _ _ _ _ G) as Sm. pose proof (generate_dt _ _ _ _ _ _ _ _ G) as Dt. pose proof (sm_start _ _ Sm) as X1. pose proof (sm_end _ _ Sm) as X2. unfold doubly_target, model_target. cbn [tg_start tg_end tg_dt]. unfold mv_start in *. rewrite <- Md.
    split; [rewrite X1; exact K1|]. split; [rewrite X2; exact K2|rewrite Dt; exact K3]. }
  destruct Tg as (T1 & T2 & T3).
  assert (Lx : List.length (do_vol_params d) = 5%nat) by (rewrite Ev; unfold model_with in Mw; destruct x as [|? [|? [|? [|? [|? [|]]]]]]; try discriminate Mw; reflexivity).
  pose proof (build_spec la draw g3 (doubly_target d) (do_vol_params d) m' [g2 0%nat; g2 1%nat] eq_refl Es Est Lx) as S. rewrite B, T1, T2, T3 in S.
  match type of S with match ?M with _ => _ end => change (M = Ok (do_multi d')); destruct M as [m2|]; [|contradiction] end. destruct S as (-> & _). reflexivity.
Qed.
Print Assumptions C75_state_lost.

(** A one-factor model cannot be calibrated, although it is advertised: the calibrator always builds a doubly mean
    reverting model, which needs five volatility parameters. *)
Theorem C75_one_factor : forall la draw script g0 s1 s2 g1 g2 c level speed vol b dt v g, new_vasicek level speed vol b dt = Ok v ->
  exists e, snd (calibrate la draw script g0 s1 s2 g1 g2 c (vasicek_target v g)) = Err e.
Proof.
  intros la draw script g0 s1 s2 g1 g2 c level speed vol b dt v g N. set (t := vasicek_target v g).
  assert (Lv : List.length (tg_vol t) = 2%nat). { unfold new_vasicek in N. destruct (fdiv _ _); [|discriminate]. cbn [bind] in N. injection N as <-. reflexivity. }
  unfold calibrate, calibrate_volatility. destruct (accruals script t (ca_vols c)); [|eexists; reflexivity].
  assert (Bd : forall g u, List.length (tg_vol u) = 2%nat -> build la draw g u = Err IndexError).
  { intros g' u L. unfold build, alloc, doubly_from_parameters. destruct (tg_vol u) as [|a0 [|a1 [|]]]; try discriminate L. reflexivity. }
  destruct s1 as [x|x k]; cbn [run_solver].
  - cbn [snd]. rewrite Bd by exact Lv. eexists. reflexivity.
  - unfold volatility_loss. destruct (Nat.eqb_spec (List.length (tg_vol t)) (List.length x)) as [E|E]; cbn [negb]; [|eexists; reflexivity]. rewrite (Bd g0 (put_vol t x)) by (cbn; congruence). cbn [bind]. eexists. reflexivity.
Qed.
Print Assumptions C75_one_factor.
