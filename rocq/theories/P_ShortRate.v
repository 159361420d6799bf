(** Short rate models: C52. *)
From Verif Require Import Base PyDate PyDateFacts DayCount DayCountFacts PyList KeyRate Curve CurveFacts Loan P_DayCount RVec Stochastic StochasticFacts P_Stochastic ShortRate.
From Coq Require Import Reals Lra Lqa Permutation Sorting.Sorted.
Open Scope Z_scope.
Ltac lra := first [Lra.lra | Lqa.lra].
Ltac nra := first [Lra.nra | Lqa.nra].

Lemma trapezoid_value a b T : trapezoid a b T = ((a + b) / 2 * T)%R.
Proof.
  unfold trapezoid. assert (Rmin a b + Rmax a b = a + b)%R by (unfold Rmin, Rmax; destruct (Rle_dec a b); lra).
  destruct (Rlt_dec _ _); replace (a + b)%R with (Rmin a b + Rmax a b)%R by assumption; field.
Qed.

(** ---- evaluation of the model ---- *)
(** After generating a path, the stored path is the transformed state path, the call at a grid time is the transformed
    state there, and outside the span it raises ValueError.  The caches are left as they were. *)
Theorem C52_rates : forall s h start draw s' h', forward (pr_dt (sr_proc s)) -> datetime_ok (bm_start (sr_bm s)) -> datetime_ok (bm_end (sr_bm s)) ->
  dt_abs (bm_start (sr_bm s)) <= dt_abs (bm_end (sr_bm s)) -> (start < fresh h)%nat -> sr_generate_path s h start true draw = (s', h', Ok tt) ->
  exists cols g, pr_path (sr_proc s') = Some cols /\ bm_times (sr_bm s') = Some g /\ List.length cols = List.length g /\ nth_error cols 0 = Some (arr h start) /\
    nth_error g 0 = Some (bm_start (sr_bm s)) /\ nth_error g (List.length g - 1) = Some (bm_end (sr_bm s)) /\
    sr_path s' = Some (List.map (sr_f s) cols) /\
    (forall k x v, nth_error g k = Some x -> nth_error cols k = Some v -> sr_call s' x = Ok (sr_f s v)) /\
    (forall x, dt_abs x < dt_abs (bm_start (sr_bm s)) \/ dt_abs (bm_end (sr_bm s)) < dt_abs x -> sr_call s' x = Err ValueError) /\
    (forall a, (a < fresh h)%nat -> arr h' a = arr h a) /\ sr_int s' = sr_int s /\ sr_disc s' = sr_disc s.
Proof.
  intros s h start draw s' h' F Os Oe L St E. unfold sr_generate_path in E. destruct (pr_generate_path (sr_proc s) h start true draw) as [[p h1] [sol|]] eqn:G; [|discriminate].
  destruct (C50_euler _ _ _ _ _ _ _ _ F Os Oe L St G) as (g & dts & incs & b' & _ & T & TG & Ls & _ & S0 & _ & Fr & Pp & _).
  destruct (C50_evaluation _ _ _ _ _ _ _ F Os Oe L St G) as (g' & T' & _ & _ & Hc & Ho & _). rewrite T in T'. injection T' as <-.
  rewrite Pp in E. injection E as <- <-. unfold sr_bm. cbn [sr_proc sr_path sr_int sr_disc sr_f]. exists sol, g. destruct TG as [G1 G2 _ _ _].
  split; [exact Pp|]. split; [exact T|]. split; [exact Ls|]. split; [exact S0|]. split; [exact G1|]. split; [exact G2|]. split; [reflexivity|]. split; [|split; [|auto]].
  - intros k x v X V. unfold sr_call. cbn [sr_proc sr_f]. rewrite (Hc k x v X V). reflexivity.
  - intros x B. unfold sr_call. cbn [sr_proc]. rewrite (Ho x B). reflexivity.
Qed.
Print Assumptions C52_rates.

(** Without storing: AttributeError when the state process has no path, else the old rates again (and C48's stale grid). *)
Theorem C52_unstored : forall s h start draw s' h' r, sr_generate_path s h start false draw = (s', h', r) ->
  (pr_path (sr_proc s) = None -> (exists e, r = Err e) /\ (forall p2 h2 sol, pr_generate_path (sr_proc s) h start true draw = (p2, h2, Ok sol) -> r = Err AttributeError) /\ (forall x, sr_call s' x = Err ValueError) /\ sr_path s' = sr_path s) /\
  (forall cols, pr_path (sr_proc s) = Some cols -> r = Ok tt -> pr_path (sr_proc s') = Some cols /\ sr_path s' = Some (List.map (sr_f s) cols)).
Proof.
  intros s h start draw s' h' r E. unfold sr_generate_path, pr_generate_path in E.
  destruct (generate_increments (pr_bm (sr_proc s)) (pr_dt (sr_proc s)) draw) as [b [[incs dts]|]] eqn:G.
  - destruct (alloc _ _) as [cur h1]. destruct (euler _ _ _ _ _ _) as [h2 sol]. cbn [pr_path] in E.
    destruct (pr_path (sr_proc s)) as [cols|] eqn:P; injection E as <- _ <-; (split; [intros N|intros cols' N R]); try discriminate.
    + injection N as <-. cbn. auto.
    + split; [eauto|]. split; [intros p2 h3 sol' _; reflexivity|]. cbn. split; [|reflexivity]. intros x. unfold sr_call, pr_call. cbn. reflexivity.
  - injection E as <- _ <-. split; [intros N|intros cols N R; discriminate]. split; [eauto|]. split; [intros p2 h3 sol' X; unfold pr_generate_path in X; rewrite G in X; discriminate|]. cbn. split; [|reflexivity]. intros x. unfold sr_call, pr_call. cbn. rewrite N. reflexivity.
Qed.
Print Assumptions C52_unstored.

(** ---- the integrated path ---- *)
Lemma integral_loop_spec s ds : forall run I, integral_loop s 0 run (pairwise ds) = Ok I ->
  List.length I = (List.length ds - 1)%nat /\
  forall k t0 t1 v v', nth_error ds k = Some t0 -> nth_error ds (S k) = Some t1 -> nth_error (run :: I) k = Some v -> nth_error (run :: I) (S k) = Some v' ->
    exists a b T, sr_call s t0 = Ok a /\ sr_call s t1 = Ok b /\ compute_accrual_length (Stamp (bm_start (sr_bm s))) (Stamp t1) (bm_dcc (sr_bm s)) = Ok T /\ v' = (v + (a + b) / 2 * Q2R T)%R.
Proof.
  induction ds as [|t ds IH]; intros run I E.
  - injection E as <-. split; [reflexivity|]. intros [|k]; discriminate.
  - destruct ds as [|u ds]; [injection E as <-; split; [reflexivity|]; intros [|[|k]]; discriminate|].
    change (pairwise (t :: u :: ds)) with ((t, u) :: pairwise (u :: ds)) in E. cbn [integral_loop] in E.
    destruct (sr_call s t) as [a|] eqn:A; [|discriminate]. destruct (sr_call s u) as [b|] eqn:B; [|discriminate]. cbn [bind] in E.
    destruct (compute_accrual_length _ _ _) as [T|] eqn:C; [|discriminate]. cbn [bind] in E.
    destruct (integral_loop _ _ _ (pairwise (u :: ds))) as [r|] eqn:R; [|discriminate]. injection E as <-.
    destruct (IH _ _ R) as [Ln H]. split; [cbn [List.length] in *; lia|]. intros [|k] t0 t1 v v' X Y V W.
    + cbn in X, Y, V, W. assert (t0 = t) by congruence. assert (t1 = u) by congruence. subst. injection V as <-. injection W as <-.
      exists a, b, T. rewrite trapezoid_value, Rminus_0_r. auto.
    + cbn [nth_error] in X, V. change (nth_error (u :: ds) k = Some t0) in X. apply (H k t0 t1 v v' X Y V W).
Qed.

(** What generate_integrated_path computes, on the given datetimes (default: the grid by the model's dt): starting from 0,
    each step adds the mean of the two rates times the WHOLE accrual since the start. *)
Theorem C52_integral : forall s l ds s' I, sr_datetimes s l = Ok ds -> ds <> [] -> sr_generate_integrated s l = (s', Ok I) ->
  List.length I = List.length ds /\ nth_error I 0 = Some 0%R /\
  (forall k t0 t1 v v', nth_error ds k = Some t0 -> nth_error ds (S k) = Some t1 -> nth_error I k = Some v -> nth_error I (S k) = Some v' ->
    exists a b T, sr_call s t0 = Ok a /\ sr_call s t1 = Ok b /\ compute_accrual_length (Stamp (bm_start (sr_bm s))) (Stamp t1) (bm_dcc (sr_bm s)) = Ok T /\ v' = (v + (a + b) / 2 * Q2R T)%R) /\
  sr_int s' = Some I /\ sr_path s' = sr_path s /\ sr_proc s' = sr_proc s /\ sr_disc s' = sr_disc s.
Proof.
  intros s l ds s' I D N E. unfold sr_generate_integrated in E. destruct (sr_path s) as [p|] eqn:P; [|discriminate]. rewrite D in E. cbn [bind] in E.
  destruct (integral_loop s 0 0 (pairwise ds)) as [r|] eqn:R; [|discriminate]. cbn [bind] in E. injection E as <- <-. destruct (integral_loop_spec s ds 0%R r R) as [Ln H].
  split; [destruct ds; [contradiction|cbn [List.length] in *; lia]|]. split; [reflexivity|]. split; [exact H|]. auto.
Qed.
Print Assumptions C52_integral.

(** accruals from the start to the 2nd, 3rd, ... k+1-st datetime, summed *)
Fixpoint accruals_to (c : dcc) (s : datetime) (ds : list datetime) (k : nat) : R :=
  match k with
  | O => 0%R
  | S k => (accruals_to c s ds k + match nth_error ds (S k) with Some t => match compute_accrual_length (Stamp s) (Stamp t) c with Ok T => Q2R T | Err _ => 0 end | None => 0 end)%R
  end.

(** A constant rate r integrates to r times the SUM of the accruals from the start to every datetime so far; the true
    integral r * (accrual from the start) is right for the first step only and exceeded from the second on. *)
Theorem C52_constant_rate : forall s l ds s' I r, sr_datetimes s l = Ok ds -> ds <> [] -> sr_generate_integrated s l = (s', Ok I) ->
  (forall t v, In t ds -> sr_call s t = Ok v -> v = r) ->
  (forall k v, nth_error I k = Some v -> v = (r * accruals_to (bm_dcc (sr_bm s)) (bm_start (sr_bm s)) ds k)%R) /\
  (forall t v T, nth_error ds 1 = Some t -> nth_error I 1 = Some v -> compute_accrual_length (Stamp (bm_start (sr_bm s))) (Stamp t) (bm_dcc (sr_bm s)) = Ok T -> v = (r * Q2R T)%R) /\
  (bm_dcc (sr_bm s) <> THIRTY360 -> stamp_ok (bm_dcc (sr_bm s)) (bm_start (sr_bm s)) -> (forall j t, nth_error ds (S j) = Some t -> stamp_ok (bm_dcc (sr_bm s)) t /\ dt_abs (bm_start (sr_bm s)) < dt_abs t) -> (0 < r)%R ->
   forall k t v T, (2 <= k)%nat -> nth_error ds k = Some t -> nth_error I k = Some v -> compute_accrual_length (Stamp (bm_start (sr_bm s))) (Stamp t) (bm_dcc (sr_bm s)) = Ok T -> (r * Q2R T < v)%R).
Proof.
  intros s l ds s' I r D N E C. destruct (C52_integral _ _ _ _ _ D N E) as (Ln & I0 & H & _).
  assert (K : forall k v, nth_error I k = Some v -> v = (r * accruals_to (bm_dcc (sr_bm s)) (bm_start (sr_bm s)) ds k)%R).
  { induction k as [|k IH]; intros v V; [rewrite I0 in V; injection V as <-; cbn; lra|].
    assert (k < List.length I)%nat by (assert (S k < List.length I)%nat by (apply nth_error_Some; congruence); lia). destruct (nth_error I k) as [w|] eqn:W; [|apply nth_error_None in W; lia].
    destruct (nth_error ds k) as [t0|] eqn:T0; [|apply nth_error_None in T0; lia]. destruct (nth_error ds (S k)) as [t1|] eqn:T1; [|apply nth_error_None in T1; assert (S k < List.length I)%nat by (apply nth_error_Some; congruence); lia].
    destruct (H k t0 t1 w v T0 T1 W V) as (a & b & T & A & B & Ta & ->). rewrite (IH w eq_refl). rewrite (C _ _ (nth_error_In _ _ T0) A), (C _ _ (nth_error_In _ _ T1) B). cbn [accruals_to]. rewrite T1, Ta. field. }
  split; [exact K|]. split.
  - intros t v T Ht Hv Ta. rewrite (K _ _ Hv). cbn [accruals_to]. rewrite Ht, Ta. ring.
  - intros NC Ss St Pr k t v T K2 Ht Hv Ta. rewrite (K _ _ Hv). destruct k as [|k]; [lia|]. cbn [accruals_to]. rewrite Ht, Ta.
    assert (Pa : forall m, (1 <= m)%nat -> (m < List.length ds)%nat -> (0 < accruals_to (bm_dcc (sr_bm s)) (bm_start (sr_bm s)) ds m)%R).
    { induction m as [|m IHm]; intros M1 M2; [lia|]. cbn [accruals_to]. destruct (nth_error ds (S m)) as [u|] eqn:U; [|apply nth_error_None in U; lia].
      destruct (St m u U) as [Su Lu]. destruct (accrual_total _ _ _ Ss Su ltac:(lia)) as [q Q]. rewrite Q. pose proof (accrual_positive _ _ _ _ NC Ss Su Lu Q) as Pq. apply Qlt_Rlt in Pq. replace (Q2R 0) with 0%R in Pq by (unfold Q2R; cbn; lra).
      destruct m as [|m]; [cbn; lra|]. specialize (IHm ltac:(lia) ltac:(lia)). lra. }
    assert (S k < List.length ds)%nat by (apply nth_error_Some; congruence). specialize (Pa k ltac:(lia) ltac:(lia)). nra.
Qed.
Print Assumptions C52_constant_rate.

(** ---- the discount curve ---- *)
Lemma combine_length_eq {A B} (l : list A) (m : list B) : List.length l = List.length m -> List.length (combine l m) = List.length l.
Proof. intros. rewrite combine_length. lia. Qed.
Lemma map_fst_combine {A B} (l : list A) : forall (m : list B), List.length l = List.length m -> List.map fst (combine l m) = l.
Proof. induction l as [|x l IH]; intros [|y m]; cbn; try discriminate; auto. intros [= E]. rewrite IH; auto. Qed.

Lemma sorted_grid (knots : list (datetime * R)) : grid_increasing (List.map fst knots) -> sort_by (fun kv => dt_abs (fst kv)) knots = knots.
Proof.
  intros G. apply sort_by_id. induction knots as [|[t v] l IH]; [constructor|]. cbn [List.map]. constructor.
  - apply IH. intros i j s u L Hs Hu. apply (G (S i) (S j) s u); [lia|exact Hs|exact Hu].
  - apply Forall_forall. intros z Hz. apply in_map_iff in Hz. destruct Hz as ([u w] & <- & I). apply In_nth_error in I. destruct I as [n I].
    assert (dt_abs t < dt_abs u); [|cbn; lia]. apply (G 0%nat (S n) t u); [lia|reflexivity|]. cbn. rewrite nth_error_map, I. reflexivity.
Qed.

(** reading a linear curve at one of its points *)
Lemma interp_at_point spline pts k x y : (forall i j p q, (i < j)%nat -> nth_error pts i = Some p -> nth_error pts j = Some q -> (fst p < fst q)%Q) ->
  nth_error pts k = Some (x, y) -> interp1d spline LINEAR pts x = Ok y.
Proof.
  intros G K. destruct (nth_error_split _ _ K) as (pre & post & E & Lp). destruct pts as [|p0 rest]; [destruct k; discriminate|].
  unfold interp1d.
  assert (A1 : (fst p0 <= x)%Q). { destruct k as [|k]; [cbn in K; injection K as ->; apply Qle_refl|]. apply Qlt_le_weak. apply (G 0%nat (S k) p0 (x, y)); auto. lia. }
  assert (A2 : (x <= fst (last (p0 :: rest) p0))%Q).
  { rewrite E. destruct post as [|q post]; [rewrite last_split; apply Qle_refl|]. destruct (exists_last (l := q :: post) ltac:(discriminate)) as (l' & z & El). rewrite El.
    replace (pre ++ (x, y) :: l' ++ [z]) with ((pre ++ (x, y) :: l') ++ [z]) by (rewrite <- app_assoc; reflexivity). rewrite last_split. apply Qlt_le_weak.
    apply (G k (List.length pre + 1 + List.length l')%nat (x, y) z); [lia|exact K|]. rewrite E, El. rewrite nth_error_app2 by lia. replace (List.length pre + 1 + List.length l' - List.length pre)%nat with (S (List.length l')) by lia.
    cbn [nth_error]. rewrite nth_error_app2 by lia. rewrite Nat.sub_diag. reflexivity. }
  assert (B1 : Qle_bool (fst p0) x = true) by (apply Qle_bool_iff; exact A1).
  assert (B2 : Qle_bool x (fst (last (p0 :: rest) p0)) = true) by (apply Qle_bool_iff; exact A2).
  rewrite B1, B2. cbn [negb orb]. f_equal.
  assert (A3 : le_all (pre ++ [(x, y)]) x).
  { apply Forall_forall. intros p I. apply in_app_or in I. destruct I as [I|[<-|[]]]; [|apply Qle_refl]. apply In_nth_error in I. destruct I as [n Hn].
    assert (n < List.length pre)%nat by (apply nth_error_Some; congruence). apply Qlt_le_weak. apply (G n k p (x, y)); [lia| |exact K]. rewrite E, nth_error_app1 by lia. exact Hn. }
  assert (A4 : next_gt post x).
  { destruct post as [|q post]; [exact I|]. cbn. apply (G k (S k) (x, y) q); [lia|exact K|]. rewrite E. rewrite nth_error_app2 by lia. replace (S k - List.length pre)%nat with 1%nat by lia. reflexivity. }
  destruct (scan pre p0 rest (x, y) post x E A3 A4) as [_ V]. rewrite V. destruct post as [|q post]; [reflexivity|]. cbn [fst snd].
  assert (Qeq_bool x x = true) by (apply Qeq_bool_iff; reflexivity). rewrite H. reflexivity.
Qed.

Lemma mapM_nth {A B} (f : A -> res B) l l' k a : mapM f l = Ok l' -> nth_error l k = Some a -> exists b, nth_error l' k = Some b /\ f a = Ok b.
Proof.
  intros M. apply mapM_Forall2 in M. revert k. induction M as [|x y l l' Hx M IH]; intros [|k]; cbn; try discriminate; [intros [= ->]; eauto|apply IH].
Qed.

(** reading a curve at its knots *)
Lemma tcurve_at_knots knots c ref cv : grid_increasing (List.map fst knots) -> new_tcurve knots c ref = Ok cv ->
  (forall i j t u x y, (i < j)%nat -> nth_error (List.map fst knots) i = Some t -> nth_error (List.map fst knots) j = Some u -> taxis c ref t = Ok x -> taxis c ref u = Ok y -> (x < y)%Q) ->
  forall k t v, nth_error knots k = Some (t, v) -> tcurve_call cv t = Ok v.
Proof.
  intros G N Ax k t v K. unfold new_tcurve in N. rewrite (sorted_grid _ G) in N. destruct (mapM (fun kv => taxis c ref (fst kv)) knots) as [xs|] eqn:M; [|discriminate]. cbn [bind] in N. injection N as <-.
  unfold tcurve_call. cbn [tc_knots tc_dcc tc_ref tc_pts]. destruct knots as [|kv0 rest] eqn:Ek; [destruct k; discriminate|]. rewrite <- Ek in *.
  assert (Lx : List.length xs = List.length knots). { apply mapM_Forall2 in M. clear - M. induction M; cbn; auto. }
  assert (Kf : nth_error (List.map fst knots) k = Some t) by (rewrite nth_error_map, K; reflexivity).
  assert (A1 : dt_ltb t (fst kv0) = false).
  { unfold dt_ltb. destruct k as [|k]; [rewrite Ek in K; cbn in K; injection K as ->; cbn; lia|].
    assert (dt_abs (fst kv0) < dt_abs t); [|lia]. apply (G 0%nat (S k)); [lia| |exact Kf]. rewrite Ek. reflexivity. }
  assert (A2 : dt_ltb (fst (last knots kv0)) t = false).
  { unfold dt_ltb. destruct (exists_last (l := knots)) as (l' & z & El); [rewrite Ek; discriminate|]. assert (last knots kv0 = z) by (rewrite El; apply last_split). rewrite H.
    assert (Kl : (k < List.length knots)%nat) by (apply nth_error_Some; congruence). assert (List.length knots = S (List.length l')) by (rewrite El, app_length; cbn; lia).
    assert (Z : nth_error knots (List.length l') = Some z) by (rewrite El, nth_error_app2, Nat.sub_diag by lia; reflexivity).
    destruct (Nat.eq_dec k (List.length l')) as [->|Nk]; [rewrite K in Z; injection Z as <-; cbn; lia|].
    assert (dt_abs t < dt_abs (fst z)); [|lia]. apply (G k (List.length l')); [lia|exact Kf|]. rewrite nth_error_map, Z. reflexivity. }
  rewrite A1, A2. destruct (mapM_nth _ _ _ _ _ M K) as (x & X & Fx). cbn [fst] in Fx. rewrite Fx. cbn [bind].
  apply (interp_at_point _ _ k).
  - intros i j p q L Hp Hq. 
    assert (Dec : forall n p, nth_error (combine xs (List.map snd knots)) n = Some p -> exists u, nth_error (List.map fst knots) n = Some u /\ taxis c ref u = Ok (fst p)).
    { intros n [a b] Hn. assert (n < List.length (combine xs (List.map snd knots)))%nat by (apply nth_error_Some; congruence). rewrite combine_length, map_length in H.
      destruct (nth_error knots n) as [kv|] eqn:Kn; [|apply nth_error_None in Kn; lia]. destruct (mapM_nth _ _ _ _ _ M Kn) as (x' & X' & F'). exists (fst kv). split; [rewrite nth_error_map, Kn; reflexivity|].
      assert (nth_error (List.map snd knots) n = Some (snd kv)) by (rewrite nth_error_map, Kn; reflexivity). rewrite (combine_nth' _ _ _ _ _ X' H0) in Hn. injection Hn as <- <-. exact F'. }
    destruct (Dec _ _ Hp) as (u & U & Fu). destruct (Dec _ _ Hq) as (w & W & Fw). eapply Ax; eauto.
  - apply combine_nth'; [exact X|]. rewrite nth_error_map, K. reflexivity.
Qed.

(** Act/360, Act/365, Act/365.25: later means a larger axis value *)
Lemma taxis_increasing c N ref t u x y : In (c, N) actual_over -> datetime_ok ref -> dt_date ref < max_date -> datetime_ok t -> dt_date t < max_date -> datetime_ok u -> dt_date u < max_date ->
  dt_abs ref <= dt_abs t -> dt_abs t < dt_abs u -> taxis c ref t = Ok x -> taxis c ref u = Ok y -> (x < y)%Q.
Proof.
  intros I Or Lr Ot Lt Ou Lu A B X Y. unfold taxis in *.
  destruct (C05_timestamps_exact c N (Stamp ref) (Stamp t) I Or Ot Lr Lt) as (q & E & V); [unfold elapsed; cbn; lia|]. rewrite X in E. injection E as <-.
  destruct (C05_timestamps_exact c N (Stamp ref) (Stamp u) I Or Ou Lr Lu) as (q & E & W); [unfold elapsed; cbn; lia|]. rewrite Y in E. injection E as <-.
  rewrite V, W. assert (P : (0 < N)%Q) by (unfold actual_over in I; cbn in I; repeat destruct I as [I|I]; try contradiction; injection I as _ <-; reflexivity).
  unfold Qdiv. apply Qmult_lt_compat_r; [apply Qinv_lt_0_compat; lra|]. apply Qmult_lt_compat_r; [reflexivity|]. rewrite <- Zlt_Qlt. unfold elapsed. cbn. lia.
Qed.

(** create_discount_curve with no integral cached: integrates, stores, and discounts the k-th datetime by exp(-I_k). *)
Theorem C52_discount : forall s l ds s' cv, sr_int s = None -> sr_datetimes s l = Ok ds -> ds <> [] -> grid_increasing ds ->
  (forall i j t u x y, (i < j)%nat -> nth_error ds i = Some t -> nth_error ds j = Some u -> taxis (bm_dcc (sr_bm s)) (bm_start (sr_bm s)) t = Ok x -> taxis (bm_dcc (sr_bm s)) (bm_start (sr_bm s)) u = Ok y -> (x < y)%Q) ->
  sr_create_discount s l = (s', Ok cv) ->
  exists s1 I, sr_generate_integrated s (Some ds) = (s1, Ok I) /\ sr_int s' = Some I /\ sr_disc s' = Some cv /\
    (forall k t v, nth_error ds k = Some t -> nth_error I k = Some v -> tcurve_call cv t = Ok (exp (- v))) /\
    (forall t, nth_error ds 0 = Some t -> tcurve_call cv t = Ok 1%R).
Proof.
  intros s l ds s' cv Ni D N G Ax E. unfold sr_create_discount in E. destruct (sr_path s) as [p|] eqn:P; [|discriminate]. rewrite D, Ni in E.
  destruct (sr_generate_integrated s (Some ds)) as [s1 [I|]] eqn:R; [|discriminate].
  destruct (C52_integral s (Some ds) ds s1 I eq_refl N R) as (Ln & I0 & _ & S1 & S2 & S3 & S4). unfold sr_bm in E. rewrite S3 in E.
  destruct (new_tcurve _ _ _) as [c|] eqn:C; [|discriminate]. injection E as <- <-. cbn [sr_int sr_disc].
  assert (Lm : List.length ds = List.length (List.map (fun x => exp (- x)) I)) by (rewrite map_length; lia).
  assert (H : forall k t v, nth_error ds k = Some t -> nth_error I k = Some v -> tcurve_call c t = Ok (exp (- v))).
  { intros k t v T V. eapply (tcurve_at_knots (combine ds (List.map (fun x => exp (- x)) I))); [|exact C| |].
    - rewrite map_fst_combine by exact Lm. exact G.
    - rewrite map_fst_combine by exact Lm. exact Ax.
    - apply combine_nth'; [exact T|]. rewrite nth_error_map, V. reflexivity. }
  exists s1, I. split; [reflexivity|]. split; [exact S1|]. split; [reflexivity|]. split; [exact H|]. intros t T. rewrite (H 0%nat t 0%R T I0), Ropp_0, exp_0. reflexivity.
Qed.
Print Assumptions C52_discount.

(** Regenerating: any number of paths generated (stored or not) after a discount curve leave the cached integral, and the
    next discount curve over the same datetimes is the old one. *)
Fixpoint regenerate (s : short_rate) (h : arrays) (ops : list (nat * bool * (nat -> vec))) : short_rate * arrays :=
  match ops with
  | [] => (s, h)
  | (start, set, draw) :: ops => let '(s, h, _) := sr_generate_path s h start set draw in regenerate s h ops
  end.
Definition same_setup (s s' : short_rate) : Prop := sr_int s' = sr_int s /\ sr_dt s' = sr_dt s /\ bm_start (sr_bm s') = bm_start (sr_bm s) /\ bm_end (sr_bm s') = bm_end (sr_bm s) /\ bm_dcc (sr_bm s') = bm_dcc (sr_bm s) /\
  (sr_path s <> None -> sr_path s' <> None).
Lemma increments_setup b dt draw : let b' := fst (generate_increments b dt draw) in bm_start b' = bm_start b /\ bm_end b' = bm_end b /\ bm_dcc b' = bm_dcc b.
Proof.
  unfold generate_increments. destruct (generate_datetimes _ _ _ _) as [g|]; [|auto]. destruct (nth_error _ _); [|auto]. destruct (mapM _ _); auto.
Qed.
Lemma generate_setup s h start set draw : let '(s', _, _) := sr_generate_path s h start set draw in same_setup s s'.
Proof.
  unfold sr_generate_path, pr_generate_path. pose proof (increments_setup (pr_bm (sr_proc s)) (pr_dt (sr_proc s)) draw) as I. cbn in I.
  destruct (generate_increments _ _ _) as [b [[incs dts]|]]; cbn [fst] in I; destruct I as (I1 & I2 & I3).
  - destruct (alloc _ _) as [cur h1]. destruct (euler _ _ _ _ _ _) as [h2 sol]. cbn [pr_path]. destruct set; [|destruct (pr_path (sr_proc s))]; repeat split; auto; cbn; discriminate.
  - repeat split; auto.
Qed.
Lemma regenerate_setup ops : forall s h, same_setup s (fst (regenerate s h ops)).
Proof.
  induction ops as [|[[start set] draw] ops IH]; intros s h; [repeat split; auto|]. cbn [regenerate]. pose proof (generate_setup s h start set draw) as G.
  destruct (sr_generate_path s h start set draw) as [[s1 h1] r]. specialize (IH s1 h1). unfold same_setup in *. destruct G as (G1 & G2 & G3 & G4 & G5 & G6), IH as (H1 & H2 & H3 & H4 & H5 & H6).
  repeat split; try congruence. auto.
Qed.

Theorem C52_stale_discount : forall s l s1 cv h ops, sr_create_discount s l = (s1, Ok cv) ->
  snd (sr_create_discount (fst (regenerate s1 h ops)) l) = Ok cv.
Proof.
  intros s l s1 cv h ops E.
  assert (H : exists ds I, sr_path s1 <> None /\ sr_datetimes s1 l = Ok ds /\ sr_int s1 = Some I /\ new_tcurve (combine ds (List.map (fun x => exp (- x)) I)) (bm_dcc (sr_bm s1)) (bm_start (sr_bm s1)) = Ok cv).
  { unfold sr_create_discount in E. destruct (sr_path s) as [p|] eqn:P; [|discriminate]. destruct (sr_datetimes s l) as [ds|] eqn:D; [|discriminate].
    assert (Q : forall s' I, sr_path s' = Some p /\ sr_proc s' = sr_proc s /\ sr_dt s' = sr_dt s /\ sr_int s' = Some I -> (match new_tcurve (combine ds (List.map (fun x => exp (- x)) I)) (bm_dcc (sr_bm s')) (bm_start (sr_bm s')) with
        | Err e => (s', Err e) | Ok c => (ShortRate (sr_f s') (sr_proc s') (sr_dt s') (sr_path s') (sr_int s') (Some c), Ok c) end) = (s1, Ok cv) -> exists ds I, sr_path s1 <> None /\ sr_datetimes s1 l = Ok ds /\ sr_int s1 = Some I /\ new_tcurve (combine ds (List.map (fun x => exp (- x)) I)) (bm_dcc (sr_bm s1)) (bm_start (sr_bm s1)) = Ok cv).
    { intros s' I (Q1 & Q2 & Q3 & Q4) C. destruct (new_tcurve _ _ _) as [c|] eqn:N; [|discriminate]. injection C as <- <-. exists ds, I. cbn. rewrite Q1, Q4. split; [discriminate|]. split; [|split; [reflexivity|exact N]].
      rewrite <- D. unfold sr_datetimes, sr_bm. cbn. rewrite Q2, Q3. reflexivity. }
    destruct (sr_int s) as [I|] eqn:In; [apply (Q s I); auto|].
    destruct (sr_generate_integrated s (Some ds)) as [s2 [I|]] eqn:R; [|discriminate]. unfold sr_generate_integrated in R. rewrite P in R. cbn [sr_datetimes bind] in R.
    destruct (integral_loop _ _ _ _) as [r|]; [|discriminate]. injection R as <- <-. eapply Q; [|exact E]. cbn. auto. }
  destruct H as (ds & I & H1 & H2 & H3 & H4). destruct (regenerate_setup ops s1 h) as (G1 & G2 & G3 & G4 & G5 & G6). set (s2 := fst (regenerate s1 h ops)) in *.
  unfold sr_create_discount. destruct (sr_path s2) eqn:P2; [|destruct (G6 H1 eq_refl)]. assert (D2 : sr_datetimes s2 l = Ok ds) by (rewrite <- H2; unfold sr_datetimes; rewrite G2, G3, G4; reflexivity).
  rewrite D2, G1, H3, G5, G3, H4. reflexivity.
Qed.
Print Assumptions C52_stale_discount.

(** The accrual curve raises TypeError unless the integral was already computed. *)
Theorem C52_accrual_curve : forall s l, (sr_path s = None -> sr_accrual_curve s l = Err ValueError) /\
  (forall ds, sr_path s <> None -> sr_int s = None -> sr_datetimes s l = Ok ds -> sr_accrual_curve s l = Err TypeError).
Proof.
  intros s l. unfold sr_accrual_curve. split; [intros ->; reflexivity|]. intros ds P N D. destruct (sr_path s); [|contradiction]. rewrite D, N. reflexivity.
Qed.
Print Assumptions C52_accrual_curve.

(** The accrual curve once the integral is there: it starts at 1 and grows the k-th datetime by exp(I_k), also when the
    datetimes begin at the start itself (which is then twice among the knots). *)
Lemma weakly_sorted_grid (t0 : datetime) (v0 : R) knots : grid_increasing (List.map fst knots) -> (forall t v, nth_error knots 0 = Some (t, v) -> dt_abs t0 <= dt_abs t) ->
  sort_by (fun kv => dt_abs (fst kv)) ((t0, v0) :: knots) = (t0, v0) :: knots.
Proof.
  intros G H. apply sort_by_id. constructor.
  - rewrite <- (sorted_grid _ G). apply sort_by_sorted.
  - apply Forall_forall. intros z Hz. apply in_map_iff in Hz. destruct Hz as ([u w] & <- & I). cbn [fst]. destruct knots as [|[t v] l]; [destruct I|]. specialize (H t v eq_refl).
    apply In_nth_error in I. destruct I as [[|n] I]; cbn in I; [injection I as -> ->; exact H|]. assert (dt_abs t < dt_abs u); [|lia].
    apply (G 0%nat (S n) t u); [lia|reflexivity|]. cbn. rewrite nth_error_map, I. reflexivity.
Qed.
Lemma twice_the_start t0 v0 v1 knots c ref cv : grid_increasing (List.map fst ((t0, v1) :: knots)) -> new_tcurve ((t0, v0) :: (t0, v1) :: knots) c ref = Ok cv ->
  exists cv', new_tcurve ((t0, v1) :: knots) c ref = Ok cv' /\ forall t x y, taxis c ref t0 = Ok x -> taxis c ref t = Ok y -> (x <= y)%Q -> tcurve_call cv t = tcurve_call cv' t.
Proof.
  intros G N. unfold new_tcurve in *. rewrite (weakly_sorted_grid t0 v0 _ G) in N by (intros t v [= <- <-]; lia). rewrite (sorted_grid _ G). cbn [mapM fst] in *.
  destruct (taxis c ref t0) as [x0|]; [|discriminate]. cbn [bind] in *. destruct (mapM _ knots) as [xs|]; [|discriminate]. cbn [bind] in *. injection N as <-. eexists. split; [reflexivity|].
  intros t x y [= <-] Y L. unfold tcurve_call. cbn [tc_knots tc_dcc tc_ref tc_pts fst snd List.map combine last]. rewrite Y. cbn [bind]. unfold interp1d. cbn [fst last].
  assert (A1 : Qle_bool x0 y = true) by (apply Qle_bool_iff; exact L). rewrite A1. cbn [np_interp fst snd]. rewrite A1.
  assert (La : forall A (l : list A) a d d', last (a :: l) d = last (a :: l) d') by (intros A l; induction l as [|b l IH]; intros a d d'; [reflexivity|exact (IH b d d')]).
  destruct knots as [|k1 ks]; [destruct xs; reflexivity|]. rewrite (La _ ks k1 (t0, v0) (t0, v1)). destruct xs as [|x1 xs]; [reflexivity|]. cbn [List.map combine]. rewrite (La _ (combine xs (List.map snd ks)) (x1, snd k1) (x0, v0) (x0, v1)). reflexivity.
Qed.
Theorem C52_accrual_values : forall s l ds I cv, sr_int s = Some I -> sr_datetimes s l = Ok ds -> List.length ds = List.length I -> grid_increasing ds ->
  (forall t, nth_error ds 0 = Some t -> t = bm_start (sr_bm s) \/ dt_abs (bm_start (sr_bm s)) < dt_abs t) ->
  (forall t u x y, In t (bm_start (sr_bm s) :: ds) -> In u (bm_start (sr_bm s) :: ds) -> dt_abs t < dt_abs u -> taxis (bm_dcc (sr_bm s)) (bm_start (sr_bm s)) t = Ok x -> taxis (bm_dcc (sr_bm s)) (bm_start (sr_bm s)) u = Ok y -> (x < y)%Q) ->
  sr_accrual_curve s l = Ok cv ->
  (forall k t v, nth_error ds k = Some t -> nth_error I k = Some v -> tcurve_call cv t = Ok (exp v)) /\
  (~ In (bm_start (sr_bm s)) ds -> tcurve_call cv (bm_start (sr_bm s)) = Ok 1%R).
Proof.
  intros s l ds I cv Hi D Ln G H0 Ax E. unfold sr_accrual_curve in E. destruct (sr_path s); [|discriminate]. rewrite D, Hi in E. cbn [bind] in E.
  set (t0 := bm_start (sr_bm s)) in *. set (c := bm_dcc (sr_bm s)) in *. assert (Lm : List.length ds = List.length (List.map exp I)) by (rewrite map_length; exact Ln).
  destruct ds as [|d ds].
  - split; [intros [|k] t v T; discriminate|]. intros _. cbn [combine] in E. apply (tcurve_at_knots [(t0, 1%R)] c t0 cv) with (k := 0%nat); [|exact E| |reflexivity].
    + intros [|i] [|[|j]] u w L Hu Hw; try discriminate; lia.
    + intros [|i] [|[|j]] u w x y L Hu Hw; try discriminate; lia.
  - destruct I as [|v0 I]; [discriminate|]. cbn [List.map combine] in E. destruct (H0 d eq_refl) as [Ed|Lt].
    + subst d. assert (Gc : grid_increasing (List.map fst ((t0, exp v0) :: combine ds (List.map exp I)))) by (cbn [List.map fst]; rewrite map_fst_combine by (cbn in Lm; injection Lm as ->; rewrite !map_length in *; reflexivity); exact G).
      destruct (twice_the_start _ _ _ _ _ _ _ Gc E) as (cv' & N' & Same). split; [|intros X; destruct X; left; reflexivity].
      intros k t v T V.
      assert (Kn : nth_error ((t0, exp v0) :: combine ds (List.map exp I)) k = Some (t, exp v)) by (change ((t0, exp v0) :: combine ds (List.map exp I)) with (combine (t0 :: ds) (List.map exp (v0 :: I))); apply combine_nth'; [exact T|]; rewrite nth_error_map, V; reflexivity).
      assert (Tx : exists x, taxis c t0 t = Ok x /\ exists x0, taxis c t0 t0 = Ok x0).
      { unfold new_tcurve in N'. rewrite (sorted_grid _ Gc) in N'. destruct (mapM _ _) as [xs|] eqn:M in N'; [|discriminate]. destruct (mapM_nth _ _ _ _ _ M Kn) as (x & _ & X). destruct (mapM_nth _ _ _ 0%nat _ M eq_refl) as (x0 & _ & X0). eauto. }
      destruct Tx as (x & X & x0 & X0). rewrite (Same t x0 x X0 X).
      * apply (tcurve_at_knots _ c t0 cv' Gc N') with (k := k); [|exact Kn]. cbn [List.map fst]. rewrite map_fst_combine by (cbn in Lm; injection Lm as ->; rewrite !map_length in *; reflexivity).
        intros i j u w a b L Hu Hw. apply Ax; [right; exact (nth_error_In _ _ Hu)|right; exact (nth_error_In _ _ Hw)|exact (G i j u w L Hu Hw)].
      * destruct k as [|k]; [cbn in T; injection T as <-; rewrite X in X0; injection X0 as ->; apply Qle_refl|]. apply Qlt_le_weak. apply (Ax t0 t x0 x); [left; reflexivity|right; exact (nth_error_In _ _ T)| |exact X0|exact X]. apply (G 0%nat (S k) t0 t); [lia|reflexivity|exact T].
    + assert (Gs : grid_increasing (t0 :: d :: ds)).
      { intros i j u w L Hu Hw. destruct j as [|j]; [lia|]. cbn in Hw. destruct i as [|i]; [|exact (G i j u w ltac:(lia) Hu Hw)]. cbn in Hu. injection Hu as <-. destruct j as [|j]; [cbn in Hw; injection Hw as <-; exact Lt|].
        pose proof (G 0%nat (S j) d w ltac:(lia) eq_refl Hw). lia. }
      assert (Fs : List.map fst ((t0, 1%R) :: (d, exp v0) :: combine ds (List.map exp I)) = t0 :: d :: ds) by (cbn [List.map fst]; rewrite map_fst_combine by (cbn in Lm; injection Lm as ->; rewrite !map_length in *; reflexivity); reflexivity).
      assert (At : forall k t v, nth_error ((t0, 1%R) :: (d, exp v0) :: combine ds (List.map exp I)) k = Some (t, v) -> tcurve_call cv t = Ok v).
      { apply (tcurve_at_knots _ c t0 cv); rewrite ?Fs; [exact Gs|exact E|]. intros i j u w a b L Hu Hw. apply Ax; [exact (nth_error_In _ _ Hu)|exact (nth_error_In _ _ Hw)|exact (Gs i j u w L Hu Hw)]. }
      split; [|intros _; apply (At 0%nat); reflexivity]. intros k t v T V. apply (At (S k)). cbn [nth_error].
      change ((d, exp v0) :: combine ds (List.map exp I)) with (combine (d :: ds) (List.map exp (v0 :: I))). apply combine_nth'; [exact T|]. rewrite nth_error_map, V. reflexivity.
Qed.
Print Assumptions C52_accrual_values.

(** Everything needs a path first; set_dt discards the model's path and caches but the model still answers from the
    underlying process's old path. *)
Theorem C52_set_dt : forall s dt l x, sr_call (sr_set_dt s dt) x = sr_call s x /\
  snd (sr_generate_integrated (sr_set_dt s dt) l) = Err ValueError /\ snd (sr_create_discount (sr_set_dt s dt) l) = Err ValueError /\ sr_accrual_curve (sr_set_dt s dt) l = Err ValueError.
Proof. intros. repeat split; reflexivity. Qed.
Print Assumptions C52_set_dt.

(** ---- concrete cases: a rate that never moves, on the grid of four days of 2024 ---- *)
Definition flat : list drift_diffusion := [DriftDiffusion (fun _ _ => 0%R) (fun _ _ _ => 0%R)].
Definition flat_rate : short_rate := new_short_rate (fun v => v 0%nat) (new_process flat bm_2024 one_day).
(** the caller's starting arrays: 3 at address 0, 5 at address 1 *)
Definition two_starts : arrays := Arrays (fun a _ => if Nat.eqb a 0 then 3%R else 5%R) 2.

Lemma incs_2024 b : bm_start b = t_day 0 -> bm_end b = t_day 4 -> bm_dcc b = ACT360 ->
  generate_increments b one_day ones = (set_dts (set_times b days_2024) [q1; q1; q1; q1], Ok (columns_from b ones 0 [q1; q1; q1; q1], [q1; q1; q1; q1])).
Proof.
  intros E1 E2 E3. unfold generate_increments. rewrite E1, E2, E3, days_2024_ok.
  change (nth_error days_2024 (List.length days_2024 - 1)) with (Some (t_day 4)). change (dt_ltb (t_day 4) (t_day 4)) with false. cbv iota.
  replace (mapM _ (pairwise days_2024)) with (@Ok (list Q) [q1; q1; q1; q1]) by (vm_compute; reflexivity). reflexivity.
Qed.

Lemma euler_fresh n c st : forall h cur t h' so, euler n c h cur t st = (h', so) -> fresh h' = fresh h.
Proof.
  induction st as [|[a b] st IH]; intros h cur t h' so; cbn [euler]; [intros X; apply (f_equal fst) in X; cbn in X; rewrite <- X; reflexivity|].
  destruct (euler _ _ _ _ _ _) as [h3 so3] eqn:E. intros X. apply (f_equal fst) in X. cbn in X. rewrite <- X, (IH _ _ _ _ _ E). reflexivity.
Qed.
(** generating from any state of such a model: all rates equal the start *)
Lemma flat_generate s h start : pr_coll (sr_proc s) = flat -> pr_dt (sr_proc s) = one_day -> sr_f s = (fun v => v 0%nat) -> bm_start (sr_bm s) = t_day 0 -> bm_end (sr_bm s) = t_day 4 -> bm_dcc (sr_bm s) = ACT360 ->
  (start < fresh h)%nat -> exists s' h', sr_generate_path s h start true ones = (s', h', Ok tt) /\ (forall a, (a < fresh h)%nat -> arr h' a = arr h a) /\ (fresh h <= fresh h')%nat /\
    sr_path s' <> None /\ sr_int s' = sr_int s /\ sr_dt s' = sr_dt s /\ sr_f s' = sr_f s /\ pr_coll (sr_proc s') = flat /\ pr_dt (sr_proc s') = one_day /\ bm_start (sr_bm s') = t_day 0 /\ bm_end (sr_bm s') = t_day 4 /\ bm_dcc (sr_bm s') = ACT360 /\
    (forall t, In t days_2024 -> sr_call s' t = Ok (arr h start 0%nat)).
Proof.
  intros Ec Ed Ef E1 E2 E3 St. unfold sr_bm in *.
  destruct (pr_generate_path (sr_proc s) h start true ones) as [[p h1] r] eqn:G.
  assert (G' := G). unfold pr_generate_path in G'. rewrite Ed, (incs_2024 _ E1 E2 E3) in G'. destruct (alloc h (arr h start)) as [cur h0] eqn:Al. destruct (euler _ _ _ _ _ _) as [h2 sol] eqn:Eu. cbn [pr_path] in G'.
  injection G' as <- <- <-.
  assert (Fw : forward (pr_dt (sr_proc s))) by (rewrite Ed; reflexivity).
  assert (Os : datetime_ok (bm_start (pr_bm (sr_proc s)))) by (rewrite E1; apply (day_ok 0); lia).
  assert (Oe : datetime_ok (bm_end (pr_bm (sr_proc s)))) by (rewrite E2; apply (day_ok 4); lia).
  assert (L : dt_abs (bm_start (pr_bm (sr_proc s))) <= dt_abs (bm_end (pr_bm (sr_proc s)))) by (rewrite E1, E2; apply Z.leb_le; vm_compute; reflexivity).
  destruct (C50_euler _ _ _ _ _ _ _ _ Fw Os Oe L St G) as (g & dts & incs & b' & Gi & T & TG & Ls & Lg & S0 & Sk & Fr & Pp & _).
  destruct (C50_evaluation _ _ _ _ _ _ _ Fw Os Oe L St G) as (g' & T' & _ & _ & Hc & _). rewrite T in T'. injection T' as <-. cbn [pr_bm bm_times set_dts set_times] in T. injection T as <-.
  assert (Eq : forall k v, nth_error sol k = Some v -> v 0%nat = arr h start 0%nat).
  { induction k as [|k IH]; intros v V; [rewrite S0 in V; injection V as <-; reflexivity|].
    assert (Kl : (S k < List.length sol)%nat) by (apply nth_error_Some; congruence). destruct (C48_grid _ _ _ _ _ _ Fw Os Oe L Gi) as (_ & _ & _ & _ & _ & _ & Li & _).
    destruct (nth_error dts k) as [q|] eqn:Q; [|apply nth_error_None in Q; lia]. destruct (nth_error incs k) as [sh|] eqn:Sh; [|apply nth_error_None in Sh; lia].
    destruct (nth_error sol k) as [w|] eqn:W; [|apply nth_error_None in W; lia].
    rewrite (Sk k q sh w v 0%nat (DriftDiffusion (fun _ _ => 0%R) (fun _ _ _ => 0%R)) Q Sh W V) by (rewrite Ec; reflexivity). cbn [dd_drift dd_diffusion]. rewrite sumn_zero by (intros; lra). rewrite (IH w eq_refl). lra. }
  set (p := Process (pr_coll (sr_proc s)) (set_dts (set_times (pr_bm (sr_proc s)) days_2024) [q1; q1; q1; q1]) one_day (Some sol)) in *.
  eexists _, h2. split; [unfold sr_generate_path; rewrite G; cbn [pr_path p]; reflexivity|]. split; [exact Fr|]. split.
  { unfold alloc in Al. injection Al as <- <-. rewrite (euler_fresh _ _ _ _ _ _ _ _ Eu). cbn. lia. }
  split; [discriminate|]. split; [reflexivity|]. split; [reflexivity|]. split; [reflexivity|]. split; [exact Ec|]. split; [reflexivity|]. split; [exact E1|]. split; [exact E2|]. split; [exact E3|].
  intros t I. apply In_nth_error in I. destruct I as [k K]. assert (Kl : (k < List.length days_2024)%nat) by (apply nth_error_Some; congruence).
  destruct (nth_error sol k) as [v|] eqn:V; [|apply nth_error_None in V; lia]. unfold sr_call. cbn [sr_proc sr_f]. rewrite (Hc k t v K V). cbn [bind]. rewrite Ef, (Eq k v V). reflexivity.
Qed.

Lemma accrual_day k : 0 <= k <= 4 -> exists T, compute_accrual_length (Stamp (t_day 0)) (Stamp (t_day k)) ACT360 = Ok T /\ Q2R T = (IZR k / 360)%R.
Proof.
  intros K. assert (E : match compute_accrual_length (Stamp (t_day 0)) (Stamp (t_day k)) ACT360 with Ok z => Qeq_bool z (k # 360) | Err _ => false end = true ->
    exists T, compute_accrual_length (Stamp (t_day 0)) (Stamp (t_day k)) ACT360 = Ok T /\ Q2R T = (IZR k / 360)%R).
  { intros H. destruct (compute_accrual_length _ _ _) as [z|]; [|discriminate]. apply Qeq_bool_iff in H. exists z. split; [reflexivity|]. rewrite (Qeq_eqR _ _ H). unfold Q2R. cbn. lra. }
  assert (C : k = 0 \/ k = 1 \/ k = 2 \/ k = 3 \/ k = 4) by lia. destruct C as [-> | [-> | [-> | [-> | ->]]]]; apply E; vm_compute; reflexivity.
Qed.

Lemma integral_total s ds : (forall t, In t ds -> (exists r, sr_call s t = Ok r) /\ exists T, compute_accrual_length (Stamp (bm_start (sr_bm s))) (Stamp t) (bm_dcc (sr_bm s)) = Ok T) ->
  forall run, exists I, integral_loop s 0 run (pairwise ds) = Ok I.
Proof.
  induction ds as [|t ds IH]; intros H run; [eexists; reflexivity|]. destruct ds as [|u ds]; [eexists; reflexivity|].
  change (pairwise (t :: u :: ds)) with ((t, u) :: pairwise (u :: ds)). cbn [integral_loop]. destruct (H t (or_introl eq_refl)) as [[a ->] _]. destruct (H u (or_intror (or_introl eq_refl))) as [[b ->] [T ->]]. cbn [bind].
  destruct (IH (fun x I => H x (or_intror I)) (run + trapezoid a b (Q2R T - 0))%R) as [I ->]. eexists. reflexivity.
Qed.

Lemma days_in t : In t days_2024 -> exists k, 0 <= k <= 4 /\ t = t_day k.
Proof. unfold days_2024. cbn [In]. intros [<- | [<- | [<- | [<- | [<- | []]]]]]; [exists 0|exists 1|exists 2|exists 3|exists 4]; split; auto; lia. Qed.
Lemma days_increasing : grid_increasing days_2024.
Proof.
  assert (D : forall j t, nth_error days_2024 j = Some t -> t = t_day (Z.of_nat j)).
  { intros [|[|[|[|[|j]]]]] t H; try (cbn in H; change (t = t_day 0) || change (t = t_day 1) || change (t = t_day 2) || change (t = t_day 3) || change (t = t_day 4); congruence). assert (nth_error days_2024 (S (S (S (S (S j))))) <> None) by congruence. apply nth_error_Some in H0. change (List.length days_2024) with 5%nat in H0. lia. }
  intros i j s t L Hs Ht. rewrite (D _ _ Hs), (D _ _ Ht). unfold dt_abs, t_day, us_per_day. cbn [dt_date dt_us]. lia.
Qed.

(** the states of the history used below: generate from 3, discount, generate from 5, discount *)
Lemma flat_discount s r : sr_path s <> None -> sr_int s = None -> sr_dt s = one_day -> bm_start (sr_bm s) = t_day 0 -> bm_end (sr_bm s) = t_day 4 -> bm_dcc (sr_bm s) = ACT360 -> (forall t, In t days_2024 -> sr_call s t = Ok r) ->
  sr_datetimes s None = Ok days_2024 /\ (exists s' I, sr_generate_integrated s None = (s', Ok I)) /\ exists s' cv, sr_create_discount s None = (s', Ok cv) /\ sr_proc s' = sr_proc s /\ sr_f s' = sr_f s.
Proof.
  intros P N Ed E1 E2 E3 C. assert (D : sr_datetimes s None = Ok days_2024) by (unfold sr_datetimes; rewrite E1, E2, Ed; exact days_2024_ok). split; [exact D|].
  destruct (integral_total s days_2024) with (run := 0%R) as [I HI].
  { intros t H. split; [eexists; apply C, H|]. destruct (days_in t H) as (k & K & ->). rewrite E1, E3. destruct (accrual_day k K) as (T & -> & _). eauto. }
  split.
  - unfold sr_generate_integrated. destruct (sr_path s); [|contradiction]. rewrite D. cbn [bind]. rewrite HI. cbn [bind]. eauto.
  - unfold sr_create_discount. rewrite D, N. unfold sr_generate_integrated. destruct (sr_path s); [|contradiction]. cbn [sr_datetimes bind]. rewrite HI. cbn [bind]. unfold sr_bm in *. cbn [sr_proc]. rewrite E1, E3.
    assert (Lm : List.length days_2024 = List.length (List.map (fun x => exp (- x)) (0%R :: I))). { rewrite map_length. destruct (integral_loop_spec s days_2024 0%R I HI) as [Ln _]. cbn [List.length] in *. rewrite Ln. reflexivity. }
    assert (Nt : exists cv, new_tcurve (combine days_2024 (List.map (fun x => exp (- x)) (0%R :: I))) ACT360 (t_day 0) = Ok cv).
    { unfold new_tcurve. rewrite sorted_grid by (rewrite map_fst_combine by exact Lm; exact days_increasing).
      destruct (mapM _ _) as [xs|e] eqn:M; [cbn [bind]; eauto|]. apply mapM_err in M. destruct M as (a & Ia & Ea). exfalso. assert (Ia' : In (fst a) days_2024) by (rewrite <- (map_fst_combine days_2024 _ Lm); apply in_map, Ia).
      destruct (days_in _ Ia') as (k & K & Ek). destruct (accrual_day k K) as (T & HT & _). unfold taxis in Ea. rewrite Ek, HT in Ea. discriminate. }
    destruct Nt as [cv ->]. eexists _, cv. split; [reflexivity|]. auto.
Qed.

(** A rate constantly 3: after two days the integral is 9/360, not 3 * 2/360. *)
Theorem C52_integral_refuted : exists s s1 s2 h1 I v T, sr_generate_path s two_starts 0 true ones = (s1, h1, Ok tt) /\ sr_generate_integrated s1 None = (s2, Ok I) /\
  (forall t, In t days_2024 -> sr_call s1 t = Ok 3%R) /\ sr_datetimes s1 None = Ok days_2024 /\ nth_error I 2 = Some v /\
  compute_accrual_length (Stamp (t_day 0)) (Stamp (t_day 2)) ACT360 = Ok T /\ v = (9 / 360)%R /\ (3 * Q2R T)%R = (6 / 360)%R.
Proof.
  destruct (flat_generate flat_rate two_starts 0) as (s1 & h1 & G & Fr & Fh & P & In & Ed & Ef & Ec & Ep & E1 & E2 & E3 & C); try reflexivity; [cbn; lia|].
  change (arr two_starts 0%nat 0%nat) with 3%R in C. destruct (flat_discount s1 3%R P In Ed E1 E2 E3 C) as (D & (s2 & I & HI) & _).
  destruct (C52_constant_rate s1 None days_2024 s2 I 3%R D ltac:(discriminate) HI) as (K & _); [intros t v J E; rewrite (C t J) in E; congruence|].
  destruct (C52_integral s1 None days_2024 s2 I D ltac:(discriminate) HI) as (Ln & _). destruct (nth_error I 2) as [v|] eqn:V; [|apply nth_error_None in V; change (List.length days_2024) with 5%nat in Ln; lia].
  destruct (accrual_day 1 ltac:(lia)) as (T1 & HT1 & V1). destruct (accrual_day 2 ltac:(lia)) as (T2 & HT2 & V2).
  exists flat_rate, s1, s2, h1, I, v, T2. split; [exact G|]. split; [exact HI|]. split; [exact C|]. split; [exact D|]. split; [exact V|]. split; [exact HT2|]. split; [|rewrite V2; lra].
  rewrite (K _ _ V), E1, E3. cbn [accruals_to]. change (nth_error days_2024 1) with (Some (t_day 1)). change (nth_error days_2024 2) with (Some (t_day 2)). cbv iota. rewrite HT1, HT2, V1, V2. lra.
Qed.
Print Assumptions C52_integral_refuted.

(** Generate from 3, build the discount curve, generate again from 5: all rates are now 5 but the discount curve built next
    is that of the rates 3. *)
Theorem C52_stale_refuted : exists s s1 h1 s2 cv s3 h3, sr_generate_path s two_starts 0 true ones = (s1, h1, Ok tt) /\ sr_create_discount s1 None = (s2, Ok cv) /\
  sr_generate_path s2 h1 1 true ones = (s3, h3, Ok tt) /\ (forall t, In t days_2024 -> sr_call s1 t = Ok 3%R /\ sr_call s3 t = Ok 5%R) /\ snd (sr_create_discount s3 None) = Ok cv.
Proof.
  destruct (flat_generate flat_rate two_starts 0) as (s1 & h1 & G & Fr & Fh & P & In & Ed & Ef & Ec & Ep & E1 & E2 & E3 & C); try reflexivity; [cbn; lia|].
  change (arr two_starts 0%nat 0%nat) with 3%R in C. destruct (flat_discount s1 3%R P In Ed E1 E2 E3 C) as (D & _ & (s2 & cv & Hd & Pr & Pf)).
  destruct (flat_generate s2 h1 1) as (s3 & h3 & G3 & _ & _ & _ & _ & _ & _ & _ & _ & _ & _ & _ & C3); unfold sr_bm; rewrite ?Pr, ?Pf; auto; try exact Ef.
  rewrite Fr in C3 by (cbn; lia). change (arr two_starts 1%nat 0%nat) with 5%R in C3.
  exists flat_rate, s1, h1, s2, cv, s3, h3. split; [exact G|]. split; [exact Hd|]. split; [exact G3|]. split; [intros t I; auto|].
  pose proof (C52_stale_discount s1 None s2 cv h1 [(1%nat, true, ones)] Hd) as H. cbn [regenerate] in H. rewrite G3 in H. exact H.
Qed.
Print Assumptions C52_stale_refuted.

(** the hypotheses of C52_discount on that model *)
Example C52_case : exists s s' cv, sr_int s = None /\ sr_datetimes s None = Ok days_2024 /\ grid_increasing days_2024 /\ sr_create_discount s None = (s', Ok cv) /\
  (forall i j t u x y, (i < j)%nat -> nth_error days_2024 i = Some t -> nth_error days_2024 j = Some u -> taxis (bm_dcc (sr_bm s)) (bm_start (sr_bm s)) t = Ok x -> taxis (bm_dcc (sr_bm s)) (bm_start (sr_bm s)) u = Ok y -> (x < y)%Q).
Proof.
  destruct (flat_generate flat_rate two_starts 0) as (s1 & h1 & G & Fr & Fh & P & In & Ed & Ef & Ec & Ep & E1 & E2 & E3 & C); try reflexivity; [cbn; lia|].
  destruct (flat_discount s1 _ P In Ed E1 E2 E3 C) as (D & _ & (s2 & cv & Hd & _)). exists s1, s2, cv. split; [exact In|]. split; [exact D|]. split; [exact days_increasing|]. split; [exact Hd|].
  intros i j t u x y L Ht Hu. rewrite E1, E3. pose proof (days_increasing i j t u L Ht Hu). destruct (days_in t (nth_error_In _ _ Ht)) as (k & K & ->). destruct (days_in u (nth_error_In _ _ Hu)) as (m & M & ->).
  destruct (day_ok 0 ltac:(lia)) as (O0 & L0 & _). destruct (day_ok k K) as (Ok' & Lk & _). destruct (day_ok m M) as (Om & Lm & _).
  apply (taxis_increasing ACT360 360%Q); auto; [left; reflexivity|]. unfold dt_abs, t_day, us_per_day. cbn [dt_date dt_us]. lia.
Qed.

(** ---- the default grid ---- *)
Lemma duration_grid n : forall t e u g, 0 < u -> dt_grid_loop n true t e (StepTimedelta u) = Ok g ->
  forall k, (nth_error g k <> None <-> (k < n)%nat /\ dt_abs t + Z.of_nat k * u <= dt_abs e) /\ (forall x, nth_error g k = Some x -> dt_abs x = dt_abs t + Z.of_nat k * u).
Proof.
  induction n as [|n IH]; intros t e u g U; cbn [dt_grid_loop].
  - intros [= <-] k. split; [split; [destruct k; cbn; congruence|lia]|destruct k; discriminate].
  - unfold dt_leb. destruct (dt_abs t <=? dt_abs e) eqn:C.
    + cbn [add_step]. destruct (add_us t u) as [t'|] eqn:A; cbn [bind]; [|discriminate]. destruct (dt_grid_loop n true t' e (StepTimedelta u)) as [r|] eqn:G; cbn [bind]; [|discriminate]. intros [= <-].
      assert (At : dt_abs t' = dt_abs t + u).
      { unfold add_us in A. destruct (_ && _); [|discriminate]. injection A as <-. change (dt_abs (DT ((dt_abs t + u) / us_per_day) ((dt_abs t + u) mod us_per_day))) with ((dt_abs t + u) / us_per_day * us_per_day + (dt_abs t + u) mod us_per_day). pose proof (Z.div_mod (dt_abs t + u) us_per_day ltac:(discriminate)). lia. }
      intros [|k]; cbn [nth_error].
      * split; [split; [intros _; lia|discriminate]|intros x [= <-]; lia].
      * destruct (IH t' e u r U G k) as [I1 I2]. rewrite At in I1, I2. split.
        -- rewrite I1. rewrite Nat2Z.inj_succ. split; intros [H1 H2]; split; lia.
        -- intros x X. rewrite (I2 x X), Nat2Z.inj_succ. lia.
    + intros [= <-] k. split; [split; [destruct k; cbn; congruence|]|destruct k; discriminate].
      intros [_ H]. exfalso. assert (0 <= Z.of_nat k * u) by (apply Z.mul_nonneg_nonneg; lia). lia.
Qed.
(** Without a list of dates the model integrates over start, start + dt, start + 2 dt, ... up to the end, at most 1,000,001
    of them. *)
Theorem C52_default_grid : forall s u ds, sr_dt s = StepTimedelta u -> 0 < u -> sr_datetimes s None = Ok ds ->
  forall k, (nth_error ds k <> None <-> Z.of_nat k <= 1000000 /\ dt_abs (bm_start (sr_bm s)) + Z.of_nat k * u <= dt_abs (bm_end (sr_bm s))) /\
            (forall x, nth_error ds k = Some x -> dt_abs x = dt_abs (bm_start (sr_bm s)) + Z.of_nat k * u).
Proof.
  intros s u ds D U. unfold sr_datetimes, generate_datetimes. rewrite D. cbn [step_positive bind]. replace (0 <=? u) with true by lia. intros G k.
  destruct (duration_grid _ _ _ _ _ U G k) as [A B]. split; [|exact B]. rewrite A. split; intros [H1 H2]; split; lia.
Qed.
Print Assumptions C52_default_grid.

(** the hypotheses of C52_accrual_values on that model: after one day at the rate 3 the account is worth exp(3/360) *)
Example C52_accrual_case : exists s1 h1 s2 I cv, sr_generate_path flat_rate two_starts 0 true ones = (s1, h1, Ok tt) /\ sr_generate_integrated s1 None = (s2, Ok I) /\
  sr_accrual_curve s2 None = Ok cv /\ tcurve_call cv (t_day 0) = Ok 1%R /\ tcurve_call cv (t_day 1) = Ok (exp (3 / 360)).
Proof.
  destruct (flat_generate flat_rate two_starts 0) as (s1 & h1 & G & Fr & Fh & P & In_ & Ed & Ef & Ec & Ep & E1 & E2 & E3 & C); try reflexivity; [cbn; lia|].
  change (arr two_starts 0%nat 0%nat) with 3%R in C. destruct (flat_discount s1 3%R P In_ Ed E1 E2 E3 C) as (D & (s2 & I & HI) & _).
  destruct (C52_constant_rate s1 None days_2024 s2 I 3%R D ltac:(discriminate) HI) as (K & _); [intros t v J E; rewrite (C t J) in E; congruence|].
  destruct (C52_integral s1 None days_2024 s2 I D ltac:(discriminate) HI) as (Ln & I0 & _ & S1 & S2 & S3 & S4).
  assert (D2 : sr_datetimes s2 None = Ok days_2024).
  { unfold sr_generate_integrated in HI. destruct (sr_path s1); [|contradiction]. destruct (do ds <- sr_datetimes s1 None; _) as [r|]; [|discriminate]. injection HI as <- <-. exact D. }
  assert (B1 : bm_start (sr_bm s2) = t_day 0) by (unfold sr_bm in *; rewrite S3; exact E1). assert (B3 : bm_dcc (sr_bm s2) = ACT360) by (unfold sr_bm in *; rewrite S3; exact E3).
  assert (Cv : exists cv, sr_accrual_curve s2 None = Ok cv).
  { unfold sr_accrual_curve. assert (P2 : sr_path s2 <> None) by (unfold sr_generate_integrated in HI; destruct (sr_path s1) as [q|] eqn:Q; [|contradiction]; destruct (do ds <- sr_datetimes s1 None; _); [|discriminate]; injection HI as <- <-; cbn; discriminate).
    destruct (sr_path s2); [|contradiction]. rewrite D2, S1, B1, B3. cbn [bind]. assert (Lm : List.length days_2024 = List.length (List.map exp I)) by (rewrite map_length; symmetry; exact Ln).
    unfold new_tcurve. destruct (mapM _ _) as [xs|e] eqn:M; [cbn [bind]; eauto|]. apply mapM_err in M. destruct M as (a & Ia & Ea). exfalso.
    assert (Ia' : In (fst a) days_2024).
    { apply (Permutation.Permutation_in _ (sort_by_perm _ _)) in Ia. destruct Ia as [<-|Ia]; [left; reflexivity|]. rewrite <- (map_fst_combine days_2024 _ Lm). apply in_map, Ia. }
    destruct (days_in _ Ia') as (k & Hk & Ek). destruct (accrual_day k Hk) as (T & HT & _). unfold taxis in Ea. rewrite Ek, HT in Ea. discriminate. }
  destruct Cv as [cv Cv]. exists s1, h1, s2, I, cv. split; [exact G|]. split; [exact HI|]. split; [exact Cv|].
  destruct (C52_accrual_values s2 None days_2024 I cv S1 D2 (eq_sym Ln) days_increasing) as (V & _); rewrite ?B1, ?B3; [intros t [= <-]; left; reflexivity| |exact Cv|].
  - intros t u x y It Iu L X Y. assert (Dt : exists k, 0 <= k <= 4 /\ t = t_day k) by (destruct It as [<-|It]; [exists 0; split; [lia|reflexivity]|exact (days_in _ It)]). assert (Du : exists k, 0 <= k <= 4 /\ u = t_day k) by (destruct Iu as [<-|Iu]; [exists 0; split; [lia|reflexivity]|exact (days_in _ Iu)]).
    destruct Dt as (i & Hi & ->), Du as (j & Hj & ->). destruct (accrual_day i Hi) as (Ti & HTi & Vi). destruct (accrual_day j Hj) as (Tj & HTj & Vj). unfold taxis in X, Y. rewrite HTi in X. rewrite HTj in Y. injection X as <-. injection Y as <-. apply Rlt_Qlt. rewrite Vi, Vj.
    assert (i < j) by (unfold dt_abs, t_day, us_per_day in L; cbn [dt_date dt_us] in L; lia). apply Rmult_lt_compat_r; [lra|]. apply IZR_lt. assumption.
  - destruct (nth_error I 1) as [v|] eqn:V1; [|apply nth_error_None in V1; change (List.length days_2024) with 5%nat in Ln; lia]. split.
    + rewrite (V 0%nat (t_day 0) 0%R eq_refl I0), exp_0. reflexivity.
    + rewrite (V 1%nat (t_day 1) v eq_refl V1). f_equal. f_equal. rewrite (K _ _ V1), E1, E3. cbn [accruals_to]. change (nth_error days_2024 1) with (Some (t_day 1)). cbv iota. destruct (accrual_day 1 ltac:(lia)) as (T1 & HT1 & W1). rewrite HT1, W1. lra.
Qed.
