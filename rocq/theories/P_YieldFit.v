(** Property theorems C72 (yield curve fitted to all instruments at once). *)
From Verif Require Import Base PyDate PyDateFacts DayCount DayCountFacts PyList KeyRate KeyRateFacts P_KeyRate Curve CurveFacts P_Curve Holidays Scheduler Cashflow CashflowFacts P_Yield Bond YieldFactory P_YieldFactory.
From Verif Require P_Bond P_BondYield P_Cashflow.
From Coq Require Import Sorting.Sorted Permutation Lra Lqa.
Open Scope Z_scope.
Ltac lra := first [Lra.lra | Lqa.lra].

(** ---- specification ---- *)
(** the continuously compounded yield curve newly built with the given values at the instruments' knot dates *)
Definition curve_with (l : list quoted) (m : interp_method) (ref : date) (xs : list R) : res ycurve :=
  new_yield_curve (combine (List.map q_date l) xs) m ACTACT CONTINUOUSLY_COMPOUNDED_YIELD ref CONSTANT CONSTANT.
(** the errors value - price that curve makes, instrument by instrument *)
Definition pricing_errors spline (l : list quoted) (m : interp_method) (ref : date) (xs : list R) : res (list R) :=
  do y <- curve_with l m ref xs; mapM (fun q => do v <- value_on spline y q; Ok (v - q_price q)%R) l.
(** a run of a root finder on a function without side effects: the points asked with their answers, and the point returned *)
Inductive conversation {X Y} (f : X -> res Y) : solver X Y -> list (X * Y) -> X -> Prop :=
| conv_done x : conversation f (Done x) [] x
| conv_ask x k y t r : f x = Ok y -> conversation f (k y) t r -> conversation f (Ask x k) ((x, y) :: t) r.
(** two yield curves no call can tell apart: same yields, same present values, same discount curves *)
Definition same_curve spline (y y' : ycurve) : Prop :=
  (forall d a, interpolate spline (y_curve y) d a = interpolate spline (y_curve y') d a) /\
  (forall i a, snd (yc_present_value spline y i a) = snd (yc_present_value spline y' i a)) /\
  (forall a, snd (to_discount_curve spline y a) = snd (to_discount_curve spline y' a)).

(** ---- the curve during construction ---- *)
Lemma knot_values_combine l : forall xs, knot_values l xs = combine (List.map q_date l) xs.
Proof. unfold knot_values. induction l as [|q l IH]; intros [|x xs]; try reflexivity. cbn [combine List.map]. rewrite IH. reflexivity. Qed.

Definition under_way (m : interp_method) (ref : date) (y : ycurve) : Prop :=
  cache_ok y /\ y_space y = CONTINUOUSLY_COMPOUNDED_YIELD /\ c_method (y_curve y) = m /\ c_dcc (y_curve y) = ACTACT /\
  c_ref (y_curve y) = ref /\ c_left (y_curve y) = CONSTANT /\ c_right (y_curve y) = CONSTANT.

Lemma new_under_way kvs m ref y : new_yield_curve kvs m ACTACT CONTINUOUSLY_COMPOUNDED_YIELD ref CONSTANT CONSTANT = Ok y -> under_way m ref y.
Proof.
  intros H. apply new_yc_cache in H. destruct H as (C & S & N & _). apply new_curve_ok in N. destruct N as (_ & M & D & L & R' & Rf & _).
  unfold under_way. auto 10.
Qed.
Lemma reset_under_way kvs m ref y : under_way m ref y -> under_way m ref (fst (yc_reset kvs y)).
Proof.
  intros (C & S & M & D & Rf & L & R'). unfold yc_reset. pose proof (reset_keeps kvs (y_curve y)) as (A1 & A2 & A3 & A4 & A5).
  destruct (reset_interpolation_values kvs (y_curve y)) as [cv r]. cbn [fst] in *. unfold under_way. cbn [y_curve y_space].
  split; [|repeat split; congruence]. intros dc E. cbn [y_dc] in E. destruct (C dc E) as (X1 & X2 & X3 & X4 & X5). cbn [y_curve y_space].
  split; [|repeat split; congruence]. rewrite X1. unfold discount_method. rewrite A1. reflexivity.
Qed.
Lemma reset_is_new kvs m ref y : under_way m ref y ->
  snd (yc_reset kvs y) = (do _ <- new_yield_curve kvs m ACTACT CONTINUOUSLY_COMPOUNDED_YIELD ref CONSTANT CONSTANT; Ok tt) /\
  forall y', new_yield_curve kvs m ACTACT CONTINUOUSLY_COMPOUNDED_YIELD ref CONSTANT CONSTANT = Ok y' -> y_curve (fst (yc_reset kvs y)) = y_curve y'.
Proof.
  intros (C & S & M & D & Rf & L & R'). unfold yc_reset, reset_interpolation_values, new_yield_curve, new_curve. cbn [bind]. rewrite M, D, Rf, L, R'.
  destruct (create_points m ACTACT ref (sort_by fst kvs)); cbn; split; try reflexivity; intros y' [= <-]; reflexivity.
Qed.
Lemma value_same spline y y' : cache_ok y -> cache_ok y' -> y_curve y = y_curve y' -> y_space y = y_space y' -> same_curve spline y y'.
Proof.
  intros C C' E S. assert (F : fresh y = fresh y') by (unfold fresh; congruence). split; [intros; rewrite E; reflexivity|]. split.
  - intros i a. rewrite (proj1 (pv_fresh spline y i a C)), (proj1 (pv_fresh spline y' i a C')), F. reflexivity.
  - intros a. rewrite (proj1 (to_dc_fresh spline y a C)), (proj1 (to_dc_fresh spline y' a C')), F. reflexivity.
Qed.
Lemma present_values_spec spline l : forall y, cache_ok y ->
  snd (present_values spline l y) = mapM (value_on spline y) l /\
  y_curve (fst (present_values spline l y)) = y_curve y /\ y_space (fst (present_values spline l y)) = y_space y /\ cache_ok (fst (present_values spline l y)).
Proof.
  induction l as [|q l IH]; intros y C; [cbn; auto|]. cbn [present_values mapM].
  destruct (pv_fresh spline y (q_pv q) None C) as (_ & A & B & D). unfold value_on at 1.
  destruct (yc_present_value spline y (q_pv q) None) as [y1 [v|e]] eqn:E; cbn [fst snd bind] in *; [|auto].
  destruct (IH y1 D) as (I1 & I2 & I3 & I4). destruct (present_values spline l y1) as [y2 r]. cbn [fst snd] in *.
  split; [|split; [congruence|split; [congruence|auto]]]. rewrite I1.
  assert (X : mapM (value_on spline y1) l = mapM (value_on spline y) l).
  { apply mapM_ext. intros q' _. unfold value_on. apply (value_same spline y1 y D C A B). }
  rewrite X. reflexivity.
Qed.
Lemma mapM_minus spline (y : ycurve) l : 
  mapM (fun q => do v <- value_on spline y q; Ok (v - q_price q)%R) l =
  do vs <- mapM (value_on spline y) l; Ok (List.map (fun p => fst p - snd p)%R (combine vs (List.map q_price l))).
Proof.
  induction l as [|q l IH]; [reflexivity|]. cbn [mapM]. destruct (value_on spline y q); cbn [bind]; [|reflexivity]. rewrite IH.
  destruct (mapM (value_on spline y) l); reflexivity.
Qed.
Lemma pv_diffs_spec spline l m ref xs y : under_way m ref y ->
  snd (pv_diffs spline l xs y) = pricing_errors spline l m ref xs /\ under_way m ref (fst (pv_diffs spline l xs y)).
Proof.
  intros U. unfold pv_diffs, pricing_errors, curve_with. rewrite <- knot_values_combine. pose proof (reset_under_way (knot_values l xs) m ref y U) as U1.
  pose proof (reset_is_new (knot_values l xs) m ref y U) as (E & K).
  destruct (yc_reset (knot_values l xs) y) as [y1 r] eqn:R1. cbn [fst snd] in *.
  destruct (new_yield_curve (knot_values l xs) m ACTACT CONTINUOUSLY_COMPOUNDED_YIELD ref CONSTANT CONSTANT) as [y'|e] eqn:N; cbn [bind] in E; subst r; cbn [bind].
  - pose proof U1 as (C1 & S1 & M1 & D1 & F1 & L1 & R1'). destruct (present_values_spec spline l y1 C1) as (P1 & P2 & P3 & P4).
    destruct (present_values spline l y1) as [y2 r2]. cbn [fst snd] in *. split.
    + rewrite P1, mapM_minus. pose proof (new_under_way _ _ _ _ N) as (C' & S' & _).
      assert (X : mapM (value_on spline y1) l = mapM (value_on spline y') l).
      { apply mapM_ext. intros q _. unfold value_on. apply (value_same spline y1 y' C1 C'); [apply (K y' eq_refl) | congruence]. }
      rewrite X. reflexivity.
    + unfold under_way. rewrite P2, P3. auto 10.
  - auto.
Qed.

Lemma run_conversation {X Y St} (f : X -> St -> St * res Y) (g : X -> res Y) (I : St -> Prop) :
  (forall x st, I st -> snd (f x st) = g x /\ I (fst (f x st))) ->
  forall (s : solver X Y) st, I st -> I (fst (run_solver s f st)) /\
    (forall r, snd (run_solver s f st) = Ok r -> exists t, conversation g s t r) /\
    (forall t r, conversation g s t r -> snd (run_solver s f st) = Ok r) /\
    (forall e, snd (run_solver s f st) = Err e -> exists x, g x = Err e).
Proof.
  intros F s. induction s as [x|x k IH]; intros st St0; cbn [run_solver].
  - split; [exact St0|]. split; [intros r [= <-]; exists []; constructor|]. split; [intros t r H; inversion H; reflexivity | discriminate].
  - destruct (F x st St0) as (E & J). destruct (f x st) as [st' [y|e]]; cbn [fst snd] in *.
    + destruct (IH y st' J) as (A & B & C & D). split; [exact A|]. split; [|split].
      * intros r H. destruct (B r H) as (t & Ct). exists ((x, y) :: t). constructor; auto.
      * intros t r H. inversion H; subst. replace y0 with y in * by congruence. eapply C; eauto.
      * exact D.
    + split; [exact J|]. split; [discriminate|]. split; [|intros e' [= ->]; eauto]. intros t r H. inversion H; subst. congruence.
Qed.

(** ---- C72 ---- *)
Lemma initial_combine l : combine (List.map q_date l) (List.map (fun q => snd (q_knot q)) l) = List.map q_knot l.
Proof. induction l as [|q l IH]; [reflexivity|]. cbn [List.map combine]. rewrite IH. unfold q_date. destruct (q_knot q); reflexivity. Qed.
Lemma final_reset spline l m ref xs y : under_way m ref y -> let '(y2, r) := yc_reset (knot_values l xs) y in
  r = (do _ <- curve_with l m ref xs; Ok tt) /\ forall y', curve_with l m ref xs = Ok y' -> same_curve spline y2 y'.
Proof.
  intros U. pose proof (reset_under_way (knot_values l xs) m ref y U) as (C2 & S2 & _). destruct (reset_is_new (knot_values l xs) m ref y U) as (E & K).
  destruct (yc_reset (knot_values l xs) y) as [y2 r]. cbn [fst snd] in *. unfold curve_with. rewrite <- knot_values_combine. split; [exact E|]. intros y' N.
  pose proof (new_under_way _ _ _ _ N) as (C' & S' & _). apply value_same; auto; congruence.
Qed.

(** Whatever the root finder does, the construction is: run it on the errors of newly built curves, then build the curve
    from the point it returns.  The curve object changed on the way leaves no trace. *)
Theorem C72_fit : forall spline s l m ref y, construct_yield_curve spline s l m ref = Ok y ->
  exists t xs y', conversation (pricing_errors spline l m ref) s t xs /\ curve_with l m ref xs = Ok y' /\ same_curve spline y y'.
Proof.
  intros spline s l m ref y H. unfold construct_yield_curve, initial_curve in H.
  destruct (new_yield_curve (List.map q_knot l) m ACTACT CONTINUOUSLY_COMPOUNDED_YIELD ref CONSTANT CONSTANT) as [y0|] eqn:N; [|discriminate]. cbn [bind] in H.
  destruct (run_conversation (pv_diffs spline l) (pricing_errors spline l m ref) (under_way m ref) (fun x st U => pv_diffs_spec spline l m ref x st U) s y0 (new_under_way _ _ _ _ N)) as (U & A & _).
  destruct (run_solver s (pv_diffs spline l) y0) as [y1 [xs|e]]; cbn [fst snd] in *; [|discriminate]. destruct (A xs eq_refl) as (t & Ct).
  pose proof (final_reset spline l m ref xs y1 U) as F. destruct (yc_reset (knot_values l xs) y1) as [y2 r]. destruct F as (E & K).
  destruct (curve_with l m ref xs) as [y'|] eqn:Cw; cbn [bind] in E; subst r; cbn [bind] in H; [|discriminate]. injection H as <-. exists t, xs, y'. split; [exact Ct|]. split; [exact Cw|]. apply K. reflexivity.
Qed.
Print Assumptions C72_fit.
Theorem C72_fit_defined : forall spline s l m ref y0 t xs y', curve_with l m ref (List.map (fun q => snd (q_knot q)) l) = Ok y0 ->
  conversation (pricing_errors spline l m ref) s t xs -> curve_with l m ref xs = Ok y' ->
  exists y, construct_yield_curve spline s l m ref = Ok y /\ same_curve spline y y'.
Proof.
  intros spline s l m ref y0 t xs y' N Ct N'. unfold construct_yield_curve, initial_curve. unfold curve_with in N. rewrite initial_combine in N. rewrite N. cbn [bind].
  destruct (run_conversation (pv_diffs spline l) (pricing_errors spline l m ref) (under_way m ref) (fun x st U => pv_diffs_spec spline l m ref x st U) s y0 (new_under_way _ _ _ _ N)) as (U & _ & A & _).
  specialize (A t xs Ct). destruct (run_solver s (pv_diffs spline l) y0) as [y1 r1]; cbn [fst snd] in *. subst r1.
  pose proof (final_reset spline l m ref xs y1 U) as F. destruct (yc_reset (knot_values l xs) y1) as [y2 r]. destruct F as (E & K).
  rewrite N' in E. cbn [bind] in E. subst r. cbn [bind]. eauto.
Qed.
Print Assumptions C72_fit_defined.

(** Each instrument is valued on the result at its price plus the error the root finder left: exactly at its price if the
    point returned is a root. *)
Theorem C72_errors : forall spline s l m ref y, construct_yield_curve spline s l m ref = Ok y ->
  exists t xs, conversation (pricing_errors spline l m ref) s t xs /\
    forall errs, pricing_errors spline l m ref xs = Ok errs -> Forall2 (fun q e => value_on spline y q = Ok (q_price q + e)%R) l errs.
Proof.
  intros spline s l m ref y H. destruct (C72_fit _ _ _ _ _ _ H) as (t & xs & y' & Ct & N & (_ & Sv & _)). exists t, xs. split; [exact Ct|].
  intros errs E. unfold pricing_errors in E. rewrite N in E. cbn [bind] in E. apply mapM_Forall2 in E. clear -E Sv.
  induction E as [|q e l errs Eq F IH]; constructor; auto. unfold value_on in *. rewrite Sv.
  destruct (snd (yc_present_value spline y' (q_pv q) None)) as [v|]; [|discriminate]. cbn [bind] in Eq. injection Eq as <-. f_equal. lra.
Qed.
Print Assumptions C72_errors.
Theorem C72_root_reprices : forall spline s l m ref y,
  (forall t xs, conversation (pricing_errors spline l m ref) s t xs -> exists errs, pricing_errors spline l m ref xs = Ok errs /\ Forall (fun e => e = 0%R) errs) ->
  construct_yield_curve spline s l m ref = Ok y -> forall q, In q l -> value_on spline y q = Ok (q_price q).
Proof.
  intros spline s l m ref y R' H q I. destruct (C72_errors _ _ _ _ _ _ H) as (t & xs & Ct & K). destruct (R' t xs Ct) as (errs & E & Z0). specialize (K errs E). clear -K Z0 I.
  induction K as [|q' e l errs Eq F IH]; [contradiction|]. inversion Z0; subst. destruct I as [->|I]; [rewrite Eq; f_equal; lra | auto].
Qed.
Print Assumptions C72_root_reprices.

(** The yield at each knot is the number returned for its instrument. *)
Theorem C72_yields : forall spline s l m ref y, m = LINEAR \/ m = PREVIOUS -> construct_yield_curve spline s l m ref = Ok y ->
  NoDup (List.map q_date l) -> countable ACTACT ref -> (forall q, In q l -> countable ACTACT (q_date q)) ->
  exists t xs, conversation (pricing_errors spline l m ref) s t xs /\
    forall i q x, nth_error l i = Some q -> nth_error xs i = Some x -> interpolate spline (y_curve y) (q_date q) None = Ok x.
Proof.
  intros spline s l m ref y M H ND Rf Cn. destruct (C72_fit _ _ _ _ _ _ H) as (t & xs & y' & Ct & N & (Si & _)). exists t, xs. split; [exact Ct|].
  intros i q x Eq Ex. rewrite Si. unfold curve_with in N. apply new_yc_cache in N. destruct N as (_ & _ & N & _).
  assert (Sub : forall d, In d (knots (combine (List.map q_date l) xs)) -> In d (List.map q_date l)).
  { intros d J. unfold knots in J. apply in_map_iff in J. destruct J as ([d' v] & <- & J). apply in_combine_l in J. exact J. }
  eapply C26_reprices_knots; eauto.
  - clear -ND. revert xs. induction l as [|q l IH]; intros xs; [constructor|]. destruct xs as [|x xs]; [constructor|].
    inversion ND; subst. cbn [List.map combine knots]. constructor; [|apply IH; auto].
    intros J. apply in_map_iff in J. destruct J as ([d' v] & E & J). cbn in E. subst d'. apply in_combine_l in J. contradiction.
  - apply C26_actual_separates; [discriminate | |].
    + pose proof (new_curve_ok _ _ _ _ _ _ _ N) as (_ & _ & _ & _ & _ & Er & _). rewrite (Er ref eq_refl). exact Rf.
    + intros d J. apply Sub in J. apply in_map_iff in J. destruct J as (q' & <- & J). auto.
  - clear -Eq Ex. revert l xs Eq Ex. induction i as [|i IH]; intros [|q' l] [|x' xs]; cbn; try discriminate.
    + intros [= ->] [= ->]. left; reflexivity.
    + intros A B. right. apply IH; auto.
Qed.
Print Assumptions C72_yields.

(** ---- concrete fits ---- *)
Lemma zero_value spline kvs m ref r dl y d p : usual kvs m ACTACT ref r dl y -> ref <= d <= dl ->
  exists t v, accrual ACTACT ref d t /\ interpolate spline (y_curve y) d None = Ok v /\
    value_on spline y (quoted_zero spline (new_zero_coupon d p)) = Ok (exp (- (v * Q2R t))).
Proof.
  intros U L. destruct (C29_usual_discount_factors spline kvs m ACTACT ref r dl y [] None U ltac:(intros o []) ltac:(intros; cbn; eauto)) as (dc & E & Er & A).
  destruct (A d L) as (t & v & x & T & Ev & Ex & Ed). injection Ex as <-. rewrite Rplus_0_r in Ed. exists t, v. split; [auto|]. split; [auto|].
  unfold value_on, yc_present_value. cbn [yc_run fold_left] in E. destruct (to_discount_curve spline y None) as [y1 r1]. cbn [snd] in *. subst r1. cbn [bind].
  cbn [quoted_zero q_pv]. rewrite (P_Cashflow.C34_zero_coupon spline dc d p _ Ed), Er. replace (ref <=? d) with true by lia. reflexivity.
Qed.
(** one instrument with its knot 30 days after the reference date: the curve through [x] *)
Lemma one_knot (q : quoted) x : q_date q = 738916 -> exists y, curve_with [q] LINEAR 738886 [x] = Ok y /\ usual [(738916, x)] LINEAR ACTACT 738886 CONSTANT 738916 y.
Proof.
  intros E. unfold curve_with. cbn [List.map combine]. rewrite E. 
  destruct (new_yield_curve [(738916, x)] LINEAR ACTACT CONTINUOUSLY_COMPOUNDED_YIELD 738886 CONSTANT CONSTANT) as [y|e] eqn:N; [|vm_compute in N; discriminate].
  exists y. split; [exact N|]. split; [exact N|]. split; [repeat constructor; intros []|]. split; [left; reflexivity|]. split; [intros z [<-|[]]; cbn; lia|].
  split; [discriminate|]. split; split; try (vm_compute; split; discriminate); vm_compute; discriminate.
Qed.
Lemma one_knot_value spline x p : exists y t, accrual ACTACT 738886 738916 t /\ (0 < t)%Q /\ curve_with [quoted_zero spline (new_zero_coupon 738916 p)] LINEAR 738886 [x] = Ok y /\
  value_on spline y (quoted_zero spline (new_zero_coupon 738916 p)) = Ok (exp (- (x * Q2R t))).
Proof.
  set (q := quoted_zero spline (new_zero_coupon 738916 p)). destruct (one_knot q x eq_refl) as (y & Ey & U).
  destruct (zero_value spline _ _ _ _ _ y 738916 p U ltac:(lia)) as (t & v & T & Ev & V). exists y, t. split; [exact T|]. split.
  { unfold accrual in T. clear -T. vm_compute in T. injection T as <-. reflexivity. }
  split; [exact Ey|]. fold q in V. rewrite V. f_equal. f_equal. f_equal. f_equal.
  destruct U as (H & ND & Il & Ml & N & Rf & Dl). apply new_yc_cache in H. destruct H as (_ & _ & Hn & _).
  assert (X : interpolate spline (y_curve y) 738916 None = Ok x).
  { eapply C26_reprices_knots; [left; reflexivity | exact Hn | exact ND | | left; reflexivity]. apply C26_actual_separates; auto.
    - pose proof (new_curve_ok _ _ _ _ _ _ _ Hn) as (_ & _ & _ & _ & _ & Er & _). rewrite (Er _ eq_refl). exact Rf.
    - intros z [<-|[]]. exact Dl. }
  congruence.
Qed.

(** Non-vacuity: a zero coupon bond quoted at exp(-t/20), t its accrual, and a root finder that first tries 1 and then
    returns the root 1/20: the hypotheses of C72_root_reprices and C72_fit_defined hold. *)
Example C72_case : forall spline, exists t, accrual ACTACT 738886 738916 t /\
  let q := quoted_zero spline (new_zero_coupon 738916 (exp (- (1 / 20 * Q2R t)))) in
  let s := Ask [1%R] (fun _ => Done [(1 / 20)%R]) in
  (forall t xs, conversation (pricing_errors spline [q] LINEAR 738886) s t xs -> exists errs, pricing_errors spline [q] LINEAR 738886 xs = Ok errs /\ Forall (fun e => e = 0%R) errs) /\
  exists y, construct_yield_curve spline s [q] LINEAR 738886 = Ok y /\ value_on spline y q = Ok (q_price q).
Proof.
  intros spline. destruct (one_knot_value spline 1 0) as (_ & t & T & _ & _). exists t. split; [exact T|]. intros q s.
  assert (Er : forall x, exists y, curve_with [q] LINEAR 738886 [x] = Ok y /\ value_on spline y q = Ok (exp (- (x * Q2R t)))).
  { intros x. destruct (one_knot_value spline x (exp (- (1 / 20 * Q2R t)))) as (y & t' & T' & _ & Ey & V). unfold accrual in *. rewrite T in T'. injection T' as <-. eauto. }
  assert (Pe : forall x, pricing_errors spline [q] LINEAR 738886 [x] = Ok [(exp (- (x * Q2R t)) - exp (- (1 / 20 * Q2R t)))%R]).
  { intros x. destruct (Er x) as (y & Ey & V). unfold pricing_errors. rewrite Ey. cbn [bind mapM]. rewrite V. reflexivity. }
  assert (Rt : forall t xs, conversation (pricing_errors spline [q] LINEAR 738886) s t xs -> exists errs, pricing_errors spline [q] LINEAR 738886 xs = Ok errs /\ Forall (fun e => e = 0%R) errs).
  { intros t' xs C. inversion C as [|x k y t2 r E C2]; subst. inversion C2; subst. exists [(exp (- (1 / 20 * Q2R t)) - exp (- (1 / 20 * Q2R t)))%R].
    split; [apply Pe|]. constructor; [lra|constructor]. }
  split; [exact Rt|]. destruct (Er (1 / 20)%R) as (y' & Ey & _). destruct (Er (q_price q)) as (y0 & Ey0 & _).
  destruct (C72_fit_defined spline s [q] LINEAR 738886 y0 [([1%R], [(exp (- (1 * Q2R t)) - exp (- (1 / 20 * Q2R t)))%R])] [(1 / 20)%R] y') as (y & C & _).
  - exact Ey0.
  - econstructor; [apply Pe | constructor].
  - exact Ey.
  - exists y. split; [exact C|]. eapply C72_root_reprices; [exact Rt | exact C | left; reflexivity].
Qed.

(** Nobody checks the answer: with a root finder that gives up at once the construction still returns a curve, here one on
    which a zero coupon bond quoted at 1/2 is worth 1. *)
Theorem C72_unchecked_refuted : forall spline, let q := quoted_zero spline (new_zero_coupon 738916 (1 / 2)) in
  exists s y, construct_yield_curve spline s [q] LINEAR 738886 = Ok y /\ q_price q = (1 / 2)%R /\ value_on spline y q = Ok 1%R.
Proof.
  intros spline q. destruct (one_knot_value spline 0 (1 / 2)) as (y' & t & _ & _ & Ey & V). destruct (one_knot_value spline (1 / 2) (1 / 2)) as (y0 & t0 & _ & _ & Ey0 & _).
  destruct (C72_fit_defined spline (Done [0%R]) [q] LINEAR 738886 y0 [] [0%R] y') as (y & C & (_ & S & _)); [exact Ey0 | constructor | exact Ey |].
  exists (Done [0%R]), y. split; [exact C|]. split; [reflexivity|]. unfold value_on in *. rewrite S. fold q in V. rewrite V. f_equal. rewrite Rmult_0_l, Ropp_0. apply exp_0.
Qed.
Print Assumptions C72_unchecked_refuted.

(** ---- bonds: clean against dirty ---- *)
(** An exact fit makes the discounted payments of a bond equal its clean price, so not the full price the buyer pays unless
    no interest has accrued. *)
Theorem C72_clean_price : forall spline s l m ref y a b q,
  (forall t xs, conversation (pricing_errors spline l m ref) s t xs -> exists errs, pricing_errors spline l m ref xs = Ok errs /\ Forall (fun e => e = 0%R) errs) ->
  construct_yield_curve spline s l m ref = Ok y -> new_bond a = Ok b -> quoted_bond spline b = Ok q -> In q l ->
  value_on spline y q = Ok (price a) /\ (value_on spline y q = Ok (full_price b) <-> accrued_interest b = 0%R).
Proof.
  intros spline s l m ref y a b q R' H B Q I. destruct (C71_bond_knot spline a b q B Q) as (_ & P).
  pose proof (C72_root_reprices spline s l m ref y R' H q I) as V. rewrite P in V. split; [exact V|].
  destruct (P_Bond.C38_full_price a b B) as (F & _). destruct (BondFacts.new_bond_inv _ _ B) as (_ & _ & _ & _ & _ & _ & _ & _ & Np).
  rewrite V, F. split.
  - intros E. injection E as E. assert (X : (100 * accrued_interest b / principal a = 0)%R) by lra.
    unfold Rdiv in X. apply Rmult_integral in X. destruct X as [X|X]; [lra|]. exfalso. revert X. apply Rinv_neq_0_compat. exact Np.
  - intros ->. f_equal. field. exact Np.
Qed.
Print Assumptions C72_clean_price.

(** at yields of 0 a bond is worth the sum of its remaining payments *)
Lemma bond_at_zero spline kvs m ref r dl y a b sd : usual kvs m ACTACT ref r dl y -> (forall d, ref <= d <= dl -> interpolate spline (y_curve y) d None = Ok 0%R) ->
  new_bond a = Ok b -> add_business_days ref 1 (b_cal a) = Ok sd -> (forall p, In p (P_BondYield.remaining b sd) -> ref <= bp_date p <= dl) ->
  snd (yc_present_value spline y (bond_present_value spline b) None) = Ok (rsum (List.map bp_amount (P_BondYield.remaining b sd))).
Proof.
  intros U Z0 B S L. destruct (C29_usual_discount_factors spline kvs m ACTACT ref r dl y [] None U ltac:(intros o []) ltac:(intros; cbn; eauto)) as (dc & E & Er & A).
  unfold yc_present_value. cbn [yc_run fold_left] in E. destruct (to_discount_curve spline y None) as [y1 r1]. cbn [snd] in *. subst r1. cbn [bind].
  assert (D1 : forall d, ref <= d <= dl -> interpolate spline dc d None = Ok 1%R).
  { intros d Ld. destruct (A d Ld) as (t & v & x & _ & Ev & Ex & Ed). rewrite (Z0 d Ld) in Ev. injection Ev as <-. cbn [adj_call] in Ex. injection Ex as <-.
    rewrite Ed, Rplus_0_r, Rmult_0_l, Ropp_0, exp_0. reflexivity. }
  apply (P_BondYield.C61_present_value spline a b dc _ B). rewrite Er. exists sd, (List.map (fun _ => 1%R) (P_BondYield.remaining b sd)). split; [exact S|].
  unfold P_BondYield.discounted_sum. clear -L D1. induction (P_BondYield.remaining b sd) as [|p l IH]; [split; [constructor|reflexivity]|].
  destruct IH as (F & E); [intros; apply L; right; auto|]. split.
  - cbn [List.map]. constructor; [apply D1, L; left; auto | exact F].
  - cbn [List.map combine fst snd]. rewrite !rsum_cons, E. f_equal. ring.
Qed.

(** The 5% two-year note quoted at 107.5, the sum of its remaining payments: the root finder returns the yield 0, an exact
    root, and the fitted curve values the note below its full price. *)
Definition rich_note (mat purch : date) : bond_args :=
  BondArgs UsTreasury (215 / 2) 5 100 (Years 2) purch mat T_PLUS_ONE_BUSINESS SEMI_ANNUAL ACTACT FOLLOWING US_FEDERAL_HOLIDAYS.
Theorem C72_clean_price_refuted : forall spline, exists mat purch b q y, mk_date 2025 2 15 = Ok mat /\ mk_date 2023 9 1 = Ok purch /\
  new_bond (rich_note mat purch) = Ok b /\ quoted_bond spline b = Ok q /\
  pricing_errors spline [q] LINEAR purch [0%R] = Ok [0%R] /\ construct_yield_curve spline (Done [0%R]) [q] LINEAR purch = Ok y /\
  value_on spline y q = Ok (215 / 2)%R /\ (215 / 2 < full_price b)%R.
Proof.
  intros spline. exists 739297, 738764.
  assert (X : exists b, new_bond (rich_note 739297 738764) = Ok b /\ bond_to_knot b = Ok (739300, (215 / 2)%R) /\ (215 / 2 < full_price b)%R /\
    add_business_days 738764 1 US_FEDERAL_HOLIDAYS = Ok 738768 /\
    List.map bp_date (P_BondYield.remaining b 738768) = [738931; 739113; 739300; 739300] /\ 
    rsum (List.map bp_amount (P_BondYield.remaining b 738768)) = (215 / 2)%R).
  { eexists. split; [P_Bond.build_bond|]. split; [reflexivity|]. split.
    { cbn [full_price rich_note price principal accrued_interest]. unfold Q2R. cbn [QArith_base.Qnum QArith_base.Qden calculate_coupon_payment freq principal coupon_rate per_year rich_note]. lra. }
    split; [vm_compute; reflexivity|]. split; [vm_compute; reflexivity|]. 
    cbn [P_BondYield.remaining coupons redemption app filter bp_unadjusted Z.leb Z.compare Pos.compare Pos.compare_cont List.map bp_amount].
    unfold calculate_coupon_payment, rsum. cbn [fold_right freq principal coupon_rate per_year rich_note fold_left]. lra. }
  destruct X as (b & B & Kn & Fp & S & Dt & Am). exists b, (Quoted (739300, (215 / 2)%R) (215 / 2) (bond_present_value spline b)).
  destruct (BondFacts.new_bond_inv _ _ B) as (Ea & _). set (q := Quoted _ _ _).
  assert (Cw : forall x, exists y, curve_with [q] LINEAR 738764 [x] = Ok y /\ usual [(739300, x)] LINEAR ACTACT 738764 CONSTANT 739300 y).
  { intros x. unfold curve_with. cbn [List.map combine q q_date q_knot fst]. 
    destruct (new_yield_curve [(739300, x)] LINEAR ACTACT CONTINUOUSLY_COMPOUNDED_YIELD 738764 CONSTANT CONSTANT) as [y|e] eqn:N; [|vm_compute in N; discriminate].
    exists y. split; [exact N|]. split; [exact N|]. split; [repeat constructor; intros []|]. split; [left; reflexivity|]. split; [intros z [<-|[]]; cbn; lia|].
    split; [discriminate|]. split; split; try (vm_compute; split; discriminate); vm_compute; discriminate. }
  destruct (Cw 0%R) as (y' & Ey & U). destruct (Cw (215 / 2)%R) as (y0 & Ey0 & _).
  assert (Z0 : forall d, 738764 <= d <= 739300 -> interpolate spline (y_curve y') d None = Ok 0%R).
  { intros d L. destruct U as (H & ND & Il & Ml & N & Rf & Dl). apply new_yc_cache in H. destruct H as (_ & _ & Hn & _).
    destruct (Z.eq_dec d 739300) as [->|Ne].
    - eapply C26_reprices_knots; [left; reflexivity | exact Hn | exact ND | | left; reflexivity]. apply C26_actual_separates; auto.
      + pose proof (new_curve_ok _ _ _ _ _ _ _ Hn) as (_ & _ & _ & _ & _ & Er & _). rewrite (Er _ eq_refl). exact Rf.
      + intros z [<-|[]]. exact Dl.
    - destruct (C27_ends spline _ _ _ _ _ _ _ 739300 0%R 739300 0%R d None Hn ND ltac:(left; auto) ltac:(intros z [<-|[]]; cbn; lia) ltac:(left; auto) ltac:(intros z [<-|[]]; cbn; lia)) as (_ & E & _).
      apply E; [lia|auto]. }
  assert (V : value_on spline y' q = Ok (215 / 2)%R).
  { unfold value_on. cbn [q q_pv]. rewrite <- Am. eapply bond_at_zero; [exact U | exact Z0 | exact B | exact S|].
    intros p I. apply (in_map bp_date) in I. rewrite Dt in I. cbn in I. lia. }
  destruct (C72_fit_defined spline (Done [0%R]) [q] LINEAR 738764 y0 [] [0%R] y') as (y & C & (_ & Sv & _)); [exact Ey0 | constructor | exact Ey |].
  exists y. split; [vm_compute; reflexivity|]. split; [vm_compute; reflexivity|]. split; [exact B|].
  split. { unfold quoted_bond. rewrite Kn, Ea. reflexivity. }
  split. { unfold pricing_errors. rewrite Ey. cbn [bind mapM]. rewrite V. cbn [bind q q_price]. do 2 f_equal. lra. }
  split; [exact C|]. split; [|exact Fp]. unfold value_on in *. rewrite Sv. exact V.
Qed.
Print Assumptions C72_clean_price_refuted.
