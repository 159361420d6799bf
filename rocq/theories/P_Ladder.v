(** Property theorem C102: the total of a key rate risk ladder against the risk of a parallel shift. *)
From Verif Require Import Base PyDate PyDateFacts DayCount DayCountFacts PyList KeyRate KeyRateFacts P_KeyRate Curve CurveFacts P_Curve Cashflow CashflowFacts P_Yield Deriv.
From Coq Require Import Sorting.Sorted Permutation Qreals Lra Lqa.
From Verif Require Import KeyRateFacts.
Open Scope Z_scope.
Ltac lra := first [Lra.lra | Lqa.lra].
Ltac nra := first [Lra.nra | Lqa.nra].

(** ---- the difference of two exponentials ---- *)
Section Sinh.
Open Scope R_scope.
Let s (x : R) := exp x - exp (- x).
Let c (x : R) := exp x + exp (- x).

Lemma mono_from (f f' : R -> R) : (forall x, derivable_pt_lim f x (f' x)) -> (forall x, 0 <= x -> 0 <= f' x) ->
  forall x, 0 <= x -> f 0 <= f x.
Proof.
  intros D P x L. destruct (Rle_lt_or_eq_dec 0 x L) as [L'|<-]; [|lra].
  destruct (MVT_cor2 f f' 0 x L' ltac:(auto)) as (y & E & Ly & _). specialize (P y ltac:(lra)).
  assert (0 <= f' y * (x - 0)) by (apply Rmult_le_pos; lra). lra.
Qed.
Lemma d_s x : derivable_pt_lim s x (c x).
Proof.
  unfold s, c. apply (d_fun (fun x => exp (1 * x) - exp ((-1) * x))).
  - intros y. f_equal; f_equal; ring.
  - eapply d_eq; [|apply d_minus; apply d_exp]. replace (1 * x) with x by ring. replace (-1 * x) with (- x) by ring. ring.
Qed.
Lemma d_c x : derivable_pt_lim c x (s x).
Proof.
  unfold s, c. apply (d_fun (fun x => exp (1 * x) + exp ((-1) * x))).
  - intros y. f_equal; f_equal; ring.
  - eapply d_eq; [|apply d_plus; apply d_exp]. replace (1 * x) with x by ring. replace (-1 * x) with (- x) by ring. ring.
Qed.
Lemma exp_inv x : exp x * exp (- x) = 1.
Proof. rewrite <- exp_plus, Rplus_opp_r. apply exp_0. Qed.
Lemma s_0 : s 0 = 0.
Proof. unfold s. rewrite Ropp_0. ring. Qed.
Lemma c_0 : c 0 = 2.
Proof. unfold c. rewrite Ropp_0, exp_0. ring. Qed.
Lemma c_ge x : 2 <= c x.
Proof.
  unfold c. pose proof (exp_inv x) as E. pose proof (exp_pos x). pose proof (exp_pos (- x)).
  pose proof (pow2_ge_0 (exp x - exp (- x))). nra.
Qed.
Lemma s_ge x : 0 <= x -> 2 * x <= s x.
Proof.
  intros L. pose proof (mono_from (fun x => s x - 2 * x) (fun x => c x - 2)) as M. cbv beta in M.
  specialize (M ltac:(intros y; apply d_minus; [apply d_s | apply d_lin]) ltac:(intros y _; pose proof (c_ge y); lra) x L).
  rewrite s_0 in M. lra.
Qed.
Lemma s_pos x : 0 <= x -> 0 <= s x.
Proof. intros L. pose proof (s_ge x L). lra. Qed.
Lemma s_le_xc x : 0 <= x -> s x <= x * c x.
Proof.
  intros L. pose proof (mono_from (fun x => x * c x - s x) (fun x => (1 * c x + x * s x) - c x)) as M. cbv beta in M.
  specialize (M ltac:(intros y; apply d_minus; [apply (d_mult (fun x => x)); [apply d_id | apply d_c] | apply d_s])).
  specialize (M ltac:(intros y Ly; pose proof (s_pos y Ly); nra) x L). rewrite s_0 in M. lra.
Qed.
Lemma c_le x : 0 <= x -> (1 - x * x / 2) * c x <= 2.
Proof.
  intros L. pose proof (mono_from (fun x => - ((1 - / 2 * (x * x)) * c x)) (fun x => - ((0 - / 2 * (1 * x + x * 1)) * c x + (1 - / 2 * (x * x)) * s x))) as M. cbv beta in M.
  specialize (M ltac:(intros y; apply d_opp, (d_mult (fun x => 1 - / 2 * (x * x))); [apply d_minus; [apply d_const | apply (d_scal (/ 2) (fun x => x * x)), (d_mult (fun x => x) (fun x => x)); apply d_id] | apply d_c])).
  specialize (M ltac:(intros y Ly; pose proof (s_le_xc y Ly); pose proof (s_pos y Ly);
    assert (0 <= y * y * s y) by (apply Rmult_le_pos; [nra | lra]); lra) x L). rewrite c_0 in M.
  replace (1 - x * x / 2) with (1 - / 2 * (x * x)) by field. lra.
Qed.
Lemma s_le x : 0 <= x -> (1 - x * x / 2) * s x <= 2 * x.
Proof.
  intros L. pose proof (s_pos x L) as P. destruct (Rle_dec 0 (1 - x * x / 2)) as [H|H].
  - pose proof (s_le_xc x L) as A. pose proof (c_le x L) as B.
    apply (Rmult_le_compat_l _ _ _ H) in A. apply (Rmult_le_compat_l _ _ _ L) in B. lra.
  - assert (0 <= - (1 - x * x / 2) * s x) by (apply Rmult_le_pos; lra). lra.
Qed.
Lemma s_super x y : 0 <= x -> 0 <= y -> s x + s y <= s (x + y).
Proof.
  intros X Y. unfold s. rewrite Ropp_plus_distr, !exp_plus. pose proof (exp_inv x) as Ex. pose proof (exp_inv y) as Ey.
  pose proof (exp_ineq1_le x). pose proof (exp_ineq1_le y). pose proof (exp_pos (- x)). pose proof (exp_pos (- y)).
  set (a := exp x) in *. set (b := exp y) in *. set (a' := exp (- x)) in *. set (b' := exp (- y)) in *.
  assert (A1 : 0 <= a - 1) by lra. assert (B1 : 0 <= b - 1) by lra.
  assert (A2 : 1 - a' <= a - 1). { assert (0 <= (a - 1) * (1 - a')) by (apply Rmult_le_pos; [lra|]; nra). lra. }
  assert (B2 : 1 - b' <= b - 1). { assert (0 <= (b - 1) * (1 - b')) by (apply Rmult_le_pos; [lra|]; nra). lra. }
  assert (A3 : 0 <= 1 - a') by nra. assert (B3 : 0 <= 1 - b') by nra.
  assert ((1 - a') * (1 - b') <= (a - 1) * (b - 1)) by (apply Rmult_le_compat; auto). lra.
Qed.
Lemma s_sums l : (forall x, In x l -> 0 <= x) -> rsum (List.map s l) <= s (rsum l) /\ 2 * rsum l <= rsum (List.map s l) /\ 0 <= rsum l.
Proof.
  induction l as [|x l IH]; intros P; cbn [List.map]; rewrite ?rsum_nil, ?rsum_cons; [rewrite s_0; lra|].
  destruct IH as (A & B & C); [intros; apply P; right; auto|]. specialize (P x ltac:(left; auto)).
  pose proof (s_super x (rsum l) P C). pose proof (s_ge x P). lra.
Qed.
(** splitting a non-negative number into non-negative parts *)
Lemma split_bounds l x : (forall y, In y l -> 0 <= y) -> rsum l = x -> 
  rsum (List.map (fun y => exp y - exp (- y)) l) <= exp x - exp (- x) /\
  (1 - x * x / 2) * (exp x - exp (- x)) <= rsum (List.map (fun y => exp y - exp (- y)) l).
Proof.
  intros P <-. destruct (s_sums l P) as (A & B & C). split; [exact A|]. pose proof (s_le _ C). unfold s in *. lra.
Qed.
End Sinh.

(** ---- the weights of a linked collection ---- *)
Lemma chained_inside (g : heap) (ok : date -> Prop) : forall l prev, chained g prev l -> increasing g l ->
  (forall a, In a l -> ok (kr_date (g a))) ->
  (forall p, prev = Some p -> ok p /\ forall a, In a l -> p < kr_date (g a)) -> (prev <> None \/ (2 <= List.length l)%nat) ->
  forall a, In a l -> exists p n, kr_fun (g a) = (p, kr_date (g a), n) /\
    (forall x, p = Some x -> x < kr_date (g a) /\ ok x) /\ (forall x, n = Some x -> kr_date (g a) < x /\ ok x) /\ ~ (p = None /\ n = None).
Proof.
  induction l as [|b l IH]; intros prev CH I G P NN a Ia; [destruct Ia|]. destruct CH as [F CH].
  unfold increasing, dates in I. cbn [List.map] in I. inversion I as [|? ? I' FA]; subst. rewrite Forall_forall in FA.
  assert (Lt : forall x, In x l -> kr_date (g b) < kr_date (g x)) by (intros x Ix; apply (FA (kr_date (g x))); apply (in_map (date_of g)); auto).
  destruct Ia as [<-|Ia].
  - exists prev, (odate g (hd_error l)). split; [exact F|]. split; [|split].
    + intros x E. destruct (P x E) as [A B]. split; auto. apply B. left; auto.
    + intros x E. destruct l as [|y l]; [discriminate|]. cbn in E. injection E as <-. split; [apply Lt; left; auto | apply G; right; left; auto].
    + intros [-> E]. destruct l as [|y l]; [|discriminate]. cbn in NN. destruct NN; [auto | lia].
  - apply (IH (Some (kr_date (g b)))); auto.
    + intros x Ix. apply G. right; auto.
    + intros p [= <-]. split; [apply G; left; auto | exact Lt].
    + left. discriminate.
Qed.

Lemma mapM_sum_R {A} (f : A -> res Q) (w : A -> R) : forall l vs, mapM f l = Ok vs ->
  (forall a, In a l -> exists q, f a = Ok q /\ w a = Q2R q) -> Q2R (fold_left Qplus vs 0%Q) = rsum (List.map w l).
Proof.
  induction l as [|a l IH]; intros vs E H.
  - injection E as <-. change (Q2R 0 = 0%R). unfold Q2R. cbn. Lra.lra.
  - cbn [mapM] in E. destruct (H a ltac:(left; auto)) as (q & Eq & Wq). rewrite Eq in E. cbn [bind] in E.
    destruct (mapM f l) as [vs'|] eqn:E'; [|discriminate]. cbn in E. injection E as <-.
    cbn [fold_left List.map]. rewrite rsum_cons, <- (IH vs' eq_refl) by (intros; apply H; right; auto).
    transitivity (Q2R (q + fold_left Qplus vs' 0)%Q).
    + apply Qeq_eqR. rewrite fold_Qplus. ring.
    + rewrite Q2R_plus, Wq. reflexivity.
Qed.

(** the key rates of a collection of at least two share every date's bump: weights that are non-negative and sum to one *)
Lemma weights h l h' col kc : new_collection l h = (h', Ok col) -> (2 <= List.length l)%nat -> kc <> THIRTY360 ->
  (forall a, In a l -> kr_dcc (h a) = kc /\ countable kc (kr_date (h a))) ->
  NoDup col /\ exists W : addr -> date -> R,
    (forall a d, In a col -> (0 <= W a d)%R) /\ (forall d, rsum (List.map (fun a => W a d) col) = 1%R) /\
    (forall a d b, In a col -> adj_call (kr_adjust (set_bump_val b (h' a))) (ADate d) = Ok (Q2R b * W a d)%R) /\
    (forall a, In a col -> W a (kr_date (h' a)) = 1%R).
Proof.
  intros E L NC G.
  assert (NE : l <> []) by (intros ->; cbn in L; lia).
  assert (ND : NoDup (dates h l)).
  { destruct (ListDec.NoDup_dec Z.eq_dec (dates h l)) as [|N]; auto. destruct (new_collection_err l h (or_intror N)) as (x & E'). rewrite E in E'. discriminate. }
  destruct (new_collection_ok l h NE ND) as (x & c0 & E1 & P1 & I1 & L1). rewrite E in E1. injection E1 as <- <-.
  pose proof (linked_cores _ _ _ _ L1) as C. pose proof (linked_chained _ _ _ _ L1) as CH. cbn in CH.
  assert (Inc : increasing h' col) by (unfold increasing; rewrite <- (same_cores_dates h h'); auto).
  assert (Gc : forall a, In a col -> kr_dcc (h' a) = kc /\ countable kc (kr_date (h' a))).
  { intros a I. apply (Permutation_in a P1) in I. destruct (G a I) as (G1 & G2). destruct (C a) as (C1 & C2 & C3). rewrite <- C1, <- C2. auto. }
  assert (Len : (2 <= List.length col)%nat) by (rewrite (Permutation_length P1); auto).
  assert (Fun : forall a, In a col -> kr_fun (h' a) = (kr_prior (h' a), kr_date (h' a), kr_next (h' a))).
  { intros a I. apply in_split in I. destruct I as (l1 & l2 & El). destruct L1 as [_ L2]. rewrite (L2 l1 a l2 El). reflexivity. }
  split.
  { apply (Permutation_NoDup (Permutation_sym P1)). unfold dates in ND. eapply NoDup_map_inv; exact ND. }
  set (g := fun a => set_bump_val 1 (h' a)).
  assert (CHg : chained g None col).
  { clear - CH Fun. revert CH Fun. generalize (@None date). induction col as [|a r IH]; intros prev CH Fun; cbn [chained]; [exact I|]. destruct CH as [F CH]. split.
    - unfold g at 1. cbn. rewrite <- (Fun a ltac:(left; auto)), F. unfold g. cbn. destruct r; reflexivity.
    - apply IH; auto. intros b Ib. apply Fun. right; auto. }
  assert (Incg : increasing g col) by (unfold increasing, dates; rewrite (map_ext (date_of g) (date_of h')) by reflexivity; exact Inc).
  assert (NNg : forall a d, In a col -> exists q, kr_call (g a) d = Ok q /\ (0 <= q)%Q /\ (d = kr_date (h' a) -> (q == 1)%Q)).
  { intros a d I. destruct (chained_inside g (countable kc) col None CHg Incg) with (a := a) as (p & n & Ef & Pp & Pn & Nn); auto;
      [intros b Ib; apply (Gc b Ib) | discriminate |].
    destruct (Gc a I) as [Kc Cd].
    assert (R : reachable (set_bump_val 1 (new_key_rate kc (kr_date (g a)) p n))).
    { exists kc, (kr_date (g a)), p, n, [SetBump 1]. split; [intros; apply Pp; auto|]. split; [intros; apply Pn; auto | reflexivity]. }
    destruct (C20_ramps _ d R NC Cd (fun q Eq => proj2 (Pp q Eq)) (fun q Eq => proj2 (Pn q Eq)) Nn) as (v & Ev & At & Pv & _).
    exists v. split; [|split; [apply Pv; cbn; lra | intros Ed; apply At; exact Ed]]. rewrite <- Ev. unfold kr_call. rewrite Ef. replace (kr_dcc (g a)) with kc by (symmetry; exact Kc). reflexivity. }
  exists (fun a d => match kr_call (g a) d with Ok q => Q2R q | Err _ => 0%R end). split; [|split; [|split]].
  - intros a d I. destruct (NNg a d I) as (q & -> & P & _). replace 0%R with (Q2R 0) by (unfold Q2R; cbn; Lra.lra). apply Qle_Rle. exact P.
  - intros d. destruct (clock_of kc NC) as (phi & kk & HC).
    assert (X : exists v, coll_call g col d = Ok v /\ (v == 1)%Q).
    { destruct col as [|a [|b r]]; cbn in Len; try lia.
      apply (sum_parallel (countable kc) phi (countable_between kc) g 1 d a b r CHg Incg).
      apply Forall_forall. intros y I. destruct (Gc y I) as (G1 & G2). unfold good, g. cbn [kr_dcc kr_date kr_bump set_bump_val create_adjustment_function].
      rewrite G1. split; [eauto|]. split; [apply G2 | reflexivity]. }
    destruct X as (v & Ev & V). unfold coll_call in Ev. destruct (mapM (fun a => kr_call (g a) d) col) as [vs|] eqn:EM; [|discriminate].
    cbn in Ev. injection Ev as <-.
    rewrite <- (mapM_sum_R (fun a => kr_call (g a) d) _ col vs EM).
    + transitivity (Q2R 1); [apply Qeq_eqR; exact V | unfold Q2R; cbn; Lra.lra].
    + intros a I. destruct (NNg a d I) as (q & Eq & _). exists q. rewrite Eq. auto.
  - intros a d b I. destruct (NNg a d I) as (q & Eq & _). cbn beta. rewrite Eq.
    unfold kr_call, g in Eq. cbn [kr_dcc kr_bump kr_fun kr_prior kr_next kr_date set_bump_val create_adjustment_function] in Eq.
    destruct (adjustment_scales _ b _ _ _ Eq) as (v & Ev & V).
    unfold kr_adjust, adj_call, kr_call. cbn [kr_dcc kr_bump kr_fun kr_prior kr_next kr_date set_bump_val create_adjustment_function].
    rewrite Ev. cbn [bind]. apply (f_equal Ok). rewrite <- Q2R_mult. apply Qeq_eqR. exact V.
  - intros a I. destruct (NNg a (kr_date (h' a)) I) as (q & -> & _ & V). transitivity (Q2R 1); [apply Qeq_eqR, V; reflexivity | unfold Q2R; cbn; Lra.lra].
Qed.

(** ---- the present value as a function of the adjustment ---- *)
(** a payment as the present value sees it: its date, its accrual and its amount discounted by the unadjusted curve *)
Record flow := Flow { f_date : date; f_time : R; f_pv : R }.
Definition flows_pv (x : date -> R) (fs : list flow) : R := rsum (List.map (fun f => f_pv f * exp (- (x (f_date f) * f_time f)))%R fs).

Lemma pv_function spline kvs m c ref r dl y cf : usual kvs m c ref r dl y -> (forall p, In p cf -> (0 <= amt p)%R /\ payment_date p <= dl) ->
  exists fs, (forall f, In f fs -> ref <= f_date f <= dl /\ (0 <= f_time f)%R /\ (0 <= f_pv f)%R /\
                (exists p t, In p cf /\ f_date f = payment_date p /\ accrual c ref (payment_date p) t /\ f_time f = Q2R t)) /\
    forall a x, (forall d, ref <= d <= dl -> adj_call a (ADate d) = Ok (x d)) ->
      snd (yc_present_value spline y (cf_present_value spline cf) a) = Ok (flows_pv x fs).
Proof.
  intros U P. pose proof U as (H & ND & Il & Ml & N & Rf & Dl).
  set (lv := fun p => match amount p with Some _ => ref <=? payment_date p | None => false end).
  assert (G : forall ps, (forall p, In p ps -> In p cf /\ lv p = true) ->
    exists fs, (forall f, In f fs -> ref <= f_date f <= dl /\ (0 <= f_time f)%R /\ (0 <= f_pv f)%R /\
                (exists p t, In p cf /\ f_date f = payment_date p /\ accrual c ref (payment_date p) t /\ f_time f = Q2R t)) /\
      forall dc x, (forall d, ref <= d <= dl -> exists t v, accrual c ref d t /\ interpolate spline (y_curve y) d None = Ok v /\
                       interpolate spline dc d None = Ok (exp (- ((v + x d) * Q2R t)))) ->
        exists l, mapM (fun p => do df <- interpolate spline dc (payment_date p) None; Ok (df * amt p)%R) ps = Ok l /\
          rsum l = flows_pv x fs).
  { induction ps as [|p ps IH]; intros Hp.
    - exists []. split; [intros f []|]. intros dc x _. exists []. split; reflexivity.
    - destruct IH as (fs & A & B); [intros; apply Hp; right; auto|]. destruct (Hp p ltac:(left; auto)) as [I Lv].
      destruct (P p I) as [Pa Pd]. assert (Lp : ref <= payment_date p <= dl) by (unfold lv in Lv; destruct (amount p); [lia | discriminate]).
      destruct (usual_value spline kvs m c ref r dl y _ U Lp) as (v & Ev). specialize (Ev None). cbn in Ev.
      assert (Cp : countable c (payment_date p)) by (eapply countable_between; [exact Rf | exact Dl | lia]).
      destruct (accrual_ok c ref (payment_date p) N Rf Cp ltac:(lia)) as (t & T & Tz & Tp).
      assert (T0 : (0 <= Q2R t)%R).
      { replace 0%R with (Q2R 0) by (unfold Q2R; cbn; Lra.lra). apply Qle_Rle. destruct (Z.eq_dec ref (payment_date p)) as [Eq|Nq].
        - specialize (Tz (eq_sym Eq)). lra.
        - specialize (Tp ltac:(lia)). lra. }
      exists (Flow (payment_date p) (Q2R t) (amt p * exp (- (v * Q2R t)))%R :: fs). split.
      + intros f [<-|If]; [|auto]. cbn. split; [auto|]. split; [auto|]. split; [apply Rmult_le_pos; [auto | left; apply exp_pos]|].
        exists p, t. auto.
      + intros dc x Hd. destruct (B dc x Hd) as (l & El & Sl). destruct (Hd _ Lp) as (t' & v' & T' & V' & Ed).
        unfold accrual in T, T'. rewrite T in T'. injection T' as <-. rewrite Ev, Rplus_0_r in V'. injection V' as <-.
        cbn [mapM]. rewrite Ed, El. cbn [bind]. eexists. split; [reflexivity|]. unfold flows_pv. cbn [List.map f_pv f_date f_time].
        rewrite !rsum_cons, Sl. unfold flows_pv. f_equal.
        replace (- ((v + x (payment_date p)) * Q2R t))%R with (- (v * Q2R t) + - (x (payment_date p) * Q2R t))%R by ring.
        rewrite exp_plus. ring. }
  destruct (G (filter lv cf)) as (fs & A & B); [intros p I; apply filter_In in I; auto|].
  exists fs. split; [exact A|]. intros a x Adj.
  destruct (C29_usual_discount_factors spline kvs m c ref r dl y [] a U) as (dc & Ea & Ra & Aa); [intros ? [] | intros d L; rewrite (Adj d L); eauto|].
  cbn in Ea. unfold yc_present_value. destruct (to_discount_curve spline y a) as [ya ra]. cbn in Ea. subst ra. cbn [snd bind].
  unfold cf_present_value. rewrite pv_terms_spec.
  replace (filter (live dc) cf) with (filter lv cf) by (apply filter_ext; intros p; unfold live, lv; rewrite Ra; auto).
  destruct (B dc x) as (l & -> & Sl); [|cbn; rewrite Sl; reflexivity].
  intros d L. destruct (Aa d L) as (t & v & x' & T & V & X & Ed). rewrite (Adj d L) in X. injection X as <-. exists t, v. auto.
Qed.

Lemma rsum_map_le {A} (f g : A -> R) l : (forall a, In a l -> (f a <= g a)%R) -> (rsum (List.map f l) <= rsum (List.map g l))%R.
Proof.
  induction l as [|a l IH]; intros H; cbn [List.map]; [lra|]. rewrite !rsum_cons.
  specialize (H a ltac:(left; auto)) as Ha. assert (rsum (List.map f l) <= rsum (List.map g l))%R by (apply IH; intros; apply H; right; auto). lra.
Qed.
Lemma rsum_map_scale {A} k (f : A -> R) l : rsum (List.map (fun a => k * f a)%R l) = (k * rsum (List.map f l))%R.
Proof. rewrite <- rsum_scale, map_map. reflexivity. Qed.
Lemma rsum_map_plus {A} (f g : A -> R) l : rsum (List.map (fun a => f a + g a)%R l) = (rsum (List.map f l) + rsum (List.map g l))%R.
Proof. induction l as [|a l IH]; cbn [List.map]; rewrite ?rsum_nil, ?rsum_cons; [lra|]. rewrite IH. lra. Qed.
Lemma rsum_map_0 {A} (l : list A) : rsum (List.map (fun _ => 0%R) l) = 0%R.
Proof. induction l as [|a l IH]; cbn [List.map]; rewrite ?rsum_nil, ?rsum_cons; [lra|]. rewrite IH. lra. Qed.
Lemma rsum_swap {A B} (f : A -> B -> R) la lb : rsum (List.map (fun a => rsum (List.map (f a) lb)) la) = rsum (List.map (fun b => rsum (List.map (fun a => f a b) la)) lb).
Proof.
  induction la as [|a la IH]; cbn [List.map].
  - rewrite rsum_nil. symmetry. apply rsum_map_0.
  - rewrite rsum_cons, IH, <- rsum_map_plus. f_equal. apply map_ext. intros b. cbn [List.map]. rewrite rsum_cons. reflexivity.
Qed.
Lemma flows_diff x z fs : (flows_pv x fs - flows_pv z fs)%R = rsum (List.map (fun f => f_pv f * (exp (- (x (f_date f) * f_time f)) - exp (- (z (f_date f) * f_time f))))%R fs).
Proof.
  unfold flows_pv. induction fs as [|f fs IH]; cbn [List.map]; rewrite ?rsum_nil, ?rsum_cons; [lra|]. rewrite <- IH. ring.
Qed.

(** The PV01s of a ladder whose key rates share one Actual convention add up to the PV01 [p - n] of a parallel shift of the whole
    curve, up to a relative difference of second order in the size of the shift times the longest accrual [A] of the payments:
    the total is never further from zero than the parallel PV01, nor closer than [1 - (A * bp / 2)^2 / 2] of it. *)
Theorem C102_ladder_total : forall spline kvs m c ref r dl y cf l h h' col kc qs, usual kvs m c ref r dl y ->
  (forall p, In p cf -> (0 <= amt p)%R /\ payment_date p <= dl) ->
  new_collection l h = (h', Ok col) -> (2 <= List.length l)%nat -> kc <> THIRTY360 ->
  (forall a, In a l -> kr_dcc (h a) = kc /\ countable kc (kr_date (h a))) ->
  (forall o, In o qs -> exists q, o = Query q) ->
  let bp := Q2R ONE_BASIS_POINT in
  exists y2 h2 rs n p,
    calculate_pv01_risk_ladder spline (yc_run spline y qs) col (cf_present_value spline cf) h' = (y2, h2, Ok rs) /\
    snd (yc_present_value spline y (cf_present_value spline cf) (shift (- (bp / 2)))) = Ok n /\
    snd (yc_present_value spline y (cf_present_value spline cf) (shift (bp / 2))) = Ok p /\
    (p - n <= rsum (List.map r_pv01 rs))%R /\
    (forall A, (forall q t, In q cf -> accrual c ref (payment_date q) t -> (Q2R t <= A)%R) ->
       (rsum (List.map r_pv01 rs) <= (1 - (A * bp / 2) * (A * bp / 2) / 2) * (p - n))%R).
Proof.
  intros spline kvs m c ref r dl y cf l h h' col kc qs U P E L NC G Q bp.
  destruct (weights h l h' col kc E L NC G) as (ND & W & W0 & W1 & WA & _).
  destruct (pv_function spline kvs m c ref r dl y cf U P) as (fs & Fs & PV).
  assert (B : forall a b, In a col -> bumped spline y (h' a) (cf_present_value spline cf) b = Ok (flows_pv (fun d => Q2R b * W a d)%R fs)).
  { intros a b I. unfold bumped. apply PV. intros d _. apply WA; auto. }
  assert (Hb : Q2R half_bp = (bp / 2)%R) by (unfold half_bp, bp, ONE_BASIS_POINT, Q2R; cbn; field).
  assert (Pb : (0 < bp)%R) by (unfold bp, ONE_BASIS_POINT, Q2R; cbn; Lra.lra).
  pose proof U as (H & _).
  destruct (C31_ladder spline kvs m c _ ref _ r y qs (cf_present_value spline cf) col h' H Q ND) as (y2 & h2 & rs & EL & FL & _);
    [intros a I; do 2 eexists; split; apply B; auto|].
  exists y2, h2, rs, (flows_pv (fun _ => - (bp / 2))%R fs), (flows_pv (fun _ => bp / 2)%R fs). split; [exact EL|].
  split; [apply (PV (shift (- (bp / 2))) (fun _ => - (bp / 2))%R); reflexivity|].
  split; [apply (PV (shift (bp / 2)) (fun _ => bp / 2)%R); reflexivity|].
  assert (S : List.map r_pv01 rs = List.map (fun a => flows_pv (fun d => bp / 2 * W a d)%R fs - flows_pv (fun d => - (bp / 2) * W a d)%R fs)%R col).
  { assert (FL' : Forall2 (fun a rk => r_pv01 rk = flows_pv (fun d => bp / 2 * W a d)%R fs - flows_pv (fun d => - (bp / 2) * W a d)%R fs)%R col rs).
    { clear - FL B Hb. revert B. induction FL as [|a rk col rs HH FL IH]; intros B; constructor.
      - destruct HH as (n & p & En & Ep & ->). rewrite B in En, Ep by (left; auto). rewrite Q2R_opp, Hb in En. rewrite Hb in Ep.
        injection En as <-. injection Ep as <-. reflexivity.
      - apply IH. intros; apply B; right; auto. }
    clear - FL'. induction FL' as [|a rk col rs HH FL IH]; cbn [List.map]; [reflexivity|]. rewrite HH, IH. reflexivity. }
  assert (Tot : rsum (List.map r_pv01 rs) =
    rsum (List.map (fun f => - f_pv f * rsum (List.map (fun x => exp x - exp (- x)) (List.map (fun a => bp / 2 * f_time f * W a (f_date f)) col)))%R fs)).
  { rewrite S. rewrite (map_ext _ (fun a => rsum (List.map (fun f => f_pv f * (exp (- (bp / 2 * W a (f_date f) * f_time f)) - exp (- (- (bp / 2) * W a (f_date f) * f_time f))))%R fs))) by (intros a; apply flows_diff).
    rewrite (rsum_swap (fun a f => f_pv f * (exp (- (bp / 2 * W a (f_date f) * f_time f)) - exp (- (- (bp / 2) * W a (f_date f) * f_time f))))%R).
    f_equal. apply map_ext. intros f. rewrite map_map, <- rsum_map_scale. f_equal. apply map_ext. intros a.
    replace (- (- (bp / 2) * W a (f_date f) * f_time f))%R with (bp / 2 * f_time f * W a (f_date f))%R by ring.
    replace (- (bp / 2 * W a (f_date f) * f_time f))%R with (- (bp / 2 * f_time f * W a (f_date f)))%R by ring. ring. }
  assert (Par : (flows_pv (fun _ => bp / 2)%R fs - flows_pv (fun _ => - (bp / 2))%R fs)%R =
    rsum (List.map (fun f => - f_pv f * (exp (bp / 2 * f_time f) - exp (- (bp / 2 * f_time f))))%R fs)).
  { rewrite flows_diff. f_equal. apply map_ext. intros f. replace (- (- (bp / 2) * f_time f))%R with (bp / 2 * f_time f)%R by ring. ring. }
  assert (Sp : forall f, In f fs ->
    let x := (bp / 2 * f_time f)%R in
    (rsum (List.map (fun x => exp x - exp (- x)) (List.map (fun a => x * W a (f_date f)) col)) <= exp x - exp (- x) /\
     (1 - x * x / 2) * (exp x - exp (- x)) <= rsum (List.map (fun x => exp x - exp (- x)) (List.map (fun a => x * W a (f_date f)) col)))%R).
  { intros f If x. destruct (Fs f If) as (_ & T0 & _ & _). assert (X0 : (0 <= x)%R) by (unfold x; apply Rmult_le_pos; lra).
    apply split_bounds.
    - intros z Iz. apply in_map_iff in Iz. destruct Iz as (a & <- & Ia). apply Rmult_le_pos; [auto | apply W0; auto].
    - rewrite (rsum_map_scale x (fun a => W a (f_date f))), W1. ring. }
  rewrite Tot, Par. split.
  - apply rsum_map_le. intros f If. destruct (Fs f If) as (_ & _ & E0 & _). destruct (Sp f If) as [S1 _]. apply (Rmult_le_compat_l _ _ _ E0) in S1. lra.
  - intros A HA. rewrite <- rsum_map_scale. apply rsum_map_le. intros f If. destruct (Fs f If) as (_ & T0 & E0 & (q & t & Iq & _ & Tq & Et)).
    specialize (HA q t Iq Tq). rewrite <- Et in HA. destruct (Sp f If) as [S1 S2]. cbv zeta in S1, S2. set (x := (bp / 2 * f_time f)%R) in *.
    assert (X0 : (0 <= x)%R) by (unfold x; apply Rmult_le_pos; lra).
    assert (XA : (x <= A * bp / 2)%R). { unfold x. assert (bp / 2 * f_time f <= bp / 2 * A)%R by (apply Rmult_le_compat_l; lra). lra. }
    assert (XX : (x * x <= (A * bp / 2) * (A * bp / 2))%R) by (apply Rmult_le_compat; auto).
    assert (Z0 : (0 <= exp x - exp (- x))%R). { destruct X0 as [X0|<-]; [pose proof (exp_increasing (- x) x); lra | rewrite Ropp_0; lra]. }
    assert ((1 - (A * bp / 2) * (A * bp / 2) / 2) * (exp x - exp (- x)) <= (1 - x * x / 2) * (exp x - exp (- x)))%R by (apply Rmult_le_compat_r; lra).
    match goal with |- (- _ * ?s <= _)%R => assert (K : ((1 - (A * bp / 2) * (A * bp / 2) / 2) * (exp x - exp (- x)) <= s)%R) by lra end.
    apply (Rmult_le_compat_l _ _ _ E0) in K. lra.
Qed.
Print Assumptions C102_ladder_total.

(** three key rates fifteen days apart on the knots and between them, a payment between two of them *)
Definition ladder_heap : heap := fun a => new_key_rate ACT365 (738886 + 15 * Z.of_nat a) None None.
Example C102_case : exists y h' col y2 h2 rs n p, let cf := [Payment 738900 (Some 100%R); Payment 738910 None; Payment 738916 (Some 5%R)] in
  usual [(738886, 1%R); (738916, 3%R)] LINEAR ACT365 738880 CONSTANT 738916 y /\
  new_collection [2%nat; 0%nat; 1%nat] ladder_heap = (h', Ok col) /\
  calculate_pv01_risk_ladder (fun _ _ _ => 0%R) y col (cf_present_value (fun _ _ _ => 0%R) cf) h' = (y2, h2, Ok rs) /\
  snd (yc_present_value (fun _ _ _ => 0%R) y (cf_present_value (fun _ _ _ => 0%R) cf) (shift (- (Q2R ONE_BASIS_POINT / 2)))) = Ok n /\
  snd (yc_present_value (fun _ _ _ => 0%R) y (cf_present_value (fun _ _ _ => 0%R) cf) (shift (Q2R ONE_BASIS_POINT / 2))) = Ok p /\
  (p - n <= rsum (List.map r_pv01 rs) <= (1 - 1 / 800000000) * (p - n))%R.
Proof.
  destruct (new_collection [2%nat; 0%nat; 1%nat] ladder_heap) as [h' rc] eqn:E.
  assert (Ec : rc = Ok [0%nat; 1%nat; 2%nat]) by (pose proof (f_equal snd E) as X; vm_compute in X; congruence). subst rc.
  pose proof C29_case_usual as U. match type of U with usual _ _ _ _ _ _ ?y => set (y0 := y) in U; clearbody y0 end.
  exists y0, h', [0%nat; 1%nat; 2%nat].
  assert (H1 : forall p, In p [Payment 738900 (Some 100%R); Payment 738910 None; Payment 738916 (Some 5%R)] -> (0 <= amt p)%R /\ payment_date p <= 738916)
    by (intros p [<-|[<-|[<-|[]]]]; cbn; (split; [lra | lia])).
  assert (H2 : forall a, In a [2%nat; 0%nat; 1%nat] -> kr_dcc (ladder_heap a) = ACT365 /\ countable ACT365 (kr_date (ladder_heap a))).
  { intros a [<-|[<-|[<-|[]]]]; (split; [reflexivity|]); (split; [vm_compute; split; discriminate | discriminate]). }
  assert (H3 : forall q t, In q [Payment 738900 (Some 100%R); Payment 738910 None; Payment 738916 (Some 5%R)] -> accrual ACT365 738880 (payment_date q) t -> (Q2R t <= 1)%R).
  { intros q t Iq T. replace 1%R with (Q2R 1) by (unfold Q2R; cbn; Lra.lra). apply Qle_Rle.
    destruct Iq as [<-|[<-|[<-|[]]]]; vm_compute in T; injection T as <-; vm_compute; discriminate. }
  destruct (C102_ladder_total (fun _ _ _ => 0%R) _ _ _ _ _ _ _ [Payment 738900 (Some 100%R); Payment 738910 None; Payment 738916 (Some 5%R)]
    [2%nat; 0%nat; 1%nat] ladder_heap h' [0%nat; 1%nat; 2%nat] ACT365 [] U H1 E ltac:(cbn; lia) ltac:(discriminate) H2 ltac:(intros o [])) as (y2 & h2 & rs & n & p & A & B & C & D & F).
  exists y2, h2, rs, n, p. cbv zeta. split; [exact U|]. split; [reflexivity|]. split; [exact A|].
  split; [exact B|]. split; [exact C|]. split; [exact D|].
  eapply Rle_trans; [apply (F 1%R H3)|]. right. f_equal. unfold ONE_BASIS_POINT, Q2R. cbn. field.
Qed.
