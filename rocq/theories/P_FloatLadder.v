(** Risk ladders of yield curves in double precision: C117. *)
From Verif Require Import Base PyDate PyDateFacts DayCount DayCountFacts PyList KeyRate KeyRateFacts P_KeyRate Curve CurveFacts P_Curve Cashflow CashflowFacts P_Yield Float FloatFacts FloatDayCount P_FloatDayCount FloatKeyRate P_FloatKeyRate FloatCurve P_FloatCurve FloatCashflow P_FloatCashflow P_FloatStamp P_FloatBond P_FloatLoan P_FloatSwap P_FloatYield FloatVasicek P_FloatVasicek.
From Verif Require Import FloatYieldCurve P_FloatYieldCurve P_FloatYieldRisk FloatLadder.
From Coq Require Import Reals Rpower Qreals Lra Lqa Sorting.Sorted Permutation.
From Flocq Require Import Core BinarySingleNaN.
Ltac lra := first [Lra.lra | Lqa.lra].
Ltac nra := Lra.nra.
Open Scope Z_scope.


Lemma deriv_history spline ex y hist k i : exists more, fst (fst (f_calculate_key_rate_deriv spline ex (f_history spline ex y hist) k i)) = f_history spline ex y (hist ++ more).
Proof.
  unfold f_calculate_key_rate_deriv. destruct (fdiv (Bopp f_basis_point) (of_int 2)) as [b|]; [|exists []; rewrite app_nil_r; reflexivity].
  match goal with |- context [f_yc_present_value spline ex ?Y i ?a] => pose proof (pv_history spline ex y hist i a) as P1; destruct (f_yc_present_value spline ex Y i a) as [Y1 n] end. cbn [fst] in P1. subst Y1.
  match goal with |- context [f_history spline ex y (hist ++ [?a])] => set (a1 := a) end.
  destruct n as [n|]; [|exists [a1]; reflexivity]. destruct (fdiv f_basis_point (of_int 2)) as [b'|]; [|exists [a1]; reflexivity].
  match goal with |- context [f_yc_present_value spline ex ?Y i ?a] => pose proof (pv_history spline ex y (hist ++ [a1]) i a) as P2; destruct (f_yc_present_value spline ex Y i a) as [Y2 n2] end. cbn [fst] in P2. subst Y2.
  rewrite <- app_assoc. destruct n2; cbn [fst]; eexists; reflexivity.
Qed.

Lemma sorted_split (f : addr -> date) l1 a l2 : StronglySorted Z.lt (List.map f (l1 ++ a :: l2)) -> (forall p, In p l1 -> f p < f a) /\ (forall n, In n l2 -> f a < f n).
Proof.
  induction l1 as [|x l1 IH]; cbn; intros S; inversion S as [|? ? S' F]; subst; rewrite Forall_forall in F.
  - split; [intros ? []|]. intros n I. apply F, in_map, I.
  - destruct (IH S') as [A B]. split; [|exact B]. intros p [<- | I]; [|apply A, I]. apply F. apply in_map. apply in_or_app. right. left. reflexivity.
Qed.

(** the members of a new collection *)
Lemma members h l h' col kc : new_collection l h = (h', Ok col) -> (2 <= List.length l)%nat -> kc <> THIRTY360 -> (forall a, In a l -> kr_dcc (h a) = kc /\ countable kc (kr_date (h a))) ->
  Permutation col l /\ NoDup col /\ (forall a, In a col -> key_dates_ok (h' a) /\ create_adjustment_function (h' a) = h' a /\ kr_date (h' a) = kr_date (h a) /\ ~ (kr_prior (h' a) = None /\ kr_next (h' a) = None)) /\
  (forall d, (forall a, In a col -> weighs (h' a) d /\ 0 <= key_weight (h' a) d <= 1)%R /\ sumR (List.map (fun a => key_weight (h' a) d) col) = 1%R).
Proof.
  intros E L NC G.
  assert (NE : l <> []) by (intros ->; cbn in L; lia).
  assert (ND : NoDup (dates h l)).
  { destruct (ListDec.NoDup_dec Z.eq_dec (dates h l)) as [|N]; auto. destruct (new_collection_err l h (or_intror N)) as (x & E'). rewrite E in E'. discriminate. }
  destruct (new_collection_ok l h NE ND) as (x & c0 & E1 & P1 & I1 & L1). rewrite E in E1. injection E1 as <- <-.
  pose proof (linked_cores _ _ _ _ L1) as C. pose proof (linked_chained _ _ _ _ L1) as CH. cbn in CH.
  assert (In1 : forall y, In y col -> In y l) by (intros y Iy; apply (Permutation.Permutation_in y P1 Iy)).
  assert (Sh : forall a, In a col -> exists p n, h' a = relinked (h a) p n /\ (forall x, p = Some x -> x < kr_date (h a) /\ countable kc x) /\ (forall x, n = Some x -> kr_date (h a) < x /\ countable kc x) /\ ~ (p = None /\ n = None)).
  { intros a I. apply in_split in I. destruct I as (l1 & l2 & Ec). destruct L1 as [_ L2]. specialize (L2 l1 a l2 Ec). do 2 eexists. split; [exact L2|].
    unfold increasing, dates in I1. rewrite Ec in I1. destruct (sorted_split (fun a => kr_date (h a)) l1 a l2 I1) as [A B]. assert (Kc : forall y, In y col -> countable kc (kr_date (h y))) by (intros y Iy; apply G, In1, Iy).
    split; [|split].
    - intros x. unfold prev_of. destruct (rev l1) as [|b r] eqn:R; [discriminate|]. intros [= <-]. assert (Ib : In b l1) by (apply in_rev; rewrite R; left; reflexivity). split; [apply A, Ib|]. apply Kc. rewrite Ec. apply in_or_app. left. exact Ib.
    - intros x. destruct l2 as [|b r]; [discriminate|]. intros [= <-]. split; [apply B; left; reflexivity|]. apply Kc. rewrite Ec. apply in_or_app. right. right. left. reflexivity.
    - intros [N1 N2]. apply Permutation_length in P1. rewrite Ec, app_length in P1. cbn in P1. destruct l2 as [|b r]; [|discriminate]. unfold prev_of in N1. destruct (rev l1) as [|b r] eqn:R; [|discriminate]. apply (f_equal (@rev addr)) in R. rewrite rev_involutive in R. cbn in R. subst l1. cbn in P1. lia. }
  assert (Mem : forall a, In a col -> key_dates_ok (h' a) /\ create_adjustment_function (h' a) = h' a /\ kr_date (h' a) = kr_date (h a) /\ ~ (kr_prior (h' a) = None /\ kr_next (h' a) = None)).
  { intros a I. destruct (Sh a I) as (p & n & E2 & A & B & N). destruct (G a (In1 a I)) as [G1 G2]. rewrite E2. unfold relinked, key_dates_ok, create_adjustment_function. cbn [kr_dcc kr_date kr_prior kr_next kr_bump kr_fun]. rewrite G1.
    split; [|split; [reflexivity|split; [reflexivity|exact N]]]. split; [|split; [exact NC|split; [exact G2|split; [intros x X; apply A, X|intros x X; apply B, X]]]].
    exists kc, (kr_date (h a)), p, n, [SetBump (kr_bump (h a))]. split; [intros x X; apply A, X|]. split; [intros x X; apply B, X|reflexivity]. }
  split; [exact P1|]. split; [apply (increasing_NoDup h col I1)|]. split; [exact Mem|]. intros d. split.
  - intros a I. destruct (Mem a I) as ((R & NT & C1 & C2 & C3) & _ & _ & NN). destruct (C20_ramps (set_bump_val 1 (h' a)) d (reachable_bump (h' a) 1 R) NT C1 C2 C3 NN) as (v & V & _ & B & _).
    split; [exists v; exact V|]. unfold key_weight. rewrite V. destruct (B ltac:(cbn; discriminate)) as [B1 B2]. cbn [set_bump_val create_adjustment_function kr_bump] in B2. apply Qle_Rle in B1. apply Qle_Rle in B2. change (Q2R 0) with (IZR 0 * / 1)%R in B1. change (Q2R 1) with (IZR 1 * / 1)%R in B2. rewrite Rinv_1, !Rmult_1_r in *. split; assumption.
  - set (h2 := fun a => set_bump_val 1 (h' a)). destruct (clock_of kc NC) as (phi & kk & HC). apply Permutation_length in P1 as PL. destruct col as [|a [|b r]]; cbn in PL; try lia.
    assert (CH2 : forall cl prev, (forall a, In a cl -> create_adjustment_function (h' a) = h' a) -> chained h' prev cl -> chained h2 prev cl).
    { induction cl as [|z cl IH]; intros prev M H; [exact I|]. destruct H as [H1 H2]. split; [|apply IH; [intros w Iw; apply M; right; exact Iw|exact H2]].
      unfold h2 at 1. cbn [set_bump_val create_adjustment_function kr_fun kr_prior kr_date kr_next]. pose proof (M z (or_introl eq_refl)) as Mz. apply (f_equal kr_fun) in Mz. cbn [create_adjustment_function kr_fun] in Mz. rewrite Mz. exact H1. }
    destruct (sum_parallel (countable kc) phi (countable_between kc) h2 1 d a b r) as (v & V & Ev).
    + apply CH2; [intros z Iz; apply Mem, Iz|exact CH].
    + unfold increasing. change (StronglySorted Z.lt (dates h' (a :: b :: r))). rewrite <- (same_cores_dates h h'); auto.
    + apply Forall_forall. intros z I. destruct (G z (In1 z I)) as (G1 & G2). destruct (C z) as (C1 & C2 & C3). unfold good, h2. cbn [set_bump_val create_adjustment_function kr_dcc kr_date kr_bump]. rewrite <- C1, <- C2, G1. split; [exists kk; exact HC|]. split; [exact G2|reflexivity].
    + assert (S : forall cl vs, mapM (fun a => kr_call (h2 a) d) cl = Ok vs -> sumR (List.map (fun a => key_weight (h' a) d) cl) = Q2R (fold_right Qplus 0%Q vs)).
      { induction cl as [|z cl IH]; cbn [mapM]; intros vs X; [injection X as <-; cbn; unfold Q2R; cbn; lra|]. destruct (kr_call (h2 z) d) as [q|] eqn:Q; [|discriminate]. cbn [bind] in X. destruct (mapM _ cl) as [qs|] eqn:M; [|discriminate]. injection X as <-. cbn [fold_right List.map]. rewrite Q2R_plus, <- (IH qs eq_refl). unfold sumR. cbn [fold_right]. unfold key_weight at 1. unfold h2 in Q. rewrite Q. reflexivity. }
      unfold coll_call in V. destruct (mapM (fun a => kr_call (h2 a) d) (a :: b :: r)) as [vs|] eqn:M; [|discriminate]. cbn [bind] in V. injection V as <-. rewrite (S _ _ M).
      assert (F : forall vs s, (fold_left Qplus vs s == s + fold_right Qplus 0 vs)%Q). { induction vs0 as [|q vs0 IH]; intros s; cbn [fold_left fold_right]; [ring|]. rewrite IH. ring. }
      rewrite F, Qplus_0_l in Ev. apply Qeq_eqR in Ev. rewrite Ev. unfold Q2R. cbn. lra.
Qed.


(** ---- specification ---- *)
(** sensitivity to a shift of every yield alike: minus the sum of amount times years times discount factor *)
Definition parallel_slope spline (cv : f_curve) (c : dcc) (ref : date) (l : list (date * f64)) : R :=
  (- sumR (List.map (fun p => B2R (snd p) * years c ref (fst p) * exp (- (yield_at spline cv (fst p) * years c ref (fst p))))%R l))%R.
(** third moment of the payments' times, with absolute amounts *)
Definition parallel_third spline (cv : f_curve) (c : dcc) (ref : date) (l : list (date * f64)) : R :=
  sumR (List.map (fun p => Rabs (B2R (snd p)) * years c ref (fst p) ^ 3 * exp (- (yield_at spline cv (fst p) * years c ref (fst p))))%R l).

Lemma ladder_core : forall spline ex total kvs m c ref l r y dl pays K, numpy_exp ex -> either_sum total -> f_new_yield_curve kvs m c CONTINUOUSLY_COMPOUNDED_YIELD ref l r = Ok y ->
  NoDup (List.map fst kvs) -> In dl (List.map fst kvs) -> (forall x, In x (List.map fst kvs) -> x <= dl) -> c <> THIRTY360 -> countable c ref -> countable c dl -> plain_yields spline (fy_curve y) c ref dl K -> (0 <= K <= 399)%R ->
  (Z.of_nat (List.length pays) <= 2 ^ 30)%Z -> (forall p, In p (received ref pays) -> fst p <= dl /\ amount_ok (snd p)) ->
  let L := received ref pays in let G := gross_at (yield_at spline (fy_curve y)) c ref L in
  forall (hk : heap) col hist fh, NoDup col -> (forall a, In a col -> fst (fh a) = hk a /\ key_dates_ok (hk a) /\ create_adjustment_function (hk a) = hk a /\ forall d, ref <= d <= dl -> weighs (hk a) d) ->
  exists more fh' rs, f_calculate_pv01_risk_ladder spline ex (f_history spline ex y hist) col (f_cashflow_instrument spline total pays) fh = (f_history spline ex y (hist ++ more), fh', Ok rs) /\
    Forall2 (fun a rk => fst rk = kr_date (hk a) /\ is_finite (snd rk) = true /\ (Rabs (B2R (snd rk) - central spline (fy_curve y) (hk a) c ref L) <= (INR (List.length L) + K + 3) / 2 ^ 43 * G)%R) col rs /\
    (forall a, In a col -> fst (fh' a) = hk a /\ B2R (snd (fh' a)) = (bp_value / 2)%R) /\ (forall a, ~ In a col -> fh' a = fh a).
Proof.
  intros spline ex total kvs m c ref l r y dl pays K HE ES H ND Il Ml N Rf Dl All HK Le Am L G hk col. induction col as [|a col IH]; intros hist fh NDc M; cbn [f_calculate_pv01_risk_ladder].
  - exists [], fh, []. rewrite app_nil_r. split; [reflexivity|]. split; [constructor|]. split; [intros ? []|auto].
  - apply NoDup_cons_iff in NDc. destruct NDc as [Na ND']. destruct (M a (or_introl eq_refl)) as (Fa & KD & Cr & We).
    destruct (fh a) as [ka b0] eqn:Ea. cbn [fst] in Fa. subst ka.
    destruct (key_deriv_core spline ex total kvs m c ref l r y hist dl pays (hk a) b0 K HE ES H ND Il Ml N Rf Dl All HK Le Am KD We) as (y' & h & x & E & Vh & Fx & _ & Fp & E2).
    destruct (deriv_history spline ex y hist (hk a, b0) (f_cashflow_instrument spline total pays)) as (more & Hm). rewrite E in Hm. cbn [fst] in Hm. subst y'.
    unfold f_calculate_pv01_risk. rewrite E. cbn [bind fst]. rewrite Cr.
    destruct (IH (hist ++ more) (f_upd fh a (hk a, h)) ND') as (more' & fh' & rs & El & Fl & In' & Out').
    { intros b Ib. unfold f_upd. replace (Nat.eqb b a) with false by (symmetry; apply Nat.eqb_neq; intros ->; contradiction). apply M. right. exact Ib. }
    rewrite El. exists (more ++ more'), fh', ((kr_date (hk a), fmul x f_basis_point) :: rs). rewrite app_assoc. split; [reflexivity|]. split; [|split].
    + constructor; [|exact Fl]. cbn [fst snd]. split; [reflexivity|]. split; [exact Fp|exact E2].
    + intros b [<- | Ib]; [|apply In', Ib]. rewrite Out' by exact Na. unfold f_upd. rewrite Nat.eqb_refl. split; [reflexivity|apply Vh].
    + intros b Nb. rewrite Out' by (intros I; apply Nb; right; exact I). unfold f_upd. replace (Nat.eqb b a) with false; [reflexivity|]. symmetry. apply Nat.eqb_neq. intros ->. apply Nb. left. reflexivity.
Qed.

(** weighted sums over the members *)
Lemma sum_swap {A B} (f : A -> B -> R) (la : list A) (lb : list B) : sumR (List.map (fun a => sumR (List.map (f a) lb)) la) = sumR (List.map (fun b => sumR (List.map (fun a => f a b) la)) lb).
Proof.
  unfold sumR. induction la as [|a la IH]; cbn [List.map fold_right].
  - induction lb as [|b lb IH]; cbn [List.map fold_right]; [reflexivity|]. rewrite <- IH. ring.
  - rewrite IH. clear IH. induction lb as [|b lb IH]; cbn [List.map fold_right]; [ring|]. rewrite <- IH. ring.
Qed.
Lemma sum_scale {A} (w : A -> R) x (l : list A) : sumR (List.map (fun a => w a * x)%R l) = (sumR (List.map w l) * x)%R.
Proof. unfold sumR. induction l as [|a l IH]; cbn [List.map fold_right]; [ring|]. rewrite IH. ring. Qed.
Lemma sum_unit {A} (w : A -> R) x (l : list A) : sumR (List.map w l) = 1%R -> sumR (List.map (fun a => w a * x)%R l) = x.
Proof. intros H. rewrite sum_scale, H. ring. Qed.
Lemma sum_same {A} (f g : A -> R) (l : list A) : (forall a, In a l -> f a = g a) -> sumR (List.map f l) = sumR (List.map g l).
Proof. intros H. unfold sumR. induction l as [|a l IH]; cbn [List.map fold_right]; [reflexivity|]. rewrite IH by (intros; apply H; right; assumption). rewrite (H a) by (left; reflexivity). reflexivity. Qed.
Lemma sum_below {A} (f g : A -> R) (l : list A) : (forall a, In a l -> f a <= g a)%R -> (sumR (List.map f l) <= sumR (List.map g l))%R.
Proof. intros H. unfold sumR. induction l as [|a l IH]; cbn [List.map fold_right]; [lra|]. apply Rplus_le_compat; [apply H; left; reflexivity|apply IH; intros; apply H; right; assumption]. Qed.
Lemma cube w X : (0 <= w <= 1 -> 0 <= X -> w ^ 3 * X <= w * X)%R.
Proof. intros H K. apply Rmult_le_compat_r; [exact K|]. assert (w * w <= 1)%R by nra. replace (w ^ 3)%R with (w * (w * w))%R by ring. apply Rle_trans with (w * 1)%R; [apply Rmult_le_compat_l; lra|lra]. Qed.
Lemma received_after ref l (p : date * f64) : In p (received ref l) -> ref <= fst p.
Proof.
  unfold received. intros I. apply in_flat_map in I. destruct I as ([d [a|]] & _ & I); cbn in I; [|destruct I]. destruct (ref <=? d) eqn:E; [|destruct I]. destruct I as [<- | []]. cbn. apply Z.leb_le, E.
Qed.
Lemma years_pos c ref d : c <> THIRTY360 -> countable c ref -> countable c d -> ref <= d -> (0 <= years c ref d)%R.
Proof.
  intros N R D L. destruct (accrual_ok c ref d N R D L) as (t & T & Z0 & Zp). unfold years. unfold accrual in T. unfold acc. rewrite T. replace 0%R with (Q2R 0) by (unfold Q2R; cbn; lra). apply Qle_Rle.
  destruct (Z.eq_dec d ref) as [E | E]; [rewrite (Z0 E); apply Qle_refl|apply Qlt_le_weak, Zp; lia].
Qed.
Lemma sum_minus {A} (f : A -> R) (l : list A) : sumR (List.map (fun a => - f a)%R l) = (- sumR (List.map f l))%R.
Proof. unfold sumR. induction l as [|a l IH]; cbn [List.map fold_right]; [ring|]. rewrite IH. ring. Qed.

(** the members' first order sensitivities add up to the parallel one, their third order ones to no more *)
Lemma slopes_sum spline cv (hk : heap) col c ref L : (forall p, In p L -> (forall a, In a col -> 0 <= key_weight (hk a) (fst p) <= 1)%R /\ sumR (List.map (fun a => key_weight (hk a) (fst p)) col) = 1%R /\ (0 <= years c ref (fst p))%R) ->
  sumR (List.map (fun a => slope_at spline cv (hk a) c ref L) col) = parallel_slope spline cv c ref L /\ (sumR (List.map (fun a => third_at spline cv (hk a) c ref L) col) <= parallel_third spline cv c ref L)%R.
Proof.
  intros H. unfold slope_at, third_at, parallel_slope, parallel_third. split; rewrite sum_swap.
  - rewrite <- sum_minus. apply sum_same. intros p I. destruct (H p I) as (_ & S & _).
    rewrite (sum_same _ (fun a => key_weight (hk a) (fst p) * - (B2R (snd p) * years c ref (fst p) * exp (- (yield_at spline cv (fst p) * years c ref (fst p)))))%R) by (intros; ring). exact (sum_unit (fun a => key_weight (hk a) (fst p)) _ col S).
  - apply sum_below. intros p I. destruct (H p I) as (B & S & T). set (X := (Rabs (B2R (snd p)) * years c ref (fst p) ^ 3 * exp (- (yield_at spline cv (fst p) * years c ref (fst p))))%R).
    apply Rle_trans with (sumR (List.map (fun a => key_weight (hk a) (fst p) * X)%R col)); [|apply Req_le; exact (sum_unit (fun a => key_weight (hk a) (fst p)) X col S)].
    assert (X0 : (0 <= X)%R). { unfold X. apply Rmult_le_pos; [apply Rmult_le_pos; [apply Rabs_pos|apply Rfunctions.pow_le, T]|apply Rlt_le, exp_pos]. }
    apply sum_below. intros a Ia. specialize (B a Ia). replace (Rabs (B2R (snd p)) * (key_weight (hk a) (fst p) * years c ref (fst p)) ^ 3 * exp (- (yield_at spline cv (fst p) * years c ref (fst p))))%R with (key_weight (hk a) (fst p) ^ 3 * X)%R by (unfold X; ring). exact (cube _ _ B X0).
Qed.

Theorem C117_ladder : forall spline ex total kvs m c ref l r y hist dl pays K ks h h' col kc fh, numpy_exp ex -> either_sum total -> f_new_yield_curve kvs m c CONTINUOUSLY_COMPOUNDED_YIELD ref l r = Ok y ->
  NoDup (List.map fst kvs) -> In dl (List.map fst kvs) -> (forall x, In x (List.map fst kvs) -> x <= dl) -> c <> THIRTY360 -> countable c ref -> countable c dl -> plain_yields spline (fy_curve y) c ref dl K -> (0 <= K <= 399)%R ->
  (Z.of_nat (List.length pays) <= 2 ^ 30)%Z -> (forall p, In p (received ref pays) -> fst p <= dl /\ amount_ok (snd p)) ->
  new_collection ks h = (h', Ok col) -> (2 <= List.length ks)%nat -> kc <> THIRTY360 -> (forall a, In a ks -> kr_dcc (h a) = kc /\ countable kc (kr_date (h a))) -> (forall a, In a ks -> fst (fh a) = h' a) ->
  let L := received ref pays in let e := ((INR (List.length L) + K + 3) / 2 ^ 43 * gross_at (yield_at spline (fy_curve y)) c ref L)%R in
  exists y' fh' rs, f_calculate_pv01_risk_ladder spline ex (f_history spline ex y hist) col (f_cashflow_instrument spline total pays) fh = (y', fh', Ok rs) /\
    Forall2 (fun a rk => fst rk = kr_date (h a) /\ is_finite (snd rk) = true /\ (Rabs (B2R (snd rk) - central spline (fy_curve y) (h' a) c ref L) <= e)%R) col rs /\
    (Rabs (sumR (List.map (fun rk => B2R (snd rk)) rs) - bp_value * parallel_slope spline (fy_curve y) c ref L) <= INR (List.length ks) * e + bp_value * (2 / 10 ^ 9) * parallel_third spline (fy_curve y) c ref L)%R /\
    (forall a, In a ks -> fst (fh' a) = h' a /\ B2R (snd (fh' a)) = (bp_value / 2)%R) /\ (forall a, ~ In a ks -> fh' a = fh a).
Proof.
  intros spline ex total kvs m c ref l r y hist dl pays K ks h h' col kc fh HE ES H ND Il Ml N Rf Dl All HK Le Am NC Len NT Gk Fh L e. pose proof bp_bounds as BB.
  destruct (members h ks h' col kc NC Len NT Gk) as (P & NDc & Mem & W).
  assert (I1 : forall a, In a col -> In a ks) by (intros a I; apply (Permutation_in a P I)). assert (I2 : forall a, In a ks -> In a col) by (intros a I; apply (Permutation_in a (Permutation_sym P) I)).
  destruct (ladder_core spline ex total kvs m c ref l r y dl pays K HE ES H ND Il Ml N Rf Dl All HK Le Am h' col hist fh NDc) as (more & fh' & rs & E & F & In' & Out').
  { intros a I. destruct (Mem a I) as (KD & Cr & _ & _). split; [apply Fh, I1, I|]. split; [exact KD|]. split; [exact Cr|]. intros d _. apply (proj1 (W d) a I). }
  exists (f_history spline ex y (hist ++ more)), fh', rs. split; [exact E|]. fold L e in F.
  assert (Yr : forall p, In p L -> (0 <= years c ref (fst p) <= 400)%R).
  { intros p I. destruct (Am p I) as [Lp _]. assert (Rp : ref <= fst p) by (apply received_after with pays, I). split; [apply years_pos; [exact N|exact Rf|apply (countable_between c ref dl (fst p) Rf Dl); lia|exact Rp]|]. destruct (All (fst p) ltac:(lia)) as (v & t & _ & _ & _ & T & B & _). unfold years. unfold accrual in T. unfold acc. rewrite T. exact B. }
  split; [|split; [|split]].
  - clear -F Mem. assert (G : forall cl (rk : list (date * f64)), Forall2 (fun a rk => fst rk = kr_date (h' a) /\ is_finite (snd rk) = true /\ (Rabs (B2R (snd rk) - central spline (fy_curve y) (h' a) c ref L) <= e)%R) cl rk -> (forall a, In a cl -> In a col) -> Forall2 (fun a rk => fst rk = kr_date (h a) /\ is_finite (snd rk) = true /\ (Rabs (B2R (snd rk) - central spline (fy_curve y) (h' a) c ref L) <= e)%R) cl rk).
    { induction 1 as [|a rk cl rks (A & B & C) X IH]; intros I; constructor; [|apply IH; intros; apply I; right; assumption]. split; [|split; assumption]. rewrite A. apply Mem, I. left. reflexivity. }
    apply G; [exact F|auto].
  - set (D := fun a => central spline (fy_curve y) (h' a) c ref L).
    assert (S1 : (Rabs (sumR (List.map (fun rk => B2R (snd rk)) rs) - sumR (List.map D col)) <= INR (List.length col) * e)%R).
    { clear -F. unfold sumR. induction F as [|a rk cl rks (A & B & C) X IH]; [cbn; rewrite Rminus_0_r, Rabs_R0; lra|]. change (List.length (a :: cl)) with (S (List.length cl)). rewrite S_INR. cbn [List.map fold_right]. fold (D a) in C.
      match goal with |- (Rabs (?p + ?s - (?q + ?t)) <= _)%R => replace (p + s - (q + t))%R with ((p - q) + (s - t))%R by ring end. apply Rle_trans with (1 := Rabs_triang _ _). lra. }
    assert (Kw : forall p, In p L -> (forall a, In a col -> 0 <= key_weight (h' a) (fst p) <= 1)%R /\ sumR (List.map (fun a => key_weight (h' a) (fst p)) col) = 1%R /\ (0 <= years c ref (fst p))%R).
    { intros p I. destruct (W (fst p)) as [W1 W2]. split; [intros a Ia; apply W1, Ia|]. split; [exact W2|apply Yr, I]. }
    destruct (slopes_sum spline (fy_curve y) h' col c ref L Kw) as [Sl Th].
    assert (S2 : (Rabs (sumR (List.map D col) - bp_value * sumR (List.map (fun a => slope_at spline (fy_curve y) (h' a) c ref L) col)) <= bp_value * (2 / 10 ^ 9) * sumR (List.map (fun a => third_at spline (fy_curve y) (h' a) c ref L) col))%R).
    { assert (One : forall a, In a col -> (Rabs (D a - bp_value * slope_at spline (fy_curve y) (h' a) c ref L) <= bp_value * (2 / 10 ^ 9) * third_at spline (fy_curve y) (h' a) c ref L)%R).
      { intros a Ia. pose proof (C115_central_difference spline (fy_curve y) (h' a) c ref L) as Cd. fold (D a) in Cd. lapply Cd; [clear Cd; intros Cd|].
        - replace (D a - bp_value * slope_at spline (fy_curve y) (h' a) c ref L)%R with (bp_value * (D a / bp_value - slope_at spline (fy_curve y) (h' a) c ref L))%R by (field; lra). rewrite Rabs_mult, (Rabs_pos_eq bp_value) by lra. rewrite Rmult_assoc. apply Rmult_le_compat_l; [lra|exact Cd].
        - intros p I. destruct (Kw p I) as (B & _ & _). specialize (B a Ia). pose proof (Yr p I) as Y. split; [apply Rmult_le_pos; lra|]. apply Rle_trans with (1 * 400)%R; [apply Rmult_le_compat; lra|lra]. }
      clear -One. unfold sumR. induction col as [|a cl IH]; cbn [List.map fold_right]; [rewrite !Rmult_0_r, Rminus_0_r, Rabs_R0; lra|]. specialize (IH (fun b I => One b (or_intror I))). specialize (One a (or_introl eq_refl)).
      match goal with |- (Rabs (?p + ?s - ?b * (?q + ?t)) <= _)%R => replace (p + s - b * (q + t))%R with ((p - b * q) + (s - b * t))%R by ring end. apply Rle_trans with (1 := Rabs_triang _ _). rewrite Rmult_plus_distr_l. lra. }
    rewrite Sl in S2. rewrite <- (Permutation_length P).
    match goal with |- (Rabs (?a - ?b) <= _)%R => replace (a - b)%R with ((a - sumR (List.map D col)) + (sumR (List.map D col) - b))%R by ring end. apply Rle_trans with (1 := Rabs_triang _ _).
    apply Rplus_le_compat; [exact S1|]. apply Rle_trans with (1 := S2). apply Rmult_le_compat_l; [|exact Th]. apply Rmult_le_pos; lra.
  - intros a I. apply In', I2, I.
  - intros a I. apply Out'. intros X. apply I, I1, X.
Qed.
Print Assumptions C117_ladder.


(** Two key rates around the two payments of C115's example. *)
Example C117_case : exists y h' fh rs, numpy_exp exact_np /\ either_sum f_sum /\ f_new_yield_curve two_yields LINEAR ACT365 CONTINUOUSLY_COMPOUNDED_YIELD 738521 CONSTANT CONSTANT = Ok y /\
  plain_yields no_spline (fy_curve y) ACT365 738521 738522 1 /\ (forall p, In p (received 738521 two_payments) -> fst p <= 738522 /\ amount_ok (snd p)) /\
  new_collection [1%nat; 0%nat] two_rates = (h', Ok [0%nat; 1%nat]) /\ (forall a, In a [1%nat; 0%nat] -> kr_dcc (two_rates a) = ACT365 /\ countable ACT365 (kr_date (two_rates a))) /\ (forall a, fst (fh a) = h' a) /\
  snd (f_calculate_pv01_risk_ladder no_spline exact_np y [0%nat; 1%nat] (f_cashflow_instrument no_spline f_sum two_payments) fh) = Ok rs /\ List.map fst rs = [738521; 738524].
Proof.
  destruct C115_case as (y & HE & ES & H & ND & Pl & Am & Len & _). exists y.
  assert (Ec : snd (new_collection [1%nat; 0%nat] two_rates) = Ok [0%nat; 1%nat]) by (vm_compute; reflexivity).
  destruct (new_collection [1%nat; 0%nat] two_rates) as [h' r] eqn:E. cbn [snd] in Ec. subst r.
  assert (Gk : forall a, In a [1%nat; 0%nat] -> kr_dcc (two_rates a) = ACT365 /\ countable ACT365 (kr_date (two_rates a))) by (intros a [<- | [<- | []]]; (split; [reflexivity|split; [unfold date_ok, min_date, max_date; cbn; lia|discriminate]])).
  exists h', (fun a => (h' a, of_int 0)).
  assert (A1 : In (738522 : date) (List.map fst two_yields)) by (right; left; reflexivity).
  assert (A2 : forall x : date, In x (List.map fst two_yields) -> x <= 738522) by (intros x [<- | [<- | []]]; cbn [fst]; lia).
  assert (A3 : ACT365 <> THIRTY360) by discriminate. assert (A4 : countable ACT365 738521) by (split; [unfold date_ok, min_date, max_date; lia|discriminate]). assert (A5 : countable ACT365 738522) by (split; [unfold date_ok, min_date, max_date; lia|discriminate]).
  assert (A6 : (0 <= 1 <= 399)%R) by lra. assert (A7 : Z.of_nat (List.length two_payments) <= 2 ^ 30) by (cbn [two_payments List.length]; lia). assert (A8 : (2 <= List.length [1%nat; 0%nat])%nat) by (cbn [List.length]; lia).
  destruct (C117_ladder no_spline exact_np f_sum two_yields LINEAR ACT365 738521 CONSTANT CONSTANT y [] 738522 two_payments 1 [1%nat; 0%nat] two_rates h' [0%nat; 1%nat] ACT365 (fun a => (h' a, of_int 0)) HE ES H ND A1 A2 A3 A4 A5 Pl A6 A7 Am E A8 A3 Gk (fun a _ => eq_refl)) as (y' & fh' & rs & El & F & _).
  change (f_history no_spline exact_np y []) with y in El. exists rs. split; [exact HE|]. split; [exact ES|]. split; [exact H|]. split; [exact Pl|]. split; [exact Am|]. split; [reflexivity|]. split; [exact Gk|]. split; [intros a; reflexivity|]. rewrite El. cbn [snd]. split; [reflexivity|].
  clear -F. inversion F as [|a1 r1 c1 s1 (B1 & _) F2]; subst. inversion F2 as [|a2 r2 c2 s2 (B2 & _) F3]; subst. inversion F3; subst. cbn [List.map]. exact (f_equal2 (fun u v : date => [u; v]) B1 B2).
Qed.


(** ---- key rates that do not reach the curve ---- *)
(** the key rate date's neighbours leave the day out *)
Definition beyond (k : kr) (d : date) : Prop := (exists n, kr_next k = Some n /\ n <= d) \/ (exists p, kr_prior k = Some p /\ d <= p).
(** the adjustment that adds zero on every day *)
Definition zero_adjust : f_adjust := Some (fun x => match x with ADate _ => Ok (of_int 0) | TheClass => Err TypeError end).

Lemma mapM_same {A B} (f g : A -> res B) l : (forall a, In a l -> f a = g a) -> mapM f l = mapM g l.
Proof. intros H. induction l as [|a l IH]; cbn [mapM]; [reflexivity|]. rewrite (H a) by (left; reflexivity). rewrite IH by (intros; apply H; right; assumption). reflexivity. Qed.

Lemma interpolate_same spline cv d a a' : f_adj_call a (ADate d) = f_adj_call a' (ADate d) -> f_adj_call a TheClass = f_adj_call a' TheClass -> f_interpolate spline cv d a = f_interpolate spline cv d a'.
Proof. intros E T. unfold f_interpolate. rewrite E, T. reflexivity. Qed.

Lemma pv_same spline ex kvs m c s ref l r y dl a a' (i : f_instrument) : f_new_yield_curve kvs m c s ref l r = Ok y -> NoDup (List.map fst kvs) -> In dl (List.map fst kvs) -> (forall x, In x (List.map fst kvs) -> x <= dl) ->
  (forall d, ref <= d <= dl -> f_adj_call a (ADate d) = f_adj_call a' (ADate d)) -> f_adj_call a TheClass = f_adj_call a' TheClass ->
  forall hist hist', snd (f_yc_present_value spline ex (f_history spline ex y hist) i a) = snd (f_yc_present_value spline ex (f_history spline ex y hist') i a').
Proof.
  intros H ND Il Ml A T hist hist'. apply new_fyc in H. destruct H as (Hn & Sp & Ck & Fr). pose proof (f_new_ok _ _ _ _ _ _ _ Hn) as (V & _ & EC & ER & _ & _ & P).
  assert (X : snd (f_to_discount_curve spline ex (f_history spline ex y hist) a) = snd (f_to_discount_curve spline ex (f_history spline ex y hist') a')).
  { destruct (history_fresh spline ex hist y Ck) as [C1 F1]. destruct (history_fresh spline ex hist' y Ck) as [C2 F2].
    destruct (f_to_dc_fresh spline ex _ a C1) as [-> _]. destruct (f_to_dc_fresh spline ex _ a' C2) as [-> _]. rewrite F1, F2. unfold f_to_discount_curve. cbn [f_fresh fy_curve fy_space fy_dc].
    assert (Kn : forall d, In d (List.map fst (fc_values (fy_curve y))) -> ref <= d <= dl).
    { intros d I. rewrite V in I. apply in_map_iff in I. destruct I as (kv & <- & I). destruct (Forall2_in_l _ _ _ _ P I) as (p & _ & [B _]). split; [apply (axis_after _ _ _ _ B)|apply Ml, in_map]. apply (proj1 (f_in kvs kv) I). }
    assert (E : f_discount_values spline ex (fy_curve y) (fy_space y) a = f_discount_values spline ex (fy_curve y) (fy_space y) a').
    { unfold f_discount_values. destruct (fy_space y); try reflexivity.
      - apply mapM_same. intros kv I. rewrite (interpolate_same spline (fy_curve y) (fst kv) a a'); [reflexivity|apply A, Kn, in_map, I|exact T].
      - destruct (fc_values (fy_curve y)) as [|kv rest] eqn:Ev; [reflexivity|]. rewrite ER.
        apply in_map_iff in Il. destruct Il as ([dl' vl] & Edl & Il). cbn in Edl. subst dl'. destruct (last_knot kvs dl vl ND Il Ml) as [_ La]. assert (Lb : fst (last (kv :: rest) kv) = dl) by (rewrite <- V in La; exact (La kv)). rewrite Lb.
        destruct (mapM (f_axis (fc_dcc (fy_curve y)) ref) (date_range ref dl)); [|reflexivity]. cbn [bind].
        rewrite (mapM_same (fun d => f_interpolate spline (fy_curve y) d a) (fun d => f_interpolate spline (fy_curve y) d a')); [reflexivity|]. intros d I. apply date_range_in in I. apply interpolate_same; [apply A, I|exact T]. }
    rewrite E. reflexivity. }
  unfold f_yc_present_value. destruct (f_to_discount_curve spline ex (f_history spline ex y hist) a) as [y1 r1], (f_to_discount_curve spline ex (f_history spline ex y hist') a') as [y2 r2]. cbn [snd] in X |- *. rewrite X. reflexivity.
Qed.

Lemma beyond_zero k d b : reachable k -> beyond k d -> f_kr_call b (create_adjustment_function k) d = Ok (of_int 0).
Proof.
  intros R B. destruct (reachable_inv k R) as [[P N] _]. unfold f_kr_call, f_adjustment. cbn [create_adjustment_function kr_dcc kr_fun].
  destruct B as [(n & E & L) | (p & E & L)].
  - specialize (N n E). rewrite E. destruct (kr_prior k) as [p|].
    + replace (n <=? d) with true by lia. reflexivity.
    + replace (d <=? kr_date k) with false by lia. replace (n <=? d) with true by lia. reflexivity.
  - specialize (P p E). rewrite E. destruct (kr_next k) as [n|].
    + replace (d <=? p) with true by lia. rewrite orb_true_r. reflexivity.
    + replace (kr_date k <=? d) with false by lia. replace (d <=? p) with true by lia. reflexivity.
Qed.

(** A key rate whose neighbours leave out every day of the curve has a risk of exactly zero, for any instrument, space and method. *)
Theorem C117_beyond : forall spline ex kvs m c s ref l r y dl hist k b0 (i : f_instrument) v, f_new_yield_curve kvs m c s ref l r = Ok y -> NoDup (List.map fst kvs) -> In dl (List.map fst kvs) -> (forall x, In x (List.map fst kvs) -> x <= dl) ->
  reachable k -> (forall d, ref <= d <= dl -> beyond k d) ->
  snd (f_yc_present_value spline ex y i zero_adjust) = Ok v -> is_finite v = true ->
  exists z, snd (f_calculate_pv01_risk spline ex (f_history spline ex y hist) (k, b0) i) = Ok (kr_date k, z) /\ is_finite z = true /\ B2R z = 0%R.
Proof.
  intros spline ex kvs m c s ref l r y dl hist k b0 i v H ND Il Ml R B Ev Fv.
  destruct half_up as (h & Eh & Vh). destruct half_down as (h' & Eh' & Vh').
  assert (Ad : forall b hist', snd (f_yc_present_value spline ex (f_history spline ex y hist') i (f_key_adjust b k)) = Ok v).
  { intros b hist'. rewrite (pv_same spline ex kvs m c s ref l r y dl (f_key_adjust b k) zero_adjust i H ND Il Ml) with (hist' := []); [exact Ev| |reflexivity]. intros d Ld. cbn [f_adj_call f_key_adjust zero_adjust]. rewrite create_twice. apply beyond_zero; [exact R|apply B, Ld]. }
  destruct (deriv_steps spline ex (f_history spline ex y hist) k b0 i h h' v v Eh' Eh (Ad h' hist)) as (Y' & E).
  { rewrite pv_history. apply Ad. }
  unfold f_calculate_pv01_risk. rewrite E. cbn [snd fst bind]. assert (Vv : val v (B2R v)) by (split; [exact Fv|reflexivity]). pose proof bp_bounds as BB.
  assert (Vz : val (fsub v v) 0).
  { assert (V0 : val (fsub v v) (rn (B2R v - B2R v))); [|replace (B2R v - B2R v)%R with 0%R in V0 by ring; rewrite rn_0 in V0; exact V0]. apply fsub_val; try exact Vv. replace (B2R v - B2R v)%R with 0%R by ring. rewrite Rabs_R0. apply bpow_ge_0. }
  destruct (fdiv_val _ _ _ _ Vz bp_val ltac:(lra)) as (q & Eq & Vq); [replace (0 / bp_value)%R with 0%R by (field; lra); rewrite Rabs_R0; apply bpow_ge_0|].
  replace (0 / bp_value)%R with 0%R in Vq by (field; lra). rewrite rn_0 in Vq. rewrite Eq. cbn [bind]. exists (fmul q f_basis_point). split; [reflexivity|].
  assert (Vp : val (fmul q f_basis_point) (rn (0 * bp_value))) by (apply fmul_val; [exact Vq|exact bp_val|]; rewrite Rmult_0_l, Rabs_R0; apply bpow_ge_0). rewrite Rmult_0_l, rn_0 in Vp. exact Vp.
Qed.
Print Assumptions C117_beyond.

(** A key rate two months after the last knot of C115's curve, linked to its neighbour one month after it. *)
Example C117_beyond_case : exists y k v, f_new_yield_curve two_yields LINEAR ACT365 CONTINUOUSLY_COMPOUNDED_YIELD 738521 CONSTANT CONSTANT = Ok y /\ reachable k /\ (forall d, 738521 <= d <= 738522 -> beyond k d) /\
  snd (f_yc_present_value no_spline exact_np y (f_cashflow_instrument no_spline f_sum two_payments) zero_adjust) = Ok v /\ is_finite v = true.
Proof.
  destruct C115_case as (y & HE & ES & H & ND & Pl & Am & _). exists y, (new_key_rate ACT365 738580 (Some 738550) None).
  assert (A1 : In (738522 : date) (List.map fst two_yields)) by (right; left; reflexivity).
  assert (A2 : forall x : date, In x (List.map fst two_yields) -> x <= 738522) by (intros x [<- | [<- | []]]; cbn [fst]; lia).
  assert (A3 : ACT365 <> THIRTY360) by discriminate. assert (A4 : countable ACT365 738521) by (split; [unfold date_ok, min_date, max_date; lia|discriminate]). assert (A5 : countable ACT365 738522) by (split; [unfold date_ok, min_date, max_date; lia|discriminate]).
  assert (A7 : Z.of_nat (List.length two_payments) <= 2 ^ 30) by (cbn [two_payments List.length]; lia).
  assert (Z : forall d, 738521 <= d <= 738522 -> exists v w, f_interpolate no_spline (fy_curve y) d None = Ok w /\ f_interpolate no_spline (fy_curve y) d zero_adjust = Ok v /\ val v (B2R w)).
  { intros d Ld. destruct (Pl d Ld) as (w & t & E & F & _ & _ & _ & _). apply new_fyc in H. destruct H as (Hn & _). pose proof (f_new_ok _ _ _ _ _ _ _ Hn) as (V & _).
    unfold zero_adjust. destruct (f_adjusted no_spline (fy_curve y) d (fun x => match x with ADate _ => Ok (of_int 0) | TheClass => Err TypeError end) w (of_int 0) E F) as (v0 & E0 & V0); [|reflexivity|].
    - intros kv. rewrite V. destruct (last_knot two_yields 738522 (flit 1 (-4)) ND (or_intror (or_introl eq_refl)) A2) as [_ La]. rewrite La. lia.
    - exists (fadd v0 (of_int 0)), w. split; [exact E|]. split; [exact E0|]. destruct V0 as [F0 <-]. exact (keep v0 F0). }
  destruct (C115_present_value no_spline exact_np f_sum two_yields LINEAR ACT365 738521 CONSTANT CONSTANT y [] zero_adjust 738522 two_payments (yield_at no_spline (fy_curve y)) 0%R 1%R HE ES H ND A1 A2 A3 A4 A5) as (v & Ev & Fv & _); try lra.
  - intros d Ld. destruct (Z d Ld) as (v & w & E & E0 & Fv & Vv). destruct (Pl d Ld) as (w' & t & E' & F & _ & T & _ & B). assert (w' = w) by congruence. subst w'. exists v, t. split; [exact E0|]. split; [exact Fv|]. split; [exact T|]. rewrite Vv. lra.
  - exact A7.
  - exact Am.
  - intros d v Ld E0'. destruct (Z d Ld) as (v' & w & E & E0 & Fv & Vv). assert (v' = v) by congruence. subst v'. destruct (Pl d Ld) as (w' & t & E' & F & _ & T & _ & B). assert (w' = w) by congruence. subst w'.
    unfold yield_at. rewrite E, Vv. unfold years, acc. unfold accrual in T. rewrite T. split; [|exact B]. match goal with |- (Rabs (?u - ?u) <= _)%R => replace (u - u)%R with 0%R by ring end. rewrite Rabs_R0. lra.
  - change (f_history no_spline exact_np y []) with y in Ev. exists v. split; [exact H|]. split; [|split; [|split; [exact Ev|exact Fv]]].
    + exists ACT365, 738580, (Some 738550), None, []. split; [intros x [= <-]; lia|]. split; [discriminate|reflexivity].
    + intros d Ld. right. exists 738550. split; [reflexivity|lia].
Qed.
