(** Property theorem C104: risk ladders of portfolios, and hedging with them (as examples/rates/delta_hedging.py does). *)
From Verif Require Import Base PyDate PyDateFacts DayCount DayCountFacts PyList KeyRate KeyRateFacts P_KeyRate Curve CurveFacts P_Curve Cashflow CashflowFacts P_Cashflow P_Yield P_Ladder.
From Coq Require Import Sorting.Sorted Permutation Qreals Lra Lqa.
From Verif Require Import KeyRateFacts.
Open Scope Z_scope.
Ltac lra := first [Lra.lra | Lqa.lra].

(** ---- what a ladder that was returned contains ---- *)
Lemma ladder_inv spline y i : forall coll y1 h y' h' rs, cache_ok y1 -> fresh y1 = y -> NoDup coll ->
  calculate_pv01_risk_ladder spline y1 coll i h = (y', h', Ok rs) ->
  Forall2 (fun a rk => exists n p, bumped spline y (h a) i (- half_bp) = Ok n /\ bumped spline y (h a) i half_bp = Ok p /\
                       rk = Risk (kr_date (h a)) (p - n)%R) coll rs.
Proof.
  induction coll as [|a coll IH]; intros y1 h y' h' rs C F ND E; cbn [calculate_pv01_risk_ladder] in E.
  - injection E as _ _ <-. constructor.
  - apply NoDup_cons_iff in ND. destruct ND as [Na ND]. destruct (deriv_core spline y1 (h a) i C) as [D _].
    change (- ONE_BASIS_POINT / inject_Z 2)%Q with (- half_bp)%Q in D. rewrite F in D.
    destruct (bumped spline y (h a) i (- half_bp)) as [n|e] eqn:En; cbn [bind] in D.
    2:{ exfalso. unfold calculate_pv01_risk in E. destruct (calculate_key_rate_deriv spline y1 (h a) i) as [[y2 k2] r2]. cbn in D. subst r2. cbn in E. discriminate. }
    destruct (bumped spline y (h a) i half_bp) as [p|e] eqn:Ep; cbn [bind] in D.
    2:{ exfalso. unfold calculate_pv01_risk in E. destruct (calculate_key_rate_deriv spline y1 (h a) i) as [[y2 k2] r2]. cbn in D. subst r2. cbn in E. discriminate. }
    pose proof En as En'. pose proof Ep as Ep'. rewrite <- F in En', Ep'.
    destruct (pv01_core spline y1 (h a) i n p C En' Ep') as (y2 & Ey & C2 & F2). rewrite Ey in E.
    destruct (calculate_pv01_risk_ladder spline y2 coll i (upd h a (set_bump_val half_bp (h a)))) as [[y3 h3] [rs'|e]] eqn:E3; cbn [bind] in E; [|discriminate].
    injection E as _ _ <-. constructor; [exists n, p; auto|].
    pose proof (IH y2 _ y3 h3 rs' C2 ltac:(congruence) ND E3) as G.
    clear -G Na. induction G as [|b rk bs rks Hb Fb IHb]; constructor.
    + rewrite upd_other in Hb by (intros ->; apply Na; left; auto). exact Hb.
    + apply IHb. intros I. apply Na. right; auto.
Qed.

(** key rates equal up to the bumps they are left with *)
Definition up_to_bumps (coll : list addr) (h g : heap) : Prop := forall a, In a coll -> forall b, set_bump_val b (g a) = set_bump_val b (h a).
Definition queries (qs : list yc_op) : Prop := forall o, In o qs -> exists q, o = Query q.

(** [rs] is the ladder of the instrument on the curve, computed after some queries of the curve and with whatever bumps *)
Definition has_ladder spline (y : ycurve) (coll : list addr) (h : heap) (i : instrument) (rs : list risk) : Prop :=
  exists qs g y1 h1, queries qs /\ up_to_bumps coll h g /\ calculate_pv01_risk_ladder spline (yc_run spline y qs) coll i g = (y1, h1, Ok rs).

Lemma run_fresh spline kvs m c s ref l r y qs : new_yield_curve kvs m c s ref l r = Ok y -> queries qs ->
  cache_ok (yc_run spline y qs) /\ fresh (yc_run spline y qs) = y.
Proof.
  intros H Q. apply new_yc_cache in H. destruct H as (C & Sp & Hn & Hd).
  destruct (run_inv_yc spline qs y C) as (C' & S' & _ & Q'). specialize (Q' Q). split; [auto|].
  unfold fresh. rewrite S', Q'. destruct y; cbn in *. congruence.
Qed.

Definition get_pv (r : res R) : R := match r with Ok v => v | Err _ => 0%R end.

Lemma has_ladder_inv spline kvs m c s ref l r y coll h i rs : new_yield_curve kvs m c s ref l r = Ok y -> NoDup coll ->
  has_ladder spline y coll h i rs ->
  (forall a b, In a coll -> b = (- half_bp)%Q \/ b = half_bp -> bumped spline y (h a) i b = Ok (get_pv (bumped spline y (h a) i b))) /\
  rs = List.map (fun a => Risk (kr_date (h a)) (get_pv (bumped spline y (h a) i half_bp) - get_pv (bumped spline y (h a) i (- half_bp)))%R) coll.
Proof.
  intros H ND (qs & g & y1 & h1 & Q & U & E). destruct (run_fresh spline _ _ _ _ _ _ _ _ qs H Q) as [C F].
  pose proof (ladder_inv spline y i coll _ g _ _ rs C F ND E) as G. clear E ND.
  induction G as [|a rk coll rs (n & p & En & Ep & ->) G IH]; [split; [intros ? ? [] | reflexivity]|].
  unfold bumped in En, Ep. rewrite (U a ltac:(left; auto)) in En, Ep. fold (bumped spline y (h a) i (- half_bp)) in En. fold (bumped spline y (h a) i half_bp) in Ep.
  pose proof (f_equal kr_date (U a ltac:(left; auto) 0%Q)) as Dt. cbn in Dt.
  destruct IH as [A B]; [intros x Ix; apply U; right; auto|]. split.
  - intros x b [<-|Ix] Hb; [|auto]. destruct Hb as [->| ->]; [rewrite En | rewrite Ep]; reflexivity.
  - cbn [List.map]. rewrite En, Ep, Dt. cbn. f_equal. exact B.
Qed.

Lemma bumped_portfolio spline y k p b (v : entry -> R) : assets p <> [] ->
  (forall e, In e (assets p) -> bumped spline y k (asset_pv e) b = Ok (v e)) ->
  bumped spline y k (pf_present_value p) b = Ok (rsum (List.map (fun e => (quantity e * v e)%R) (assets p)) + cash_amount p)%R.
Proof.
  intros NE H. unfold bumped, yc_present_value in *. destruct (to_discount_curve spline y (kr_adjust (set_bump_val b k))) as [y' [dc|e]]; cbn [snd bind] in *.
  - apply C47_linear. exact H.
  - exfalso. destruct (assets p) as [|x xs]; [congruence|]. specialize (H x ltac:(left; auto)). discriminate.
Qed.

Lemma rsum_map_minus {A} (f g : A -> R) l : (rsum (List.map f l) - rsum (List.map g l))%R = rsum (List.map (fun a => f a - g a)%R l).
Proof. induction l as [|a l IH]; cbn [List.map]; rewrite ?rsum_nil, ?rsum_cons; [lra|]. rewrite <- IH. lra. Qed.

(** The ladder of a portfolio, after any queries: one risk per key rate, each the sum of quantity times the PV01 of the asset to
    that key rate; cash has none.  [L] gives the PV01s in the ladders of the single assets, computed in any order, after any
    queries, with whatever bumps earlier ladders left. *)
Theorem C104_linear : forall spline kvs m c s ref l r y coll h p (L : entry -> list R) qs,
  new_yield_curve kvs m c s ref l r = Ok y -> NoDup coll -> assets p <> [] -> queries qs ->
  (forall e, In e (assets p) -> exists rs, has_ladder spline y coll h (asset_pv e) rs /\ L e = List.map r_pv01 rs) ->
  exists y2 h2 rs, calculate_pv01_risk_ladder spline (yc_run spline y qs) coll (pf_present_value p) h = (y2, h2, Ok rs) /\
    List.map r_date rs = List.map (date_of h) coll /\ List.length rs = List.length coll /\
    forall k, (k < List.length coll)%nat -> nth k (List.map r_pv01 rs) 0%R = rsum (List.map (fun e => quantity e * nth k (L e) 0)%R (assets p)).
Proof.
  intros spline kvs m c s ref l r y coll h p L qs H ND NE Q HL.
  set (v := fun a b e => get_pv (bumped spline y (h a) (asset_pv e) b)).
  assert (B : forall a b, In a coll -> b = (- half_bp)%Q \/ b = half_bp ->
    bumped spline y (h a) (pf_present_value p) b = Ok (rsum (List.map (fun e => (quantity e * v a b e)%R) (assets p)) + cash_amount p)%R).
  { intros a b Ia Hb. apply bumped_portfolio; auto. intros e Ie. destruct (HL e Ie) as (rs & X & _).
    destruct (has_ladder_inv spline _ _ _ _ _ _ _ y coll h _ rs H ND X) as [A _]. apply A; auto. }
  destruct (C31_ladder spline kvs m c s ref l r y qs (pf_present_value p) coll h H Q ND) as (y2 & h2 & rs & E & F & _).
  { intros a Ia. do 2 eexists. split; apply B; auto. }
  exists y2, h2, rs. split; [exact E|].
  assert (Rs : rs = List.map (fun a => Risk (kr_date (h a)) (rsum (List.map (fun e => quantity e * (v a half_bp e - v a (- half_bp)%Q e))%R (assets p)))) coll).
  { clear - F B. induction F as [|a rk coll rs (n & q & En & Eq & ->) F IH]; [reflexivity|]. cbn [List.map].
    rewrite B in En, Eq by (auto; left; auto). injection En as <-. injection Eq as <-. rewrite <- IH by (intros; apply B; auto; right; auto). f_equal. f_equal.
    match goal with |- (?x + ?z - (?w + ?z))%R = _ => replace (x + z - (w + z))%R with (x - w)%R by ring end.
    rewrite rsum_map_minus. f_equal. apply map_ext. intros e. ring. }
  split; [rewrite Rs, map_map; reflexivity|]. split; [rewrite Rs, map_length; reflexivity|].
  intros k Hk. rewrite Rs, map_map. cbn [r_pv01].
  destruct (nth_error coll k) as [a|] eqn:Na; [|apply nth_error_None in Na; lia].
  rewrite (nth_error_nth _ _ _ (map_nth_error _ _ _ Na)). f_equal. apply map_ext_in. intros e Ie. destruct (HL e Ie) as (rse & X & ->).
  destruct (has_ladder_inv spline _ _ _ _ _ _ _ y coll h _ rse H ND X) as [_ ->]. rewrite map_map. cbn [r_pv01].
  rewrite (nth_error_nth _ _ _ (map_nth_error _ _ _ Na)). reflexivity.
Qed.
Print Assumptions C104_linear.

(** the positions of a portfolio, the other way round *)
Definition short (e : entry) : entry := Entry (- quantity e) (asset_pv e) (asset_knot e).

(** If the quantities of the hedging portfolio solve the linear system of its assets' PV01s for the PV01s of a portfolio (as
    np.linalg.solve does), the two have equal ladders, and the portfolio less the hedge has no exposure to any key rate. *)
Theorem C104_hedge : forall spline kvs m c s ref l r y coll h p hedge (L : entry -> list R) rp qs,
  new_yield_curve kvs m c s ref l r = Ok y -> NoDup coll -> assets p <> [] -> assets hedge <> [] -> queries qs ->
  (forall e, In e (assets p ++ assets hedge) -> exists rs, has_ladder spline y coll h (asset_pv e) rs /\ L e = List.map r_pv01 rs) ->
  has_ladder spline y coll h (pf_present_value p) rp ->
  (forall k, (k < List.length coll)%nat -> rsum (List.map (fun e => nth k (L e) 0 * quantity e)%R (assets hedge)) = nth k (List.map r_pv01 rp) 0%R) ->
  (exists y2 h2, calculate_pv01_risk_ladder spline (yc_run spline y qs) coll (pf_present_value hedge) h = (y2, h2, Ok rp)) /\
  (forall cash, exists y2 h2 rs, calculate_pv01_risk_ladder spline (yc_run spline y qs) coll (pf_present_value (Portfolio (assets p ++ List.map short (assets hedge)) cash)) h = (y2, h2, Ok rs) /\
     List.length rs = List.length coll /\ forall rk, In rk rs -> r_pv01 rk = 0%R).
Proof.
  intros spline kvs m c s ref l r y coll h p hedge L rp qs H ND NEp NEh Q HL HP Sol.
  destruct (C104_linear spline kvs m c s ref l r y coll h hedge L qs H ND NEh Q) as (y2 & h2 & rs & E & D & Len & V).
  { intros e Ie. apply HL. apply in_or_app. auto. }
  destruct (C104_linear spline kvs m c s ref l r y coll h p L qs H ND NEp Q) as (y3 & h3 & rs3 & E3 & D3 & Len3 & V3).
  { intros e Ie. apply HL. apply in_or_app. auto. }
  destruct (has_ladder_inv spline _ _ _ _ _ _ _ y coll h _ rp H ND HP) as [_ Rp].
  assert (Lp : List.length rp = List.length coll) by (rewrite Rp, map_length; reflexivity).
  assert (Dp : List.map r_date rp = List.map (date_of h) coll) by (rewrite Rp, map_map; reflexivity).
  assert (E3p : rs3 = rp).
  { destruct (has_ladder_inv spline _ _ _ _ _ _ _ y coll h (pf_present_value p) rs3 H ND) as [_ R3]; [|congruence].
    exists qs, h, y3, h3. split; [auto|]. split; [intros a Ia b; reflexivity | exact E3]. }
  subst rs3.
  assert (Ext : forall x z : list risk, List.map r_date x = List.map r_date z ->
    (forall k, (k < List.length x)%nat -> nth k (List.map r_pv01 x) 0%R = nth k (List.map r_pv01 z) 0%R) -> x = z).
  { induction x as [|[d1 v1] x IH]; intros [|[d2 v2] z] Hd Hv; try discriminate; [reflexivity|]. cbn in Hd. injection Hd as -> Hd. f_equal.
    - f_equal. apply (Hv 0%nat). cbn; lia.
    - apply IH; [exact Hd|]. intros k Hk. apply (Hv (S k)). cbn; lia. }
  split.
  - exists y2, h2. rewrite E. f_equal. f_equal. apply Ext; [congruence|]. intros k Hk. rewrite V by lia. rewrite <- Sol by lia.
    f_equal. apply map_ext. intros e. ring.
  - intros cash. set (net := Portfolio (assets p ++ List.map short (assets hedge)) cash).
    assert (NEn : assets net <> []) by (cbn; destruct (assets p); [congruence | discriminate]).
    set (L' := fun e : entry => List.map r_pv01
        (List.map (fun a => Risk (kr_date (h a)) (get_pv (bumped spline y (h a) (asset_pv e) half_bp) - get_pv (bumped spline y (h a) (asset_pv e) (- half_bp)))%R) coll)).
    assert (HL' : forall e, In e (assets p ++ assets hedge) -> L' e = L e).
    { intros e Ie. destruct (HL e Ie) as (rse & X & ->). destruct (has_ladder_inv spline _ _ _ _ _ _ _ y coll h _ rse H ND X) as [_ ->]. reflexivity. }
    destruct (C104_linear spline kvs m c s ref l r y coll h net L' qs H ND NEn Q) as (y4 & h4 & rs4 & E4 & D4 & Len4 & V4).
    { intros e Ie. cbn in Ie. apply in_app_or in Ie. destruct Ie as [Ie|Ie].
      - destruct (HL e ltac:(apply in_or_app; auto)) as (rse & X & Y). exists rse. split; [exact X|]. rewrite HL' by (apply in_or_app; auto). exact Y.
      - apply in_map_iff in Ie. destruct Ie as (e' & <- & Ie). destruct (HL e' ltac:(apply in_or_app; auto)) as (rse & X & Y). exists rse.
        split; [exact X|]. change (L' (short e')) with (L' e'). rewrite HL' by (apply in_or_app; auto). exact Y. }
    exists y4, h4, rs4. split; [exact E4|]. split; [exact Len4|]. intros rk Ir. apply (in_map r_pv01) in Ir. apply (In_nth _ _ 0%R) in Ir.
    destruct Ir as (k & Hk & <-). rewrite map_length, Len4 in Hk. rewrite V4 by exact Hk. cbn [assets net]. rewrite map_app, rsum_app, map_map.
    specialize (V3 k Hk). specialize (Sol k Hk).
    rewrite (map_ext_in _ (fun e => quantity e * nth k (L e) 0)%R (assets p)) by (intros e Ie; rewrite HL' by (apply in_or_app; auto); reflexivity).
    rewrite (map_ext_in _ (fun e => (-1) * (nth k (L e) 0 * quantity e))%R (assets hedge)) by (intros e Ie; change (L' (short e)) with (L' e); rewrite HL' by (apply in_or_app; auto); cbn; ring).
    rewrite rsum_map_scale, Sol, <- V3. ring.
Qed.
Print Assumptions C104_hedge.

(** Zero coupon bonds maturing on the dates of the key rates, the hedging assets of the example: each has a negative PV01 to the
    key rate of its own date and none to the others, so the system is diagonal and always has a solution. *)
Theorem C104_diagonal : forall spline kvs m c ref r dl y l h h' col kc a, usual kvs m c ref r dl y ->
  new_collection l h = (h', Ok col) -> (2 <= List.length l)%nat -> kc <> THIRTY360 ->
  (forall a, In a l -> kr_dcc (h a) = kc /\ countable kc (kr_date (h a))) ->
  In a col -> ref < kr_date (h' a) <= dl ->
  forall amount cf, (0 < amount)%R -> cf = [Payment (kr_date (h' a)) (Some amount)] ->
  forall qs, queries qs -> exists y2 h2 rs, calculate_pv01_risk_ladder spline (yc_run spline y qs) col (cf_present_value spline cf) h' = (y2, h2, Ok rs) /\
    Forall2 (fun b rk => r_date rk = kr_date (h' b) /\ (b <> a -> r_pv01 rk = 0%R) /\ (b = a -> (r_pv01 rk < 0)%R)) col rs.
Proof.
  intros spline kvs m c ref r dl y l h h' col kc a U E L NC G Ia Ld A cf PA Ecf qs Q.
  destruct (weights h l h' col kc E L NC G) as (ND & W & W0 & W1 & WA & W2).
  assert (P : forall p, In p cf -> (0 <= amt p)%R /\ payment_date p <= dl) by (subst cf; intros p [<-|[]]; cbn; split; [lra | lia]).
  pose proof U as (H & ND' & Il & Ml & N & Rf & Dl).
  destruct (pv_function spline kvs m c ref r dl y cf U P) as (fs & Fs & PV).
  assert (B : forall x b, In x col -> bumped spline y (h' x) (cf_present_value spline cf) b = Ok (flows_pv (fun d => Q2R b * W x d)%R fs)).
  { intros x b I. unfold bumped. apply PV. intros d _. apply WA; auto. }
  (* the present value under a constant shift decreases, so some flow counts *)
  assert (Oth : forall b, In b col -> b <> a -> W b (kr_date (h' a)) = 0%R).
  { intros b Ib Nb. specialize (W1 (kr_date (h' a))). apply in_split in Ia. destruct Ia as (c1 & c2 & ->).
    rewrite map_app in W1. cbn [List.map] in W1. rewrite rsum_app, rsum_cons, W2 in W1 by (apply in_or_app; right; left; auto).
    assert (Z : (rsum (List.map (fun x => W x (kr_date (h' a))) (c1 ++ c2)) = 0)%R) by (rewrite map_app, rsum_app; lra).
    assert (I' : In b (c1 ++ c2)) by (apply in_app_or in Ib; apply in_or_app; destruct Ib as [Ib|[Ib|Ib]]; auto; congruence).
    assert (NN : forall x, In x (c1 ++ c2) -> (0 <= W x (kr_date (h' a)))%R).
    { intros x Ix. apply W0. apply in_app_or in Ix. apply in_or_app. destruct Ix; [auto | right; right; auto]. }
    clear - Z I' NN. revert Z I' NN. generalize (c1 ++ c2) as q. induction q as [|x q IH]; intros Z I' NN; [destruct I'|]. cbn [List.map] in Z. rewrite rsum_cons in Z.
    assert (0 <= rsum (List.map (fun x => W x (kr_date (h' a))) q))%R.
    { rewrite <- (rsum_map_0 q). apply rsum_map_le. intros; apply NN; right; auto. }
    specialize (NN x ltac:(left; auto)) as Nx. destruct I' as [<-|I']; [lra|]. apply IH; auto; [lra|]. intros; apply NN; right; auto. }
  assert (Fd : forall f, In f fs -> f_date f = kr_date (h' a)).
  { intros f If. destruct (Fs f If) as (_ & _ & _ & (p & t & Ip & Ed & _)). subst cf. destruct Ip as [<-|[]]. exact Ed. }
  assert (Cst : forall (x z : date -> R), x (kr_date (h' a)) = z (kr_date (h' a)) -> flows_pv x fs = flows_pv z fs).
  { intros x z Exz. unfold flows_pv. f_equal. apply map_ext_in. intros f If. rewrite (Fd f If), Exz. reflexivity. }
  destruct (C31_ladder spline kvs m c _ ref _ r y qs (cf_present_value spline cf) col h' H Q ND) as (y2 & h2 & rs & EL & FL & _);
    [intros x I; do 2 eexists; split; apply B; auto|].
  exists y2, h2, rs. split; [exact EL|].
  assert (Hb : (0 < Q2R half_bp)%R) by (unfold half_bp, ONE_BASIS_POINT, Q2R; cbn; Lra.lra).
  assert (Neg : (flows_pv (fun d => Q2R half_bp * W a d)%R fs < flows_pv (fun d => Q2R (- half_bp) * W a d)%R fs)%R).
  { assert (Cd : countable c (kr_date (h' a))) by (eapply countable_between; [exact Rf | exact Dl | lia]).
    destruct (accrual_ok c ref (kr_date (h' a)) N Rf Cd ltac:(lia)) as (t & T & _ & Tp). specialize (Tp ltac:(lia)).
    assert (Tr : (0 < Q2R t)%R) by (replace 0%R with (Q2R 0) by (unfold Q2R; cbn; Lra.lra); apply Qlt_Rlt; exact Tp).
    destruct (usual_value spline kvs m c ref r dl y (kr_date (h' a)) U ltac:(lia)) as (v & Ev).
    assert (Val : forall x, flows_pv (fun _ => x) fs = (exp (- ((v + x) * Q2R t)) * A)%R).
    { intros x. pose proof (PV (shift x) (fun _ => x) ltac:(reflexivity)) as E0. unfold yc_present_value in E0.
      destruct (C29_usual_discount_factors spline kvs m c ref r dl y [] (shift x) U) as (dc & Ed & Rd & Ad); [intros ? [] | intros d _; eexists; reflexivity|].
      cbn in Ed. destruct (to_discount_curve spline y (shift x)) as [y' rr]. cbn in Ed. subst rr. cbn [snd bind] in E0.
      unfold cf_present_value in E0. subst cf. cbn [pv_terms amount payment_date] in E0. rewrite Rd in E0. replace (ref <=? kr_date (h' a)) with true in E0 by lia.
      destruct (Ad (kr_date (h' a)) ltac:(lia)) as (t' & v' & x' & T' & V' & X' & Ei). rewrite Ei in E0. cbn in E0. cbn in X'. injection X' as <-.
      unfold accrual in T, T'. rewrite T in T'. injection T' as <-. rewrite (Ev None) in V'. cbn in V'. rewrite Rplus_0_r in V'. injection V' as <-.
      injection E0 as E0. etransitivity; [symmetry; exact E0|]. unfold rsum. cbn. ring. }
    rewrite (Cst (fun d => Q2R half_bp * W a d)%R (fun _ => Q2R half_bp)) by (rewrite W2 by auto; ring).
    rewrite (Cst (fun d => Q2R (- half_bp) * W a d)%R (fun _ => (- Q2R half_bp)%R)) by (rewrite W2 by auto; rewrite Q2R_opp; ring).
    rewrite !Val. apply Rmult_lt_compat_r; [exact PA|]. apply exp_increasing.
    assert (0 < Q2R half_bp * Q2R t)%R by (apply Rmult_lt_0_compat; auto). lra. }
  clear - FL B Neg Oth Cst. induction FL as [|x rk c0 rs (n & p & En & Ep & ->) FL IH]; constructor.
  - rewrite B in En, Ep by (left; auto). injection En as <-. injection Ep as <-. cbn. split; [reflexivity|]. split.
    + intros Nx. rewrite (Cst (fun d => Q2R half_bp * W x d)%R (fun d => Q2R (- half_bp) * W x d)%R); [ring|]. rewrite (Oth x) by (auto; left; auto). ring.
    + intros ->. lra.
  - apply IH; [intros; apply B; right; auto | intros; apply Oth; auto; right; auto].
Qed.
Print Assumptions C104_diagonal.

Lemma rsum_single {A} (f : A -> R) b l : NoDup l -> In b l -> (forall a, In a l -> a <> b -> f a = 0%R) -> rsum (List.map f l) = f b.
Proof.
  induction l as [|a l IH]; intros ND I Z; [destruct I|]. apply NoDup_cons_iff in ND. destruct ND as [Na ND]. cbn [List.map]. rewrite rsum_cons.
  destruct I as [->|I].
  - assert (rsum (List.map f l) = 0%R); [|lra]. transitivity (rsum (List.map (fun _ : A => 0%R) l)); [|apply rsum_map_0].
    f_equal. apply map_ext_in. intros x Ix. apply Z; [right; auto | intros ->; contradiction].
  - rewrite IH; auto; [|intros; apply Z; auto; right; auto]. rewrite (Z a); [lra | left; auto | intros ->; contradiction].
Qed.

(** So any portfolio with a ladder can be hedged with unit zero coupon bonds, one per key rate: some quantities of them have
    exactly its ladder. *)
Theorem C104_zero_coupon_hedge : forall spline kvs m c ref r dl y l h h' col kc i rp qs, usual kvs m c ref r dl y ->
  new_collection l h = (h', Ok col) -> (2 <= List.length l)%nat -> kc <> THIRTY360 ->
  (forall a, In a l -> kr_dcc (h a) = kc /\ countable kc (kr_date (h a))) ->
  (forall a, In a col -> ref < kr_date (h' a) <= dl) -> has_ladder spline y col h' i rp -> queries qs ->
  exists hedge, List.map asset_knot (assets hedge) = List.map (date_of h') col /\ cash_amount hedge = 0%R /\
    (forall e, In e (assets hedge) -> asset_pv e = cf_present_value spline [Payment (asset_knot e) (Some 1%R)]) /\
    exists y2 h2, calculate_pv01_risk_ladder spline (yc_run spline y qs) col (pf_present_value hedge) h' = (y2, h2, Ok rp).
Proof.
  intros spline kvs m c ref r dl y l h h' col kc i rp qs U E L NC G Ld HP Q. pose proof U as (H & _).
  destruct (weights h l h' col kc E L NC G) as (ND & _).
  set (pv01 := fun (j : instrument) b => (get_pv (bumped spline y (h' b) j half_bp) - get_pv (bumped spline y (h' b) j (- half_bp)))%R).
  set (zc := fun d => cf_present_value spline [Payment d (Some 1%R)]).
  assert (D : forall a, In a col -> exists rs, has_ladder spline y col h' (zc (kr_date (h' a))) rs /\
     (forall b, In b col -> (b <> a -> pv01 (zc (kr_date (h' a))) b = 0%R) /\ (b = a -> (pv01 (zc (kr_date (h' a))) b < 0)%R))).
  { intros a Ia. destruct (C104_diagonal spline kvs m c ref r dl y l h h' col kc a U E L NC G Ia (Ld a Ia) 1 _ ltac:(lra) eq_refl qs Q) as (y2 & h2 & rs & EL & F).
    exists rs. assert (HLa : has_ladder spline y col h' (zc (kr_date (h' a))) rs) by (exists qs, h', y2, h2; split; [auto|]; split; [intros x Ix b; reflexivity | exact EL]).
    split; [exact HLa|]. destruct (has_ladder_inv spline _ _ _ _ _ _ _ y col h' _ rs H ND HLa) as [_ Rs]. intros b Ib.
    rewrite Rs in F. clear - F Ib. induction col as [|x cl IH]; [destruct Ib|]. cbn [List.map] in F. inversion F as [|? ? ? ? (_ & F1 & F2) F']; subst.
    destruct Ib as [<-|Ib]; [split; [exact F1 | exact F2] | apply IH; auto]. }
  destruct (has_ladder_inv spline _ _ _ _ _ _ _ y col h' i rp H ND HP) as [_ Rp].
  set (q := fun a => (pv01 i a / pv01 (zc (kr_date (h' a))) a)%R).
  set (hedge := Portfolio (List.map (fun a => Entry (q a) (zc (kr_date (h' a))) (kr_date (h' a))) col) 0%R).
  assert (NE : assets hedge <> []).
  { intros X. cbn in X. apply map_eq_nil in X. destruct (C22_construction h l) as (h1 & c1 & X1 & P1 & _); [intros ->; cbn in L; lia | | rewrite E in X1; injection X1 as <- <-; rewrite X in P1; apply Permutation_nil in P1; subst l; cbn in L; lia].
    destruct (ListDec.NoDup_dec Z.eq_dec (dates h l)) as [|Nd]; auto. destruct (new_collection_err l h (or_intror Nd)) as (hh & E'). rewrite E in E'. discriminate. }
  exists hedge. split; [cbn; rewrite map_map; reflexivity|]. split; [reflexivity|].
  split; [intros e Ie; cbn in Ie; apply in_map_iff in Ie; destruct Ie as (a & <- & _); reflexivity|].
  destruct (C104_linear spline kvs m c _ ref _ r y col h' hedge (fun e => List.map (pv01 (asset_pv e)) col) qs H ND NE Q) as (y2 & h2 & rs & EL & Dt & Len & V).
  { intros e Ie. cbn in Ie. apply in_map_iff in Ie. destruct Ie as (a & <- & Ia). destruct (D a Ia) as (rsa & X & _). exists rsa. split; [exact X|].
    destruct (has_ladder_inv spline _ _ _ _ _ _ _ y col h' _ rsa H ND X) as [_ ->]. rewrite map_map. reflexivity. }
  exists y2, h2. rewrite EL. f_equal. f_equal.
  assert (Lp : List.length rp = List.length col) by (rewrite Rp, map_length; reflexivity).
  apply (nth_ext _ _ (Risk 0 0%R) (Risk 0 0%R)); [congruence|]. intros k Hk. rewrite Len in Hk.
  destruct (nth_error col k) as [b|] eqn:Nb; [|apply nth_error_None in Nb; lia]. pose proof (nth_error_In _ _ Nb) as Ib.
  rewrite Rp. rewrite (nth_error_nth _ _ _ (map_nth_error _ _ _ Nb)). fold (pv01 i b).
  assert (Vk := V k Hk). rewrite (nth_indep _ 0%R (r_pv01 (Risk 0 0%R))) in Vk by (rewrite map_length; lia). rewrite map_nth in Vk.
  assert (Dk : r_date (nth k rs (Risk 0 0%R)) = kr_date (h' b)).
  { rewrite <- (map_nth r_date), Dt. apply nth_error_nth. apply (map_nth_error (date_of h') _ _ Nb). }
  cbn [assets hedge] in Vk. rewrite map_map in Vk. cbn [quantity asset_pv] in Vk.
  rewrite (map_ext _ (fun a => q a * pv01 (zc (kr_date (h' a))) b)%R) in Vk by (intros a; rewrite (nth_error_nth _ _ _ (map_nth_error _ _ _ Nb)); reflexivity).
  rewrite (rsum_single _ b col ND Ib) in Vk.
  - destruct (nth k rs (Risk 0 0%R)) as [d' v']. cbn in Vk, Dk. subst d' v'. f_equal. unfold q. destruct (D b Ib) as (_ & _ & Db). destruct (Db b Ib) as [_ Neg]. specialize (Neg eq_refl).
    field. lra.
  - intros a Ia Nab. destruct (D a Ia) as (_ & _ & Da). destruct (Da b Ib) as [Z _]. rewrite Z by auto. ring.
Qed.
Print Assumptions C104_zero_coupon_hedge.

(** three key rates fifteen days apart; a coupon bond between two of them *)
Example C104_case : exists y h' col rp, let cf := [Payment 738900 (Some 5%R); Payment 738910 (Some 105%R)] in
  usual [(738886, 1%R); (738916, 3%R)] LINEAR ACT365 738880 CONSTANT 738916 y /\
  new_collection [2%nat; 0%nat; 1%nat] ladder_heap = (h', Ok col) /\
  (forall a, In a col -> 738880 < kr_date (h' a) <= 738916) /\
  has_ladder (fun _ _ _ => 0%R) y col h' (pf_present_value (Portfolio [Entry 2 (cf_present_value (fun _ _ _ => 0%R) cf) 738910] 7)) rp /\
  exists hedge y2 h2, calculate_pv01_risk_ladder (fun _ _ _ => 0%R) y col (pf_present_value hedge) h' = (y2, h2, Ok rp) /\ cash_amount hedge = 0%R.
Proof.
  destruct (new_collection [2%nat; 0%nat; 1%nat] ladder_heap) as [h' rc] eqn:E.
  assert (Ec : rc = Ok [0%nat; 1%nat; 2%nat]) by (pose proof (f_equal snd E) as X; vm_compute in X; congruence). subst rc.
  pose proof C29_case_usual as U. match type of U with usual _ _ _ _ _ _ ?y => set (y0 := y) in U; clearbody y0 end.
  set (cf := [Payment 738900 (Some 5%R); Payment 738910 (Some 105%R)]).
  assert (H1 : forall p, In p cf -> (0 <= amt p)%R /\ payment_date p <= 738916) by (intros p [<-|[<-|[]]]; cbn; (split; [lra | lia])).
  assert (H2 : forall a, In a [2%nat; 0%nat; 1%nat] -> kr_dcc (ladder_heap a) = ACT365 /\ countable ACT365 (kr_date (ladder_heap a))).
  { intros a [<-|[<-|[<-|[]]]]; (split; [reflexivity|]); (split; [vm_compute; split; discriminate | discriminate]). }
  assert (H3 : forall a, In a [0%nat; 1%nat; 2%nat] -> 738880 < kr_date (h' a) <= 738916).
  { intros a Ia. destruct (C22_construction ladder_heap [2%nat; 0%nat; 1%nat]) as (h1 & c1 & X1 & _ & _ & _ & _ & Cc); [discriminate | vm_compute; repeat constructor; cbn; intuition lia |].
    rewrite E in X1. injection X1 as <- _. destruct (Cc a) as (-> & _). destruct Ia as [<-|[<-|[<-|[]]]]; vm_compute; split; congruence. }
  assert (Q : queries []) by (intros o []).
  destruct (C102_ladder_total (fun _ _ _ => 0%R) _ _ _ _ _ _ _ cf [2%nat; 0%nat; 1%nat] ladder_heap h' [0%nat; 1%nat; 2%nat] ACT365 [] U H1 E ltac:(cbn; lia) ltac:(discriminate) H2 Q)
    as (y2 & h2 & rs & n & p & A & _).
  pose proof U as (HN & _). set (pf := Portfolio [Entry 2 (cf_present_value (fun _ _ _ => 0%R) cf) 738910] 7%R).
  destruct (C104_linear (fun _ _ _ => 0%R) _ _ _ _ _ _ _ y0 [0%nat; 1%nat; 2%nat] h' pf (fun _ => List.map r_pv01 rs) [] HN) as (y3 & h3 & rp & Ep & _).
  - repeat constructor; cbn; intuition lia.
  - discriminate.
  - exact Q.
  - intros e [<-|[]]. exists rs. split; [|reflexivity]. exists [], h', y2, h2. split; [exact Q|]. split; [intros a Ia b; reflexivity | exact A].
  - assert (HL : has_ladder (fun _ _ _ => 0%R) y0 [0%nat; 1%nat; 2%nat] h' (pf_present_value pf) rp) by (exists [], h', y3, h3; split; [exact Q|]; split; [intros a Ia b; reflexivity | exact Ep]).
    exists y0, h', [0%nat; 1%nat; 2%nat], rp. cbv zeta. split; [exact U|]. split; [reflexivity|]. split; [exact H3|]. split; [exact HL|].
    destruct (C104_zero_coupon_hedge (fun _ _ _ => 0%R) _ _ _ _ _ _ _ [2%nat; 0%nat; 1%nat] ladder_heap h' [0%nat; 1%nat; 2%nat] ACT365 (pf_present_value pf) rp [] U E ltac:(cbn; lia) ltac:(discriminate) H2 H3 HL Q)
      as (hedge & _ & Cz & _ & y4 & h4 & E4). exists hedge, y4, h4. split; [exact E4 | exact Cz].
Qed.
