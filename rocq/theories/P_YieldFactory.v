(** Property theorems C71-C73 (yield curve construction: yield-to-maturity curves, simultaneous fit, bootstrap). *)
From Verif Require Import Base PyDate PyDateFacts DayCount DayCountFacts PyList KeyRate KeyRateFacts P_KeyRate Curve CurveFacts P_Curve Cashflow CashflowFacts P_Yield Bond YieldFactory.
From Verif Require P_Bond P_BondYield.
From Coq Require Import Sorting.Sorted Permutation Lra Lqa.
Open Scope Z_scope.
Ltac lra := first [Lra.lra | Lqa.lra].

(** the value an instrument has on a yield curve *)
Definition value_on spline (y : ycurve) (q : quoted) : res R := snd (yc_present_value spline y (q_pv q) None).
(** the knot date of an instrument *)
Definition q_date (q : quoted) : date := fst (q_knot q).

(** ---- C71: the "yield to maturity" curve ---- *)
(** It interpolates the knot values of its instruments (for bonds the clean price, C71_bond_knot) ... *)
Theorem C71_value : forall spline l m ref y q, m = LINEAR \/ m = PREVIOUS -> construct_curve_from_yield_to_maturities l m ref = Ok y ->
  NoDup (List.map q_date l) -> countable ACTACT ref -> (forall q, In q l -> countable ACTACT (q_date q)) ->
  In q l -> interpolate spline (y_curve y) (q_date q) None = Ok (snd (q_knot q)).
Proof.
  intros spline l m ref y q M H ND Rf Cn I. unfold construct_curve_from_yield_to_maturities in H. apply new_yc_cache in H. destruct H as (_ & _ & H & _).
  assert (Ek : knots (List.map q_knot l) = List.map q_date l) by (unfold knots; rewrite map_map; reflexivity).
  eapply C26_reprices_knots; eauto.
  - rewrite Ek. exact ND.
  - apply C26_actual_separates; [discriminate | |].
    + pose proof (new_curve_ok _ _ _ _ _ _ _ H) as (_ & _ & _ & _ & _ & Er & _). rewrite (Er ref eq_refl). exact Rf.
    + rewrite Ek. intros d J. apply in_map_iff in J. destruct J as (q' & <- & J). auto.
  - apply in_map_iff. exists q. split; [|exact I]. unfold q_date. destruct (q_knot q); reflexivity.
Qed.
Print Assumptions C71_value.

(** ... which for a bond is its price, not a yield ... *)
Theorem C71_bond_knot : forall spline a b q, new_bond a = Ok b -> quoted_bond spline b = Ok q -> snd (q_knot q) = price a /\ q_price q = price a.
Proof.
  intros spline a b q B H. destruct (P_BondYield.C61_knot a b B) as (d & E & _). unfold quoted_bond in H. rewrite E in H. injection H as <-. cbn.
  destruct (BondFacts.new_bond_inv _ _ B) as (-> & _). auto.
Qed.
Print Assumptions C71_bond_knot.

(** ... and nothing can be discounted on it. *)
Theorem C71_never_discounts : forall spline l m ref y ops i a, construct_curve_from_yield_to_maturities l m ref = Ok y ->
  snd (to_discount_curve spline (yc_run spline y ops) a) = Err TypeError /\
  snd (yc_present_value spline (yc_run spline y ops) i a) = Err TypeError.
Proof.
  intros spline l m ref y ops i a H. apply new_yc_cache in H. destruct H as (C & Sp & _ & _).
  destruct (run_inv_yc spline ops y C) as (_ & S' & _). assert (E : snd (to_discount_curve spline (yc_run spline y ops) a) = Err TypeError).
  { apply C29_other_spaces_raise; rewrite S', Sp; discriminate. }
  split; [exact E|]. unfold yc_present_value. destruct (to_discount_curve _ _ _) as [y' r]. cbn in *. subst r. reflexivity.
Qed.
Print Assumptions C71_never_discounts.

Lemma half_power x e : (49 <= x)%R -> (1 / 2 <= e)%R -> (7 <= Rpower x e)%R.
Proof.
  intros X E. apply Rle_trans with (Rpower 49 (1 / 2)).
  - replace (1 / 2)%R with (/ 2)%R by lra. rewrite Rpower_sqrt by lra. replace 49%R with (7 * 7)%R by lra. rewrite sqrt_square; lra.
  - apply Rle_trans with (Rpower x (1 / 2)); [apply Rle_Rpower_l; lra | apply Rle_Rpower; lra].
Qed.
Lemma flows_bound n fl rate M : (49 <= 1 + rate / IZR n)%R -> (0 <= M)%R -> Forall (fun f => 0 <= fst f <= M /\ 1 / 2 <= snd f * IZR n)%R fl ->
  (P_BondYield.fixed_rate_price n fl rate <= INR (List.length fl) * M / 7)%R.
Proof.
  intros B Mp. induction 1 as [|f fl (A & E) F IH]; unfold P_BondYield.fixed_rate_price in *; [unfold rsum; cbn; lra|].
  cbn [List.map]. rewrite rsum_cons. change (List.length (f :: fl)) with (S (List.length fl)). rewrite S_INR.
  assert (P : (7 <= Rpower (1 + rate / IZR n) (snd f * IZR n))%R) by (apply half_power; auto).
  assert (Q : (fst f / Rpower (1 + rate / IZR n) (snd f * IZR n) <= M / 7)%R).
  { apply Rle_trans with (fst f / 7)%R.
    - apply Rmult_le_compat_l; [lra|]. apply Rinv_le_contravar; lra.
    - lra. }
  replace ((INR (List.length fl) + 1) * M / 7)%R with (M / 7 + INR (List.length fl) * M / 7)%R by field. apply Rplus_le_compat; assumption.
Qed.

(** A two-year 5% note quoted at 99: the "yield to maturity" curve has the value 99 (9900 percent) at its knot, which is
    not a yield to maturity of the note. *)
Theorem C71_yield_refuted : forall spline, exists mat purch b q y rate, mk_date 2025 2 15 = Ok mat /\ mk_date 2023 9 1 = Ok purch /\
  new_bond (P_Bond.note UsTreasury mat purch 2) = Ok b /\ quoted_bond spline b = Ok q /\
  construct_curve_from_yield_to_maturities [q] LINEAR purch = Ok y /\
  interpolate spline (y_curve y) (q_date q) None = Ok rate /\ rate = 99%R /\ ytm_residual b None rate <> Ok 0%R.
Proof.
  intros spline. destruct P_BondYield.C39_case as (mat & purch & b & Em & Ep & Or & _ & Sd & Len). exists mat, purch, b.
  assert (mat = 739297) by (vm_compute in Em; congruence). assert (purch = 738764) by (vm_compute in Ep; congruence). subst mat purch.
  pose proof Or as (B & _ & Cp & Pp & Om & _). destruct (P_BondYield.C61_knot _ _ B) as (d & Ek & _).
  assert (Ed : d = 739300).
  { assert (X : exists b', new_bond (P_Bond.note UsTreasury 739297 738764 2) = Ok b' /\ bond_to_knot b' = Ok (739300, 99%R)).
    { eexists. split; [P_Bond.build_bond | reflexivity]. }
    destruct X as (b' & B' & K'). rewrite B in B'. injection B' as <-. rewrite Ek in K'. congruence. }
  subst d. exists (Quoted (739300, 99%R) 99%R (bond_present_value spline b)).
  destruct (construct_curve_from_yield_to_maturities [Quoted (739300, 99%R) 99%R (bond_present_value spline b)] LINEAR 738764) as [y|e] eqn:Ey; [|vm_compute in Ey; discriminate].
  exists y, 99%R. split; [exact Em|]. split; [exact Ep|]. split; [exact B|].
  split. { unfold quoted_bond. rewrite Ek. cbn [bind]. destruct (BondFacts.new_bond_inv _ _ B) as (-> & _). reflexivity. }
  split; [reflexivity|]. split.
  { assert (Ct : forall x, In x [738764; 739300] -> countable ACTACT x) by (intros x [<-|[<-|[]]]; split; [vm_compute; split; discriminate | vm_compute; discriminate | vm_compute; split; discriminate | vm_compute; discriminate]).
    refine (C71_value spline _ LINEAR 738764 y _ (or_introl eq_refl) Ey _ _ _ _); [repeat constructor; intros [] | apply Ct; left; auto | | left; reflexivity].
    intros q [<-|[]]. apply Ct. right; left; auto. }
  split; [reflexivity|]. intros H. unfold ytm_residual in H.
  assert (Pb : (0 < 1 + 99 / IZR 2)%R) by lra.
  destruct (discount_cashflows_by_fixed_rate b 99 None) as [v|] eqn:D; [|discriminate]. cbn [bind] in H. injection H as H.
  destruct (P_BondYield.C39_value _ b 99 738764 v B ltac:(cbn; lia) ltac:(cbn; lra)) as (V & E0). cbn [purchase_date P_Bond.note] in E0.
  rewrite E0 in D. apply V in D. destruct D as (sd & fl & S & F & Ev). clear V E0.
  change (b_cal (P_Bond.note UsTreasury 739297 738764 2)) with Holidays.US_FEDERAL_HOLIDAYS in *. rewrite Sd in S. injection S as <-.
  assert (Fp : (60 < full_price b)%R /\ forallb (fun p => match acc ACTACT 738764 (bp_date p) with Ok q => Qle_bool (1 # 4) q | Err _ => false end) (P_BondYield.remaining b 738768) = true).
  { assert (X : exists b', new_bond (P_Bond.note UsTreasury 739297 738764 2) = Ok b' /\ (60 < full_price b')%R /\
      forallb (fun p => match acc ACTACT 738764 (bp_date p) with Ok q => Qle_bool (1 # 4) q | Err _ => false end) (P_BondYield.remaining b' 738768) = true).
    { eexists. split; [P_Bond.build_bond|]. split; [|vm_compute; reflexivity].
      cbn [full_price P_Bond.note price principal accrued_interest]. unfold Q2R. cbn [QArith_base.Qnum QArith_base.Qden calculate_coupon_payment freq principal coupon_rate per_year P_Bond.note]. lra. }
    destruct X as (b' & B' & X). rewrite B in B'. injection B' as <-. exact X. }
  destruct Fp as [Fp Fb]. change (ymd2ord 2023 9 5) with 738768 in *. destruct (BondFacts.new_bond_inv _ _ B) as (Ea & _).
  assert (Bd : Forall (fun f => 0 <= fst f <= 100 /\ 1 / 2 <= snd f * IZR 2)%R fl).
  { unfold P_BondYield.remaining_flows in F. rewrite Ea in F. cbn [b_dcc P_Bond.note] in F.
    assert (Am : forall p, In p (P_BondYield.remaining b 738768) -> (0 <= bp_amount p <= 100)%R).
    { intros p I. unfold P_BondYield.remaining in I. apply filter_In in I. destruct I as [I _].
      destruct (P_BondYield.bond_payments _ b B Om p I) as [(_ & _ & ->) | (_ & _ & ->)]; unfold calculate_coupon_payment; cbn [freq principal coupon_rate per_year P_Bond.note]; lra. }
    clear -F Am Fb. induction F as [|p f l fl (E & q & G & E') F IH]; constructor.
    - cbn [forallb] in Fb. apply andb_prop in Fb. destruct Fb as [Fb _]. unfold acc in Fb. rewrite G in Fb. apply Qle_bool_iff, Qle_Rle in Fb.
      rewrite E, E'. split; [apply Am; left; auto|]. replace (Q2R (1 # 4)) with (/ 4)%R in Fb by (unfold Q2R; cbn; lra). lra.
    - apply IH; [cbn [forallb] in Fb; apply andb_prop in Fb; apply Fb | intros; apply Am; right; auto]. }
  pose proof (flows_bound 2 fl 99 100 ltac:(lra) ltac:(lra) Bd) as Up. apply Forall2_length in F as Lf || idtac.
  assert (Lf : List.length fl = 4%nat). { rewrite <- Len. clear -F. unfold P_BondYield.remaining_flows in F. induction F; cbn; auto. }
  rewrite Lf in Up. replace (INR 4) with 4%R in Up by (cbn; lra). change (per_year (freq (P_Bond.note UsTreasury 739297 738764 2))) with 2 in Ev.
  rewrite <- Ev, Ea in *. cbn [principal P_Bond.note] in H. lra.
Qed.
Print Assumptions C71_yield_refuted.
