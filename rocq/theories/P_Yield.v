(** Property theorems C29, C31, C32 (discount curves of yield curves, key rate risk, risk ladders). *)
From Verif Require Import Base PyDate PyDateFacts DayCount DayCountFacts PyList KeyRate KeyRateFacts P_KeyRate Curve CurveFacts P_Curve Cashflow CashflowFacts.
From Coq Require Import Sorting.Sorted Permutation Lra Lqa.
Open Scope Z_scope.
Ltac lra := first [Lra.lra | Lqa.lra].
Ltac nra := first [Lra.nra | Lqa.nra].

(** ---- C29 ---- *)
Lemma date_range_in s e d : In d (date_range s e) <-> s <= d <= e.
Proof.
  unfold date_range. rewrite in_map_iff. split.
  - intros (n & <- & I). apply in_seq in I. lia.
  - intros L. exists (Z.to_nat (d - s)). split; [lia|]. apply in_seq. lia.
Qed.

Lemma map_seq_sorted s n : forall k, StronglySorted Z.lt (List.map (fun n => s + Z.of_nat n) (seq k n)).
Proof.
  induction n as [|n IH]; intros k; cbn; constructor; auto. apply Forall_forall. intros x I.
  apply in_map_iff in I. destruct I as (j & <- & I). apply in_seq in I. lia.
Qed.
Lemma date_range_sorted s e : StronglySorted Z.lt (date_range s e).
Proof. apply map_seq_sorted. Qed.

Lemma ccy_combine days : forall ts ys (f g : date -> res _), 
  Forall2 (fun d (t : Q) => f d = Ok t) days ts -> Forall2 (fun d (y : R) => g d = Ok y) days ys ->
  let vals := combine days (List.map (fun p => exp (- fst p * Q2R (snd p))) (combine ys ts)) in
  List.map fst vals = days /\ forall d v, In (d, v) vals -> exists t y, f d = Ok t /\ g d = Ok y /\ v = exp (- (y * Q2R t)).
Proof.
  induction days as [|d days IH]; intros ts ys f g F G; inversion F; subst; inversion G; subst; cbn; [split; [auto | intros ? ? []]|].
  destruct (IH _ _ f g H3 H5) as [A B]. split; [f_equal; exact A|].
  intros d' v [[= <- <-]|I]; [|auto]. do 2 eexists. split; [eauto|]. split; [eauto|]. f_equal. cbn. ring.
Qed.

Lemma mapM_total {A B} (f : A -> res B) l : (forall a, In a l -> exists b, f a = Ok b) -> exists bs, mapM f l = Ok bs.
Proof.
  induction l as [|a l IH]; cbn; intros H; [eauto|]. destruct (H a (or_introl eq_refl)) as (b & ->). cbn.
  destruct IH as (bs & ->); [auto|]. cbn. eauto.
Qed.

(** value of an accrual: 0 from a date to itself, positive afterwards *)
Lemma accrual_ok c ref d : c <> THIRTY360 -> countable c ref -> countable c d -> ref <= d ->
  exists t, accrual c ref d t /\ (d = ref -> (t == 0)%Q) /\ (ref < d -> (0 < t)%Q).
Proof.
  intros N R D L. destruct (clock_of c N) as (phi & k & Hk & Ha & Hm). destruct (Ha ref d R L D) as (q & E & V).
  exists q. split; [exact E|]. split; [intros ->; rewrite V; ring|]. intros Lt. specialize (Hm _ _ Lt). rewrite V.
  setoid_replace 0%Q with (k * 0)%Q by ring. apply Qmult_lt_l; auto. lra.
Qed.

Lemma cv_wf_last cv : c_values cv <> [] -> exists dl vl, forall kv, last (c_values cv) kv = (dl, vl).
Proof.
  intros N. destruct (exists_last N) as (vs & [dl vl] & E). exists dl, vl. intros kv. rewrite E. apply last_split.
Qed.

Lemma ccy_core spline y a dl : wf (y_curve y) -> cache_ok y -> y_space y = CONTINUOUSLY_COMPOUNDED_YIELD ->
  (exists vl, forall kv, last (c_values (y_curve y)) kv = (dl, vl)) ->
  let c := c_dcc (y_curve y) in let ref := c_ref (y_curve y) in
  c <> THIRTY360 -> countable c ref -> countable c dl -> ref <= dl ->
  (forall d, ref <= d <= dl -> exists v, interpolate spline (y_curve y) d a = Ok v) ->
  exists dc, snd (to_discount_curve spline y a) = Ok dc /\ c_ref dc = ref /\
    (forall d, ref <= d <= dl -> exists t v, accrual c ref d t /\ interpolate spline (y_curve y) d a = Ok v /\
       interpolate spline dc d None = Ok (exp (- (v * Q2R t)))) /\
    (forall d b, d < ref \/ dl < d -> interpolate spline dc d b = Err ValueError).
Proof.
  intros W C Sp (vl & La) c ref N Rf Dl L All. destruct (to_dc_fresh spline y a C) as (-> & _).
  assert (Cd : forall d, ref <= d <= dl -> countable c d).
  { intros d Ld. eapply countable_between; [exact Rf | exact Dl | lia]. }
  unfold to_discount_curve. cbn [fresh y_curve y_space y_dc]. rewrite Sp. cbn [discount_method].
  unfold discount_values. destruct (c_values (y_curve y)) as [|kv0 vals0] eqn:V; [destruct W; congruence|].
  rewrite La. cbn [fst]. fold ref.
  destruct (mapM_total (date_to_interpolation_axis (y_curve y)) (date_range ref dl)) as (ts & Ht).
  { intros d I. apply date_range_in in I. destruct (accrual_ok c ref d N Rf (Cd d I) ltac:(lia)) as (t & Et & _). exists t. exact Et. }
  destruct (mapM_total (fun d => interpolate spline (y_curve y) d a) (date_range ref dl)) as (ys & Hy).
  { intros d I. apply date_range_in in I. auto. }
  rewrite Ht. cbn [bind]. rewrite Hy. cbn [bind]. apply mapM_Forall2 in Ht. apply mapM_Forall2 in Hy.
  destruct (ccy_combine _ _ _ _ _ Ht Hy) as [K Vv]. set (vals := combine _ _) in *.
  assert (ND : NoDup (knots vals)). { unfold knots. rewrite K. apply sorted_lt_NoDup, date_range_sorted. }
  assert (Iv : forall d, ref <= d <= dl -> exists v, In (d, v) vals).
  { intros d I. apply date_range_in in I. rewrite <- K in I. apply in_map_iff in I. destruct I as ([d' v] & <- & I). eauto. }
  assert (Kr : forall d, In d (knots vals) <-> ref <= d <= dl) by (intros d; unfold knots; rewrite K; apply date_range_in).
  assert (SE : separates c ref (knots vals)).
  { apply C26_actual_separates; auto. intros d I. apply Cd, Kr, I. }
  destruct (create_points LINEAR c ref (sort_by fst vals)) as [pts|e] eqn:CP.
  2: { exfalso. unfold create_points in CP. destruct (mapM (fun kv => axis c ref (fst kv)) (sort_by fst vals)) as [xs|e'] eqn:E; [discriminate|].
       apply mapM_err in E. destruct E as (kv & I & E). assert (I' : In (fst kv) (knots vals)).
       { apply in_map. eapply Permutation_in; [apply sort_by_perm | exact I]. }
       apply Kr in I'. destruct (accrual_ok c ref (fst kv) N Rf (Cd _ I') ltac:(lia)) as (t & Et & _). unfold accrual in Et. unfold axis, acc in E. congruence. }
  fold c. unfold new_curve. cbn [bind]. rewrite CP. cbn [bind snd].
  set (dc := Curve _ _ _ _ _ _ _).
  assert (Hn : new_curve vals LINEAR c (Some ref) ERROR ERROR = Ok dc).
  { unfold new_curve. cbn [bind]. rewrite CP. reflexivity. }
  exists dc. split; [reflexivity|]. split; [reflexivity|]. split.
  - intros d Ld. destruct (Iv d Ld) as (v & I). destruct (Vv d v I) as (t & yv & Et & Ey & ->). exists t, yv.
    split; [exact Et|]. split; [exact Ey|].
    exact (C26_reprices_knots spline vals LINEAR c (Some ref) ERROR ERROR dc d _ (or_introl eq_refl) Hn ND SE I).
  - intros d b O. destruct (Iv ref ltac:(lia)) as (vf & If). destruct (Iv dl ltac:(lia)) as (vlast & Il).
    destruct (C27_ends spline vals LINEAR c (Some ref) ERROR ERROR dc ref vf dl vlast d b Hn ND If) as (A & _ & B & _); auto;
      try (intros x I; apply Kr in I; lia). destruct O; auto.
Qed.

(** Every discount factor is exp(-(yield + adjustment) * accrual) on each day from the reference date to the last knot [dl],
    after any history of queries; outside it is an error. *)
Theorem C29_discount_factors : forall spline kvs m c ref l r y qs a dl vl,
  new_yield_curve kvs m c CONTINUOUSLY_COMPOUNDED_YIELD ref l r = Ok y -> (forall o, In o qs -> exists q, o = Query q) ->
  NoDup (knots kvs) -> In (dl, vl) kvs -> (forall x, In x (knots kvs) -> x <= dl) ->
  c <> THIRTY360 -> countable c ref -> countable c dl ->
  (forall d, ref <= d <= dl -> exists v, interpolate spline (y_curve y) d a = Ok v) ->
  exists dc, snd (to_discount_curve spline (yc_run spline y qs) a) = Ok dc /\
    (forall d, ref <= d <= dl -> exists t v, accrual c ref d t /\ interpolate spline (y_curve y) d a = Ok v /\
       interpolate spline dc d None = Ok (exp (- (v * Q2R t)))) /\
    (forall d b, d < ref \/ dl < d -> interpolate spline dc d b = Err ValueError).
Proof.
  intros spline kvs m c ref l r y qs a dl vl H Q ND Il Ml N Rf Dl All.
  destruct (C30_queries_have_no_effect spline _ _ _ _ _ _ _ y qs H Q (fun _ => Ok 0%R) a) as (_ & -> & _).
  apply new_yc_cache in H. destruct H as (C & Sp & Hn & _).
  assert (NE : kvs <> []) by (intros ->; contradiction).
  destruct (new_wf spline kvs m c (Some ref) l r _ NE ND Hn) as (W & I1 & I2 & _).
  pose proof (new_curve_ok _ _ _ _ _ _ _ Hn) as (V & EM & EC & _ & _ & Er & F). specialize (Er ref eq_refl).
  assert (La : forall kv, last (c_values (y_curve y)) kv = (dl, vl)).
  { assert (exists df vf, In (df, vf) kvs /\ forall x, In x (knots kvs) -> df <= x) as (df & vf & If & Mf).
    { destruct (c_values (y_curve y)) as [|[df vf] vs] eqn:Ev; [destruct W; congruence|]. exists df, vf. split; [apply I1; left; auto|].
      intros x Ix. apply I2 in Ix. destruct W as (_ & SS & _). rewrite Ev in SS. cbn in SS, Ix. inversion SS as [|? ? H1 H2]; subst.
      rewrite Forall_forall in H2. destruct Ix as [<-|Ix]; [lia|]. specialize (H2 x Ix). lia. }
    destruct (first_last kvs m c (Some ref) l r (y_curve y) df vf dl vl Hn ND If Mf Il Ml) as (vals & _ & X). exact X. }
  assert (L : ref <= dl).
  { destruct (Z_le_gt_dec ref dl); auto. pose proof (C27_knot_before_reference kvs m c ref l r dl vl Il ltac:(lia)) as X. generalize (eq_trans (eq_sym X) Hn). discriminate. }
  destruct (ccy_core spline y a dl W C Sp) as (dc & E & _ & A & B); rewrite ?EC, ?Er; auto; [eauto|].
  rewrite EC, Er in A. rewrite Er in B. exists dc. auto.
Qed.
Print Assumptions C29_discount_factors.

(** Consequences for a factor df = exp(-(v*t)): 1 at the reference date; positive; at most 1 for a non-negative yield; and a
    shift of the yield by b > 0 lowers it, strictly after the reference date. *)
Theorem C29_factor_bounds : forall c ref d t v b, c <> THIRTY360 -> countable c ref -> countable c d -> ref <= d -> accrual c ref d t ->
  (d = ref -> exp (- (v * Q2R t)) = 1%R) /\ (0 < exp (- (v * Q2R t)))%R /\ (0 <= v -> exp (- (v * Q2R t)) <= 1)%R /\
  (0 <= b -> exp (- ((v + b) * Q2R t)) <= exp (- (v * Q2R t)))%R /\
  (ref < d -> (0 < b)%R -> (exp (- ((v + b) * Q2R t)) < exp (- (v * Q2R t)))%R).
Proof.
  intros c ref d t v b N Rf D L T. destruct (accrual_ok c ref d N Rf D L) as (t' & T' & Z0 & P).
  unfold accrual in *. rewrite T in T'. injection T' as <-.
  assert (Z1 : Q2R 0 = 0%R) by (unfold Q2R; cbn; lra).
  assert (G : (0 <= Q2R t)%R).
  { rewrite <- Z1. apply Qle_Rle. destruct (Z.eq_dec d ref) as [E|E]; [rewrite (Z0 E); lra | specialize (P ltac:(lia)); lra]. }
  assert (Mono : forall x z, (x <= z)%R -> (exp x <= exp z)%R).
  { intros x z H. destruct (Rle_lt_or_eq_dec _ _ H) as [Hl| ->]; [left; apply exp_increasing; auto | lra]. }
  repeat split.
  - intros E. rewrite (Qeq_eqR _ _ (Z0 E)), Z1, Rmult_0_r, Ropp_0. apply exp_0.
  - apply exp_pos.
  - intros Hv. rewrite <- exp_0. apply Mono. nra.
  - intros Hb. apply Mono. nra.
  - intros Ld Hb. apply exp_increasing. specialize (P Ld). apply Qlt_Rlt in P. rewrite Z1 in P. nra.
Qed.
Print Assumptions C29_factor_bounds.

(** DISCOUNT_FACTOR space: the factors are the curve's own values plus adjustment, at its knots. *)
Theorem C29_discount_factor_space : forall spline kvs m c ref l r y a d v, m = LINEAR \/ m = PREVIOUS ->
  new_yield_curve kvs m c DISCOUNT_FACTOR ref l r = Ok y -> NoDup (knots kvs) -> separates c ref (knots kvs) ->
  (forall x, In x (knots kvs) -> exists z, adj_call a (ADate x) = Ok z) -> In (d, v) kvs ->
  exists dc z, snd (to_discount_curve spline y a) = Ok dc /\ adj_call a (ADate d) = Ok z /\ interpolate spline dc d None = Ok (v + z)%R.
Proof.
  intros spline kvs m c ref l r y a d v M H ND SE Adj I. apply new_yc_cache in H. destruct H as (C & Sp & Hn & Hd).
  assert (NE : kvs <> []) by (intros ->; contradiction).
  destruct (new_wf spline kvs m c (Some ref) l r _ NE ND Hn) as (W & I1 & I2 & _).
  pose proof (new_curve_ok _ _ _ _ _ _ _ Hn) as (V & EM & EC & _ & _ & Er & F). specialize (Er ref eq_refl).
  assert (At : forall kv, In kv (c_values (y_curve y)) -> exists z, adj_call a (ADate (fst kv)) = Ok z /\
     interpolate spline (y_curve y) (fst kv) a = Ok (snd kv + z)%R).
  { intros kv Ik. assert (Ik' : In kv kvs) by (apply I1; auto).
    destruct (Adj (fst kv)) as (z & Ez); [apply in_map; auto|]. exists z. split; [auto|].
    destruct (Forall2_in_l _ _ _ _ F Ik) as (p & _ & [A1 _]). unfold axis, acc in A1.
    destruct (C27_inside spline kvs m c (Some ref) l r (y_curve y) (fst kv) a (fst p) Hn ND) as (v0 & E0 & E1).
    - exists (fst kv). split; [apply in_map; auto | lia].
    - exists (fst kv). split; [apply in_map; auto | lia].
    - exact A1.
    - rewrite Er. intros x x' t t' Ix Ix'. apply SE; [destruct Ix as [<-|Ix] | destruct Ix' as [<-|Ix']]; auto; apply in_map; auto.
    - rewrite E1, Ez. destruct kv as [dk vk]. cbn in *. rewrite Er in *.
      rewrite (C26_reprices_knots spline kvs m c (Some ref) l r (y_curve y) dk vk M Hn ND) in E0; auto; [congruence | rewrite Er; auto]. }
  unfold to_discount_curve. rewrite Hd, Sp. cbn [discount_method].
  set (g := fun kv => (fst kv, match adj_call a (ADate (fst kv)) with Ok z => (snd kv + z)%R | Err _ => 0%R end)).
  assert (E : discount_values spline (y_curve y) DISCOUNT_FACTOR a = Ok (List.map g (c_values (y_curve y)))).
  { cbn [discount_values]. apply mapM_Forall2. clear -At. induction (c_values (y_curve y)) as [|kv vs IH]; cbn; constructor.
    - destruct (At kv ltac:(left; auto)) as (z & Ez & ->). cbn. unfold g. rewrite Ez. reflexivity.
    - apply IH. intros; apply At; right; auto. }
  rewrite E. set (vals := List.map g (c_values (y_curve y))).
  assert (Kv : knots vals = List.map fst (c_values (y_curve y))). { unfold knots, vals. rewrite map_map. reflexivity. }
  assert (CP : exists pts, create_points m c ref (sort_by fst vals) = Ok pts).
  { assert (Sv : sort_by fst vals = vals).
    { apply sort_by_id. change (StronglySorted Z.le (knots vals)). rewrite Kv. destruct W as (_ & SS & _). clear -SS.
      induction SS as [|x l0 Ss IH Fa]; constructor; auto. eapply Forall_impl; [|exact Fa]. intros; cbn in *; lia. }
    rewrite Sv. unfold create_points. destruct (mapM_total (fun kv => axis c ref (fst kv)) vals) as (xs & ->).
    - intros kv Ik. apply in_map_iff in Ik. destruct Ik as (kv' & <- & Ik). cbn. destruct (Forall2_in_l _ _ _ _ F Ik) as (p & _ & [A1 _]).
      rewrite Er in A1. eauto.
    - cbn. destruct M as [-> | ->]; cbn; eauto. }
  destruct CP as (pts & CP). rewrite EC, Er, EM. unfold new_curve. cbn [bind]. rewrite CP. cbn [bind snd].
  set (dc := Curve _ _ _ _ _ _ _).
  assert (Hn' : new_curve vals m c (Some ref) ERROR ERROR = Ok dc) by (unfold new_curve; cbn [bind]; rewrite CP; reflexivity).
  destruct (At (d, v)) as (z & Ez & _); [apply I1; auto|]. cbn in Ez. exists dc, z. split; [reflexivity|]. split; [auto|].
  eapply (C26_reprices_knots spline vals m c (Some ref) ERROR ERROR dc d); auto.
  - rewrite Kv. eapply Permutation_NoDup; [|exact ND]. apply Permutation_map, Permutation_sym. rewrite V. apply sort_by_perm.
  - intros x x' t t' Ix Ix'. apply SE; apply I2; rewrite <- Kv; auto.
  - unfold vals. apply in_map_iff. exists (d, v). split; [|apply I1; auto]. unfold g. cbn. rewrite Ez. reflexivity.
Qed.
Print Assumptions C29_discount_factor_space.

(** The other interpolation spaces have no discount curve. *)
Theorem C29_other_spaces_raise : forall spline y a, y_space y <> DISCOUNT_FACTOR -> y_space y <> CONTINUOUSLY_COMPOUNDED_YIELD ->
  snd (to_discount_curve spline y a) = Err TypeError.
Proof. intros spline y a A B. unfold to_discount_curve. destruct (y_space y); cbn; congruence. Qed.
Print Assumptions C29_other_spaces_raise.

(** A usual yield curve: continuously compounded, an Actual convention, flat before the first knot, last knot (dl, vl). *)
Definition usual (kvs : list knot_value) (m : interp_method) (c : dcc) (ref : date) (r : end_behavior) (dl : date) (y : ycurve) : Prop :=
  new_yield_curve kvs m c CONTINUOUSLY_COMPOUNDED_YIELD ref CONSTANT r = Ok y /\ NoDup (knots kvs) /\
  In dl (knots kvs) /\ (forall x, In x (knots kvs) -> x <= dl) /\ c <> THIRTY360 /\ countable c ref /\ countable c dl.

Lemma usual_value spline kvs m c ref r dl y d : usual kvs m c ref r dl y -> ref <= d <= dl ->
  exists v, forall a, interpolate spline (y_curve y) d a = match adj_call a (ADate d) with Ok x => Ok (v + x)%R | Err e => Err e end.
Proof.
  intros (H & ND & Il & Ml & N & Rf & Dl) L. apply new_yc_cache in H. destruct H as (_ & _ & Hn & _).
  assert (NE : kvs <> []) by (intros ->; contradiction).
  destruct (new_wf spline kvs m c (Some ref) CONSTANT r _ NE ND Hn) as (W & I1 & I2 & _).
  pose proof (new_curve_ok _ _ _ _ _ _ _ Hn) as (V & EM & EC & EL & _ & Er & F). specialize (Er ref eq_refl).
  assert (Ge : forall x, In x (knots kvs) -> ref <= x).
  { intros x Ix. destruct (Z_le_gt_dec ref x); auto. apply in_map_iff in Ix. destruct Ix as ([x' v] & <- & Ix).
    pose proof (C27_knot_before_reference kvs m c ref CONSTANT r x' v Ix ltac:(cbn in *; lia)) as X.
    generalize (eq_trans (eq_sym X) Hn). discriminate. }
  assert (Cd : forall x, ref <= x <= dl -> countable c x) by (intros x Lx; eapply countable_between; [exact Rf | exact Dl | lia]).
  destruct (c_values (y_curve y)) as [|[df vf] vs] eqn:Ev; [destruct W; congruence|].
  destruct (Z_lt_ge_dec d df) as [Ld|Ld].
  - exists vf. intros a. unfold interpolate. rewrite Ev. match goal with |- context [last ?u ?w] => destruct (last u w) end.
    replace (d <? df) with true by lia. rewrite EL. destruct (adj_call a (ADate d)); auto.
  - destruct (accrual_ok c ref d N Rf (Cd d L) ltac:(lia)) as (t & T & _).
    assert (X1 : exists x, In x (knots kvs) /\ x <= d) by (exists df; split; [apply I2; left; auto | lia]).
    assert (X2 : exists x, In x (knots kvs) /\ d <= x) by (exists dl; split; [auto | lia]).
    assert (X3 : separates c ref (d :: knots kvs)).
    { apply C26_actual_separates; auto. intros x [<-|Ix]; [auto|]. specialize (Ge x Ix). specialize (Ml x Ix). apply Cd. lia. }
    rewrite <- Er in X3, T.
    destruct (C27_inside spline kvs m c (Some ref) CONSTANT r (y_curve y) d None t Hn ND X1 X2 T X3) as (v & E0 & _).
    exists v. intros a. destruct (C27_inside spline kvs m c (Some ref) CONSTANT r (y_curve y) d a t Hn ND X1 X2 T X3) as (v' & E0' & ->).
    rewrite E0 in E0'. injection E0' as <-. auto.
Qed.

(** Such a curve has a discount curve under any adjustment defined on the days it spans, its factors being
    exp(-(y(d) + adjustment(d)) * accrual). *)
Theorem C29_usual_discount_factors : forall spline kvs m c ref r dl y qs a, usual kvs m c ref r dl y ->
  (forall o, In o qs -> exists q, o = Query q) ->
  (forall d, ref <= d <= dl -> exists x, adj_call a (ADate d) = Ok x) ->
  exists dc, snd (to_discount_curve spline (yc_run spline y qs) a) = Ok dc /\ c_ref dc = ref /\
    forall d, ref <= d <= dl -> exists t v x, accrual c ref d t /\ interpolate spline (y_curve y) d None = Ok v /\
      adj_call a (ADate d) = Ok x /\ interpolate spline dc d None = Ok (exp (- ((v + x) * Q2R t))).
Proof.
  intros spline kvs m c ref r dl y qs a U Q Adj. pose proof U as (H & ND & Il & Ml & N & Rf & Dl).
  apply in_map_iff in Il. destruct Il as ([dl' vl] & Edl & Il). cbn in Edl. subst dl'.
  assert (All : forall d, ref <= d <= dl -> exists v, interpolate spline (y_curve y) d a = Ok v).
  { intros d L. destruct (usual_value spline kvs m c ref r dl y d U L) as (v & E). rewrite E. destruct (Adj d L) as (x & ->). eauto. }
  destruct (C29_discount_factors spline kvs m c ref CONSTANT r y qs a dl vl H Q ND Il Ml N Rf Dl All) as (dc & E & A & _).
  exists dc. split; [auto|]. split.
  - destruct (C30_queries_have_no_effect spline _ _ _ _ _ _ _ y qs H Q (fun _ => Ok 0%R) a) as (_ & E' & _). rewrite E' in E.
    apply new_yc_cache in H. destruct H as (C & Sp & Hn & Hd).
    pose proof (new_curve_ok _ _ _ _ _ _ _ Hn) as (_ & _ & _ & _ & _ & Er & _). specialize (Er ref eq_refl).
    unfold to_discount_curve in E. rewrite Hd in E. destruct (discount_values _ _ _ _) as [vals|]; [|discriminate].
    destruct (new_curve vals _ _ (Some (c_ref (y_curve y))) ERROR ERROR) as [dc'|] eqn:Hn'; [|discriminate]. cbn in E. injection E as <-.
    apply new_curve_ok in Hn'. destruct Hn' as (_ & _ & _ & _ & _ & Er' & _). rewrite (Er' _ eq_refl). auto.
  - intros d L. destruct (A d L) as (t & v & T & Ev & Ed). destruct (usual_value spline kvs m c ref r dl y d U L) as (v0 & E0).
    destruct (Adj d L) as (x & Ex). exists t, v0, x. split; [auto|]. split; [rewrite E0; cbn; rewrite Rplus_0_r; auto|]. split; [auto|].
    rewrite E0, Ex in Ev. injection Ev as <-. auto.
Qed.
Print Assumptions C29_usual_discount_factors.

Lemma C29_case_usual : usual [(738886, 1%R); (738916, 3%R)] LINEAR ACT365 738880 CONSTANT 738916
  (match new_yield_curve [(738886, 1%R); (738916, 3%R)] LINEAR ACT365 CONTINUOUSLY_COMPOUNDED_YIELD 738880 CONSTANT CONSTANT with Ok y => y | Err _ => YC (Curve [] LINEAR ACT365 0 ERROR ERROR []) YIELD None end).
Proof.
  split; [vm_compute; reflexivity|]. split; [unfold knots; cbn; repeat (constructor; [cbn; intuition lia|]); constructor|]. split; [right; left; reflexivity|].
  split; [cbn; intros x [<-|[<-|[]]]; lia|]. split; [discriminate|].
  split; (split; [vm_compute; split; discriminate | discriminate]).
Qed.
Example C29_case : exists y, usual [(738886, 1%R); (738916, 3%R)] LINEAR ACT365 738880 CONSTANT 738916 y /\
  exists dc, snd (to_discount_curve (fun _ _ _ => 0%R) y None) = Ok dc /\ interpolate (fun _ _ _ => 0%R) dc 738881 None = Ok (exp (- ((1 + 0) * Q2R (1 # 365)))).
Proof.
  eexists. split; [apply C29_case_usual|].
  edestruct (C29_usual_discount_factors (fun _ _ _ => 0%R)) with (qs := @nil yc_op) (a := @None (adj_arg -> res R)) as (dc & E & _ & A); [apply C29_case_usual | intros o [] | intros; cbn; eauto |].
  exists dc. split; [exact E|]. destruct (A 738881 ltac:(lia)) as (t & v & x & T & V & X & ->). cbn in X. injection X as <-.
  assert (Tt : t = (1 # 365)%Q) by (vm_compute in T; congruence).
  assert (Vv : v = (1 + 0)%R) by (vm_compute in V; injection V as <-; reflexivity). subst. rewrite Rplus_0_r. reflexivity.
Qed.

(** ---- C31 ---- *)
Definition half_bp : Q := (ONE_BASIS_POINT / inject_Z 2)%Q.
(** the present value of an instrument with the key rate set to move by [b] *)
Definition bumped spline (y : ycurve) (k : kr) (i : instrument) (b : Q) : res R :=
  snd (yc_present_value spline y i (kr_adjust (set_bump_val b k))).

Lemma deriv_core spline y k i : cache_ok y ->
  snd (calculate_key_rate_deriv spline y k i) =
    (do n <- bumped spline (fresh y) k i (- ONE_BASIS_POINT / inject_Z 2); do p <- bumped spline (fresh y) k i half_bp; Ok ((p - n) / Q2R ONE_BASIS_POINT)%R) /\
  (forall v, snd (calculate_key_rate_deriv spline y k i) = Ok v -> snd (fst (calculate_key_rate_deriv spline y k i)) = set_bump_val half_bp k).
Proof.
  intros C. unfold calculate_key_rate_deriv, bumped.
  replace (set_bump_val (- ONE_BASIS_POINT / inject_Z 2) (create_adjustment_function k)) with (set_bump_val (- ONE_BASIS_POINT / inject_Z 2) k) by reflexivity.
  set (k1 := set_bump_val _ k). destruct (pv_fresh spline y i (kr_adjust k1) C) as (E1 & A1 & B1 & C1). rewrite <- E1.
  destruct (yc_present_value spline y i (kr_adjust k1)) as [y1 [n|e]]; cbn [fst snd bind] in *; [|split; [reflexivity | discriminate]].
  replace (set_bump_val (ONE_BASIS_POINT / inject_Z 2) (create_adjustment_function k1)) with (set_bump_val half_bp k) by reflexivity.
  set (k2 := set_bump_val half_bp k). destruct (pv_fresh spline y1 i (kr_adjust k2) C1) as (E2 & A2 & B2 & C2).
  unfold fresh in E2 at 1. rewrite A1, B1 in E2. fold (fresh y) in E2. rewrite <- E2.
  destruct (yc_present_value spline y1 i (kr_adjust k2)) as [y2 [p|e]]; cbn [fst snd bind] in *; (split; [reflexivity|]); [intros; reflexivity | discriminate].
Qed.

(** After any history of queries, the derivative is the central difference over one basis point of present values of the yield
    curve bumped by the key rate, the PV01 is the difference itself, and errors propagate; the key rate is left bumped by half a
    basis point, whatever its bump was before. *)
Theorem C31_central_difference : forall spline kvs m c s ref l r y qs k i, new_yield_curve kvs m c s ref l r = Ok y ->
  (forall o, In o qs -> exists q, o = Query q) ->
  let y' := yc_run spline y qs in
  match bumped spline y k i (- half_bp), bumped spline y k i half_bp with
  | Ok n, Ok p => snd (calculate_key_rate_deriv spline y' k i) = Ok ((p - n) / Q2R ONE_BASIS_POINT)%R /\
                  snd (calculate_pv01_risk spline y' k i) = Ok (Risk (kr_date k) (p - n)%R) /\
                  snd (fst (calculate_key_rate_deriv spline y' k i)) = set_bump_val half_bp k
  | Err e, _ => snd (calculate_key_rate_deriv spline y' k i) = Err e
  | Ok _, Err e => snd (calculate_key_rate_deriv spline y' k i) = Err e
  end.
Proof.
  intros spline kvs m c s ref l r y qs k i H Q y'. apply new_yc_cache in H. destruct H as (C & Sp & Hn & Hd).
  destruct (run_inv_yc spline qs y C) as (C' & S' & _ & Q'). specialize (Q' Q). fold y' in C', S', Q'.
  destruct (deriv_core spline y' k i C') as [E K].
  assert (Fy : fresh y' = y). { unfold fresh. rewrite S', Q'. destruct y; cbn in *. congruence. }
  rewrite Fy in E. change (- ONE_BASIS_POINT / inject_Z 2)%Q with (- half_bp)%Q in E.
  destruct (bumped spline y k i (- half_bp)) as [n|e]; cbn [bind] in E; [|exact E].
  destruct (bumped spline y k i half_bp) as [p|e]; cbn [bind] in E; [|exact E].
  split; [exact E|]. specialize (K _ E). split; [|exact K].
  unfold calculate_pv01_risk. destruct (calculate_key_rate_deriv spline y' k i) as [[y2 k2] rr]. cbn [fst snd] in *. subst rr k2. cbn.
  f_equal. f_equal. unfold ONE_BASIS_POINT, Q2R. cbn. field.
Qed.
Print Assumptions C31_central_difference.

Theorem C31_bump_not_restored_refuted : forall spline, exists y k k', kr_bump k = 1%Q /\
  new_yield_curve [(738886, 1%R)] LINEAR ACT360 DISCOUNT_FACTOR 738886 ERROR ERROR = Ok y /\
  k' = snd (fst (calculate_key_rate_deriv spline y k (fun _ => Ok 0%R))) /\ ~ (kr_bump k' == kr_bump k)%Q.
Proof.
  intros spline. eexists. exists (set_bump_val 1 (new_key_rate ACT360 738886 (Some 738880) None)). eexists. split; [reflexivity|].
  split; [vm_compute; reflexivity|]. split; [reflexivity|]. vm_compute. discriminate.
Qed.
Print Assumptions C31_bump_not_restored_refuted.

Lemma pv01_core spline y k i n p : cache_ok y -> bumped spline (fresh y) k i (- half_bp) = Ok n -> bumped spline (fresh y) k i half_bp = Ok p ->
  exists y', calculate_pv01_risk spline y k i = (y', set_bump_val half_bp k, Ok (Risk (kr_date k) (p - n)%R)) /\ cache_ok y' /\ fresh y' = fresh y.
Proof.
  intros C En Ep. destruct (deriv_core spline y k i C) as [E K]. destruct (deriv_keeps spline y k i C) as (A & B & D).
  change (- ONE_BASIS_POINT / inject_Z 2)%Q with (- half_bp)%Q in E. rewrite En, Ep in E. cbn [bind] in E. specialize (K _ E).
  unfold calculate_pv01_risk. destruct (calculate_key_rate_deriv spline y k i) as [[y2 k2] rr]. cbn [fst snd] in *. subst rr k2.
  exists y2. cbn [bind]. split; [|split; [auto | unfold fresh; congruence]].
  f_equal. f_equal. cbn [kr_date set_bump_val create_adjustment_function]. f_equal. unfold ONE_BASIS_POINT, Q2R. cbn. field.
Qed.

(** One risk per key rate, in the order of the collection, each the difference of present values at plus and minus half a basis
    point of that key rate alone. *)
Theorem C31_ladder : forall spline kvs m c s ref l r y qs i coll h, new_yield_curve kvs m c s ref l r = Ok y ->
  (forall o, In o qs -> exists q, o = Query q) -> NoDup coll ->
  (forall a, In a coll -> exists n p, bumped spline y (h a) i (- half_bp) = Ok n /\ bumped spline y (h a) i half_bp = Ok p) ->
  exists y' h' rs, calculate_pv01_risk_ladder spline (yc_run spline y qs) coll i h = (y', h', Ok rs) /\
    Forall2 (fun a rk => exists n p, bumped spline y (h a) i (- half_bp) = Ok n /\ bumped spline y (h a) i half_bp = Ok p /\
                         rk = Risk (kr_date (h a)) (p - n)%R) coll rs /\
    (forall a, In a coll -> h' a = set_bump_val half_bp (h a)) /\ (forall a, ~ In a coll -> h' a = h a).
Proof.
  intros spline kvs m c s ref l r y qs i coll h H Q ND All. apply new_yc_cache in H. destruct H as (C & Sp & Hn & Hd).
  destruct (run_inv_yc spline qs y C) as (C' & S' & _ & Q'). specialize (Q' Q).
  assert (Fy : fresh (yc_run spline y qs) = y). { unfold fresh. rewrite S', Q'. destruct y; cbn in *. congruence. }
  generalize dependent h. revert C' Fy. generalize (yc_run spline y qs). clear S' Q'.
  induction coll as [|a coll IH]; intros y1 C1 F1 h All; cbn [calculate_pv01_risk_ladder].
  - do 3 eexists. split; [reflexivity|]. split; [constructor|]. split; [intros ? [] | auto].
  - apply NoDup_cons_iff in ND. destruct ND as [Na ND']. destruct (All a ltac:(left; auto)) as (n & p & En & Ep).
    rewrite <- F1 in En, Ep. destruct (pv01_core spline y1 (h a) i n p C1 En Ep) as (y2 & -> & C2 & F2). rewrite F1 in En, Ep.
    destruct (IH ND' y2 C2 ltac:(congruence) (upd h a (set_bump_val half_bp (h a)))) as (y' & h' & rs & E & Fa & In' & Out').
    { intros b Ib. rewrite upd_other by (intros ->; contradiction). apply All. right; auto. }
    rewrite E. do 3 eexists. split; [reflexivity|]. split; [|split].
    + constructor; [eauto|]. clear -Fa Na. induction Fa as [|b rk bs rks Hb Fb IHb]; constructor.
      * rewrite upd_other in Hb by (intros ->; apply Na; left; auto). exact Hb.
      * apply IHb. intros I. apply Na. right; auto.
    + intros b [<-|Ib]; [rewrite Out' by auto; apply upd_same|]. rewrite In' by auto. rewrite upd_other by (intros ->; contradiction). auto.
    + intros b Nb. rewrite Out' by (intros I; apply Nb; right; auto). apply upd_other. intros ->. apply Nb. left; auto.
Qed.
Print Assumptions C31_ladder.

(** ---- higher yields, lower present values ---- *)
Lemma cf_pv_le spline cf dc1 dc2 : c_ref dc1 = c_ref dc2 -> (forall p, In p cf -> (0 <= amt p)%R) ->
  (forall p, In p cf -> live dc1 p = true -> exists x z, interpolate spline dc1 (payment_date p) None = Ok x /\
     interpolate spline dc2 (payment_date p) None = Ok z /\ (z <= x)%R) ->
  exists v1 v2, cf_present_value spline cf dc1 = Ok v1 /\ cf_present_value spline cf dc2 = Ok v2 /\ (v2 <= v1)%R.
Proof.
  intros R P All. unfold cf_present_value. rewrite !pv_terms_spec.
  assert (Ef : filter (live dc2) cf = filter (live dc1) cf) by (apply filter_ext; intros p; unfold live; rewrite R; auto).
  rewrite Ef. assert (G : forall l, (forall p, In p l -> In p cf /\ live dc1 p = true) ->
    exists l1 l2, mapM (fun p => do df <- interpolate spline dc1 (payment_date p) None; Ok (df * amt p)%R) l = Ok l1 /\
      mapM (fun p => do df <- interpolate spline dc2 (payment_date p) None; Ok (df * amt p)%R) l = Ok l2 /\ (rsum l2 <= rsum l1)%R).
  { induction l as [|p l IH]; intros H; [do 2 eexists; repeat split; lra|].
    destruct (H p ltac:(left; auto)) as [I L]. destruct (All p I L) as (x & z & E1 & E2 & Le).
    destruct IH as (l1 & l2 & A & B & D); [intros; apply H; right; auto|]. cbn [mapM]. rewrite E1, E2, A, B. cbn.
    do 2 eexists. split; [reflexivity|]. split; [reflexivity|]. rewrite !rsum_cons. specialize (P p I). nra. }
  destruct (G (filter (live dc1) cf)) as (l1 & l2 & -> & -> & D); [intros p I; apply filter_In in I; auto|].
  cbn. do 2 eexists. eauto.
Qed.

(** For a usual yield curve and a cashflow of non-negative payments up to its last knot, a pointwise higher adjustment never
    raises the present value. *)
Theorem C29_pv_decreasing : forall spline kvs m c ref r dl y cf a b, usual kvs m c ref r dl y ->
  (forall p, In p cf -> (0 <= amt p)%R /\ payment_date p <= dl) ->
  (forall d, ref <= d <= dl -> exists x z, adj_call a (ADate d) = Ok x /\ adj_call b (ADate d) = Ok z /\ (x <= z)%R) ->
  exists v w, snd (yc_present_value spline y (cf_present_value spline cf) a) = Ok v /\
    snd (yc_present_value spline y (cf_present_value spline cf) b) = Ok w /\ (w <= v)%R.
Proof.
  intros spline kvs m c ref r dl y cf a b U P Adj. pose proof U as (H & ND & Il & Ml & N & Rf & Dl).
  destruct (C29_usual_discount_factors spline kvs m c ref r dl y [] a U) as (dca & Ea & Ra & Aa); [intros ? [] | intros d L; destruct (Adj d L) as (x & z & X & _); eauto|].
  destruct (C29_usual_discount_factors spline kvs m c ref r dl y [] b U) as (dcb & Eb & Rb & Ab); [intros ? [] | intros d L; destruct (Adj d L) as (x & z & _ & X & _); eauto|].
  cbn in Ea, Eb. unfold yc_present_value.
  destruct (to_discount_curve spline y a) as [ya ra]. destruct (to_discount_curve spline y b) as [yb rb]. cbn in Ea, Eb. subst ra rb. cbn [snd bind].
  apply cf_pv_le; [congruence | intros p I; apply P; auto |].
  intros p I L. unfold live in L. destruct (amount p); [|discriminate]. rewrite Ra in L. destruct (P p I) as [_ L2].
  assert (Lp : ref <= payment_date p <= dl) by lia.
  destruct (Aa _ Lp) as (t & v & x & T & V & X & ->). destruct (Ab _ Lp) as (t' & v' & x' & T' & V' & X' & ->).
  unfold accrual in T, T'. rewrite T in T'. injection T' as <-. rewrite V in V'. injection V' as <-.
  destruct (Adj _ Lp) as (u & w & Eu & Ew & Le). rewrite X in Eu. rewrite X' in Ew. injection Eu as <-. injection Ew as <-.
  do 2 eexists. split; [reflexivity|]. split; [reflexivity|].
  destruct (C29_factor_bounds c ref (payment_date p) t (v + x) (x' - x) N Rf) as (_ & _ & _ & Mono & _); auto;
    [eapply countable_between; [exact Rf | exact Dl | lia] | lia |].
  replace (v + x')%R with (v + x + (x' - x))%R by ring. apply Mono. lra.
Qed.
Print Assumptions C29_pv_decreasing.

Lemma neg_mult_le h g : (0 <= h -> 0 <= g -> - h * g <= h * g)%Q.
Proof. intros A B. pose proof (Qmult_le_0_compat _ _ A B). lra. Qed.

Lemma adjustment_scales c b cap d w : adjustment c 1 cap d = Ok w -> exists v, adjustment c b cap d = Ok v /\ (v == b * w)%Q.
Proof.
  destruct cap as [[p m] n]. unfold adjustment. destruct p as [p|], n as [n|];
  repeat match goal with |- context [if ?x then _ else _] => destruct x end;
  repeat match goal with |- context [bind ?x _] => let E := fresh in destruct x eqn:E; cbn [bind] end;
  try discriminate; intros [= <-]; eexists; (split; [reflexivity|]); ring.
Qed.

(** The PV01 of such a cashflow to a key rate with neighbours is never positive. *)
Theorem C31_pv01_sign : forall spline kvs m c ref r dl y cf k n p, usual kvs m c ref r dl y ->
  (forall p, In p cf -> (0 <= amt p)%R /\ payment_date p <= dl) ->
  reachable k -> kr_dcc k <> THIRTY360 -> countable (kr_dcc k) (kr_date k) ->
  (forall d, kr_prior k = Some d -> countable (kr_dcc k) d) -> (forall d, kr_next k = Some d -> countable (kr_dcc k) d) ->
  ~ (kr_prior k = None /\ kr_next k = None) ->
  bumped spline y k (cf_present_value spline cf) (- half_bp) = Ok n -> bumped spline y k (cf_present_value spline cf) half_bp = Ok p ->
  (p - n <= 0)%R.
Proof.
  intros spline kvs m c ref r dl y cf k n p U P Rk Nk Ck Cp Cn Nn En Ep.
  assert (G : forall d, exists w, adjustment (kr_dcc k) 1 (kr_prior k, kr_date k, kr_next k) d = Ok w /\ (0 <= w)%Q).
  { intros d. assert (R1 : reachable (set_bump_val 1 k)).
    { destruct Rk as (c0 & d0 & p0 & n0 & ops & A & B & ->). exists c0, d0, p0, n0, (ops ++ [SetBump 1]). split; [auto|]. split; [auto|].
      unfold kr_run. rewrite fold_left_app. reflexivity. }
    destruct (C20_ramps (set_bump_val 1 k) d R1) as (v & Ev & _ & Pv & _); auto. exists v. split; [exact Ev|]. apply Pv. cbn. lra. }
  unfold bumped in En, Ep.
  destruct (C29_pv_decreasing spline kvs m c ref r dl y cf (kr_adjust (set_bump_val (- half_bp) k)) (kr_adjust (set_bump_val half_bp k)) U P)
    as (v & w & Ev & Ew & Le); [|rewrite En in Ev; rewrite Ep in Ew; injection Ev as <-; injection Ew as <-; lra].
  intros d _. destruct (G d) as (g & Eg & Pg).
  destruct (adjustment_scales _ (- half_bp) _ _ _ Eg) as (v1 & E1 & V1). destruct (adjustment_scales _ half_bp _ _ _ Eg) as (v2 & E2 & V2).
  exists (Q2R v1), (Q2R v2). unfold kr_adjust, adj_call, kr_call. cbn [kr_dcc kr_bump kr_fun set_bump_val create_adjustment_function kr_prior kr_date kr_next].
  rewrite E1, E2. cbn [bind kr_prior kr_date kr_next]. split; [reflexivity|]. split; [reflexivity|]. apply Qle_Rle. rewrite V1, V2.
  assert (Hh : (0 <= half_bp)%Q) by (vm_compute; discriminate). apply neg_mult_le; auto.
Qed.
Print Assumptions C31_pv01_sign.

Example C31_case : exists y k n p, usual [(738886, 1%R); (738916, 3%R)] LINEAR ACT365 738880 CONSTANT 738916 y /\
  reachable k /\ k = new_key_rate ACT365 738900 (Some 738886) (Some 738916) /\
  let cf := [Payment 738900 (Some 100%R); Payment 738910 None] in
  bumped (fun _ _ _ => 0%R) y k (cf_present_value (fun _ _ _ => 0%R) cf) (- half_bp) = Ok n /\
  bumped (fun _ _ _ => 0%R) y k (cf_present_value (fun _ _ _ => 0%R) cf) half_bp = Ok p.
Proof.
  eexists. exists (new_key_rate ACT365 738900 (Some 738886) (Some 738916)).
  destruct (C29_pv_decreasing (fun _ _ _ => 0%R) _ _ _ _ _ _ _ [Payment 738900 (Some 100%R); Payment 738910 None]
    (kr_adjust (set_bump_val (- half_bp) (new_key_rate ACT365 738900 (Some 738886) (Some 738916))))
    (kr_adjust (set_bump_val half_bp (new_key_rate ACT365 738900 (Some 738886) (Some 738916)))) C29_case_usual) as (v & w & Ev & Ew & _).
  - intros p [<-|[<-|[]]]; cbn; (split; [lra | lia]).
  - intros d _. assert (R1 : forall b, reachable (set_bump_val b (new_key_rate ACT365 738900 (Some 738886) (Some 738916)))).
    { intros b. exists ACT365, 738900, (Some 738886), (Some 738916), [SetBump b]. split; [intros x [= <-]; lia|]. split; [intros x [= <-]; lia|]. reflexivity. }
    destruct (C20_ramps _ d (R1 1%Q)) as (g & Eg & _ & Pg & _); try (cbn; discriminate).
    + split; [vm_compute; split; discriminate | discriminate].
    + intros p [= <-]. split; [vm_compute; split; discriminate | discriminate].
    + intros p [= <-]. split; [vm_compute; split; discriminate | discriminate].
    + cbn. intros [? ?]; discriminate.
    + destruct (adjustment_scales _ (- half_bp) _ _ _ Eg) as (v1 & E1 & V1). destruct (adjustment_scales _ half_bp _ _ _ Eg) as (v2 & E2 & V2).
      exists (Q2R v1), (Q2R v2). unfold kr_adjust, adj_call, kr_call in *. cbn [kr_dcc kr_bump kr_fun set_bump_val create_adjustment_function new_key_rate kr_prior kr_next kr_date] in *.
      rewrite E1, E2. cbn [bind]. split; [reflexivity|]. split; [reflexivity|]. apply Qle_Rle. rewrite V1, V2.
      assert ((0 <= g)%Q) by (apply Pg; cbn; lra). assert (Hh : (0 <= half_bp)%Q) by (vm_compute; discriminate). apply neg_mult_le; auto.
  - exists v, w. split; [apply C29_case_usual|]. split; [|split; [reflexivity|]; split; [exact Ev | exact Ew]].
    exists ACT365, 738900, (Some 738886), (Some 738916), []. split; [intros x [= <-]; lia|]. split; [intros x [= <-]; lia|]. reflexivity.
Qed.

(** ---- C32 ---- *)
(** calling next() until StopIteration, at most [n] times *)
Fixpoint drain (n : nat) (l : ladder) : list risk * ladder :=
  match n with
  | O => ([], l)
  | S n => match rl_next l with (l', Some r) => let '(rs, l2) := drain n l' in (r :: rs, l2) | (l', None) => ([], l') end
  end.

Lemma drain_from risks : forall i n, (List.length risks - i < n)%nat -> (i <= List.length risks)%nat ->
  drain n (Ladder risks i) = (skipn i risks, Ladder risks 0).
Proof.
  intros i n. revert i. induction n as [|n IH]; intros i L Li; [lia|]. cbn [drain]. unfold rl_next. cbn [rl_risks rl_iter].
  destruct (nth_error risks i) as [r|] eqn:E.
  - assert (i < List.length risks)%nat by (apply nth_error_Some; congruence). rewrite IH by lia.
    f_equal. clear -E. revert i E. induction risks as [|x risks IHr]; intros i E; [destruct i; discriminate|].
    destruct i as [|i]; cbn in *; [congruence | auto].
  - apply nth_error_None in E. rewrite skipn_all2 by lia. reflexivity.
Qed.

(** A ladder keeps the risks it was given, in order; both ways of iterating give them, repeatedly. *)
Theorem C32_ladder_keeps_risks : forall risks : list risk, let l := new_ladder risks in
  rl_len l = List.length risks /\ rl_iterate l = risks /\ get_key_rate_dates l = List.map r_date risks /\
  get_pv01s l = List.map r_pv01 risks /\
  forall n, (List.length risks < n)%nat -> drain n l = (risks, l).
Proof.
  intros risks l. repeat split. intros n L. unfold l, new_ladder. rewrite drain_from by lia. reflexivity.
Qed.
Print Assumptions C32_ladder_keeps_risks.

(** Membership is always False, also for a member. *)
Theorem C32_membership_refuted : exists risks r, In r risks /\ rl_contains (new_ladder risks) r = false.
Proof. exists [Risk 738886 1%R], (Risk 738886 1%R). split; [left; auto | reflexivity]. Qed.
Print Assumptions C32_membership_refuted.

Example C32_case : drain 3 (new_ladder [Risk 738886 1%R; Risk 738900 2%R]) = ([Risk 738886 1%R; Risk 738900 2%R], new_ladder [Risk 738886 1%R; Risk 738900 2%R]).
Proof. reflexivity. Qed.
