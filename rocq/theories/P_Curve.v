(** Property theorems C26-C32 (curves, yield curves, risk ladders).  [spline] stands for scipy's quadratic and cubic
    splines: the theorems hold whatever they compute. *)
From Verif Require Import Base PyDate PyDateFacts DayCount DayCountFacts PyList KeyRate KeyRateFacts P_KeyRate Curve CurveFacts.
From Coq Require Import Sorting.Sorted Permutation Lra Lqa.
Open Scope Z_scope.
Ltac lra := first [Lra.lra | Lqa.lra].
Ltac nra := first [Lra.nra | Lqa.nra].

(** ---- specification vocabulary ---- *)
(** accrual from the reference date, as computed by the day count calculator *)
Definition accrual (c : dcc) (s e : date) (t : Q) : Prop := compute_accrual_length (Day s) (Day e) c = Ok t.
(** on these dates later means strictly larger accrual *)
Definition separates (c : dcc) (ref : date) (l : list date) : Prop :=
  forall d d' t t', In d l -> In d' l -> d < d' -> accrual c ref d t -> accrual c ref d' t' -> (t < t')%Q.
Definition knots (kvs : list knot_value) : list date := List.map fst kvs.

Lemma separates_rising c ref l : separates c ref l <-> rising c ref l.
Proof. split; intros H; exact H. Qed.

(** ---- C26 ---- *)
(** The Actual conventions separate all dates. *)
Theorem C26_actual_separates : forall c ref l, c <> THIRTY360 -> countable c ref -> (forall d, In d l -> countable c d) -> separates c ref l.
Proof.
  intros c ref l N R L. destruct (clock_of c N) as (phi & k & H). apply separates_rising. eapply rising_clock; eauto.
Qed.
Print Assumptions C26_actual_separates.

Lemma new_wf spline kvs m c oref l r cv : kvs <> [] -> NoDup (knots kvs) -> new_curve kvs m c oref l r = Ok cv ->
  wf cv /\ (forall kv, In kv (c_values cv) <-> In kv kvs) /\ (forall d, In d (List.map fst (c_values cv)) <-> In d (knots kvs)) /\
  interpolate spline cv = interpolate spline cv.
Proof.
  intros NE ND H. apply new_curve_ok in H. destruct H as (V & M & C & Le & Ri & Re & F).
  assert (P : Permutation (c_values cv) kvs) by (rewrite V; apply sort_by_perm).
  split; [split; [|split]|split; [|split; [|auto]]].
  - intros E. rewrite E in P. apply Permutation_nil in P. auto.
  - rewrite V. apply sort_vals_lt, ND.
  - rewrite C. exact F.
  - intros kv. split; apply Permutation_in; auto using Permutation_sym.
  - intros d. unfold knots. split; apply Permutation_in; [|apply Permutation_sym]; apply Permutation_map; auto.
Qed.

Lemma rising_sub c ref l l' : separates c ref l -> (forall d, In d l' -> In d l) -> rising c ref l'.
Proof. intros H I. eapply rising_incl; [apply separates_rising, H | intros d Hd; auto]. Qed.

(** A linear (or step) curve reprices its knots, whatever their order. *)
Theorem C26_reprices_knots : forall spline kvs m c oref l r cv d v, m = LINEAR \/ m = PREVIOUS ->
  new_curve kvs m c oref l r = Ok cv -> NoDup (knots kvs) -> separates c (c_ref cv) (knots kvs) ->
  In (d, v) kvs -> interpolate spline cv d None = Ok v.
Proof.
  intros spline kvs m c oref l r cv d v M H ND SE I.
  assert (NE : kvs <> []) by (intros ->; contradiction).
  destruct (new_wf spline kvs m c oref l r cv NE ND H) as (W & I1 & I2 & _).
  pose proof (new_curve_ok _ _ _ _ _ _ _ H) as (V & EM & EC & _ & _ & _ & F).
  apply I1 in I as I'. destruct (in_split _ _ I') as (pre & post & E).
  destruct (Forall2_in_l _ _ _ _ F I') as (p & Ip & [A1 A2]). cbn in A1, A2.
  assert (LP : match post with [] => d = fst (d, v) | kv' :: _ => d < fst kv' end).
  { destruct post as [|kv' post]; [auto|]. destruct W as (_ & SS & _). destruct (sorted_split _ _ _ _ SS E) as [_ S2]. apply (S2 kv'). left; auto. }
  assert (RI : rising (c_dcc cv) (c_ref cv) (d :: List.map fst (c_values cv))).
  { rewrite EC. eapply rising_sub; [exact SE|]. intros x [<-|Hx]; [apply (in_map fst) in I; exact I | apply I2; auto]. }
  rewrite <- EC in A1.
  destruct (interp_located spline cv d (fst p) pre (d, v) post W E ltac:(cbn; lia) LP A1 RI) as (t0 & T0 & _ & _ & Hp & Hl & _).
  rewrite (interior spline cv d None (fst p) W); auto; try (exists (d, v); split; [auto | cbn; lia]).
  destruct M as [-> | ->]; [rewrite (Hl EM eq_refl) | rewrite (Hp EM)]; cbn; rewrite Rplus_0_r; auto.
Qed.
Print Assumptions C26_reprices_knots.

(** Between two adjacent knots a linear curve is linear in the accrual, so between their values. *)
Theorem C26_between_knots : forall spline kvs c oref l r cv d0 v0 d1 v1 d t0 t t1,
  new_curve kvs LINEAR c oref l r = Ok cv -> NoDup (knots kvs) -> separates c (c_ref cv) (d :: knots kvs) ->
  In (d0, v0) kvs -> In (d1, v1) kvs -> d0 < d < d1 -> (forall x, In x (knots kvs) -> ~ (d0 < x < d1)) ->
  accrual c (c_ref cv) d0 t0 -> accrual c (c_ref cv) d t -> accrual c (c_ref cv) d1 t1 ->
  exists v, interpolate spline cv d None = Ok v /\
    v = (v0 + (v1 - v0) * (Q2R (t - t0) / Q2R (t1 - t0)))%R /\ (Rmin v0 v1 <= v <= Rmax v0 v1)%R.
Proof.
  intros spline kvs c oref l r cv d0 v0 d1 v1 d t0 t t1 H ND SE I0 In1 L Adj T0 T T1.
  assert (NE : kvs <> []) by (intros ->; contradiction).
  destruct (new_wf spline kvs LINEAR c oref l r cv NE ND H) as (W & I1 & I2 & _).
  pose proof (new_curve_ok _ _ _ _ _ _ _ H) as (V & EM & EC & _ & _ & _ & F).
  apply I1 in I0 as I0'. destruct (in_split _ _ I0') as (pre & post & E).
  assert (SS : StronglySorted Z.lt (List.map fst (c_values cv))) by apply W.
  destruct (sorted_split _ _ _ _ SS E) as [S1 S2].
  assert (RI : rising (c_dcc cv) (c_ref cv) (d :: List.map fst (c_values cv))).
  { rewrite EC. eapply rising_sub; [exact SE|]. intros x [<-|Hx]; [left; auto | right; apply I2; auto]. }
  assert (Ipost : exists post', post = (d1, v1) :: post').
  { apply I1 in In1. rewrite E in In1. apply in_app_or in In1. destruct In1 as [Ib|[Ib|Ib]].
    - specialize (S1 _ Ib). cbn in S1. lia.
    - injection Ib as -> ->. lia.
    - destruct post as [|kv' post']; [contradiction|]. destruct Ib as [->|Ib]; [eauto|].
      exfalso. assert (A : d0 < fst kv') by (apply (S2 kv'); left; auto).
      assert (B : fst kv' < d1).
      { rewrite E in SS. rewrite (app_assoc pre [(d0, v0)] (kv' :: post')) in SS || idtac.
        change (pre ++ (d0, v0) :: kv' :: post') with (pre ++ [(d0, v0)] ++ kv' :: post') in SS. rewrite app_assoc in SS.
        destruct (sorted_split _ (pre ++ [(d0, v0)]) post' kv' SS eq_refl) as [_ S3]. apply (S3 (d1, v1) Ib). }
      apply (Adj (fst kv')); [|lia]. apply I2. rewrite E. apply in_map, in_or_app. right; right; left; auto. }
  destruct Ipost as (post' & ->). rewrite <- EC in T.
  destruct (interp_located spline cv d t pre (d0, v0) ((d1, v1) :: post') W E ltac:(cbn; lia) ltac:(cbn; lia) T RI)
    as (t0' & T0' & Le & Lt & _ & _ & Hl).
  cbn in T0', Lt. rewrite EC in T0'. unfold accrual in T0. unfold axis, acc in T0'. rewrite T0 in T0'. injection T0' as <-.
  destruct (Hl EM ltac:(cbn; lia) (d1, v1) post' eq_refl) as (t1' & T1' & Lt1 & Hi). cbn in T1', Hi.
  rewrite EC in T1'. unfold axis, acc in T1'. unfold accrual in T1. rewrite T1 in T1'. injection T1' as <-.
  assert (L01 : (t0 < t1)%Q) by (specialize (Lt ltac:(lia)); lra).
  rewrite (interior spline cv d None t W); auto; try (exists (d0, v0); split; [auto | cbn; lia]);
    [|exists (d1, v1); split; [rewrite E; apply in_or_app; right; right; left; auto | cbn; lia]].
  rewrite Hi. cbn. eexists. split; [reflexivity|]. rewrite Rplus_0_r. split.
  - assert ((0 < Q2R (t1 - t0))%R) by (replace 0%R with (Q2R 0) by (unfold Q2R; cbn; lra); apply Qlt_Rlt; lra).
    field. lra.
  - apply between_values; auto.
Qed.
Print Assumptions C26_between_knots.

(** The order in which the knots are given does not matter. *)
Theorem C26_order_irrelevant : forall kvs kvs' m c oref l r, Permutation kvs kvs' -> NoDup (knots kvs) ->
  new_curve kvs m c oref l r = new_curve kvs' m c oref l r.
Proof. intros kvs kvs' m c oref l r P N. unfold new_curve. rewrite (sort_by_unique fst kvs kvs'); auto. Qed.
Print Assumptions C26_order_irrelevant.

(** Under 30/360 two knots can share an accrual: the first is then not repriced. *)
Theorem C26_thirty_refuted : exists d d' cv, mk_date 2024 1 30 = Ok d /\ mk_date 2024 1 31 = Ok d' /\
  new_curve [(d, 1%R); (d', 2%R)] LINEAR THIRTY360 (Some d) ERROR ERROR = Ok cv /\
  forall spline, interpolate spline cv d None = Ok 2%R.
Proof.
  eexists. eexists. eexists. split; [vm_compute; reflexivity|]. split; [vm_compute; reflexivity|]. split; [vm_compute; reflexivity|].
  intros spline. transitivity (@Ok R (2 + 0)%R); [vm_compute; reflexivity | rewrite Rplus_0_r; reflexivity].
Qed.
Print Assumptions C26_thirty_refuted.

Example C26_case : exists d0 d1 cv, mk_date 2024 1 1 = Ok d0 /\ mk_date 2024 1 31 = Ok d1 /\
  new_curve [(d1, 3%R); (d0, 1%R)] LINEAR ACT360 None ERROR ERROR = Ok cv /\ c_ref cv = d0 /\
  separates ACT360 d0 (d0 + 15 :: knots [(d1, 3%R); (d0, 1%R)]) /\
  exists v, interpolate (fun _ _ _ => 0%R) cv (d0 + 15) None = Ok v /\ v = 2%R.
Proof.
  exists 738886, 738916. eexists. split; [vm_compute; reflexivity|]. split; [vm_compute; reflexivity|].
  split; [vm_compute; reflexivity|]. split; [vm_compute; reflexivity|]. split.
  - apply C26_actual_separates; [discriminate | split; [vm_compute; split; discriminate | discriminate] |].
    intros d [<-|[<-|[<-|[]]]]; (split; [vm_compute; split; discriminate | discriminate]).
  -    assert (Sx : separates ACT360 738886 (738901 :: knots [(738916, 3%R); (738886, 1%R)])).
    { apply C26_actual_separates; [discriminate | split; [vm_compute; split; discriminate | discriminate] |].
      intros d [<-|[<-|[<-|[]]]]; (split; [vm_compute; split; discriminate | discriminate]). }
    destruct (C26_between_knots (fun _ _ _ => 0%R) [(738916, 3%R); (738886, 1%R)] ACT360 None ERROR ERROR _
      738886 1%R 738916 3%R 738901 (0 # 360) (15 # 360) (30 # 360) eq_refl) as (v & Hv & Ev & _).
    + repeat constructor; cbn; intros []; try lia; auto.
    + exact Sx.
    + right; left; reflexivity.
    + left; reflexivity.
    + lia.
    + cbn. intros x [<-|[<-|[]]]; lia.
    + vm_compute; reflexivity.
    + vm_compute; reflexivity.
    + vm_compute; reflexivity.
    + exists v. split; [exact Hv|]. rewrite Ev. unfold Q2R. cbn. lra.
Qed.

(** ---- C27 ---- *)
Lemma acc_err c s e x : acc c s e = Err x -> x = ValueError.
Proof.
  unfold acc. destruct (Z_le_gt_dec s e) as [L|L].
  - rewrite compute_days_le by auto. destruct c; cbn; try discriminate. unfold dcc_act_over_act.
    assert (M : forall y m d x, mk_date y m d = Err x -> x = ValueError) by (intros y m d z; unfold mk_date; destruct (ymd_ok y m d); congruence).
    repeat match goal with |- context [mk_date ?a ?b ?c] => let E := fresh in destruct (mk_date a b c) eqn:E; cbn [bind];
      [|intros [= <-]; eapply M; exact E] end. destruct (year s =? year e); discriminate.
  - rewrite compute_days_ge by lia. congruence.
Qed.

(** A knot before the reference date is rejected on construction. *)
Theorem C27_knot_before_reference : forall kvs m c ref l r d v, In (d, v) kvs -> d < ref ->
  new_curve kvs m c (Some ref) l r = Err ValueError.
Proof.
  intros kvs m c ref l r d v I L. unfold new_curve. cbn [bind]. unfold create_points.
  destruct (mapM (fun kv => axis c ref (fst kv)) (sort_by fst kvs)) as [xs|e] eqn:E.
  - exfalso. apply mapM_Forall2 in E. assert (I' : In (d, v) (sort_by fst kvs)) by (eapply Permutation_in; [apply Permutation_sym, sort_by_perm | exact I]).
    destruct (Forall2_in_l _ _ _ _ E I') as (x & _ & A). cbn in A. unfold axis, acc in A. rewrite compute_days_ge in A by lia. discriminate.
  - cbn. apply mapM_err in E. destruct E as (kv & _ & E). apply acc_err in E. subst. reflexivity.
Qed.
Print Assumptions C27_knot_before_reference.

Lemma first_last kvs m c oref l r cv df vf dl vl : new_curve kvs m c oref l r = Ok cv -> NoDup (knots kvs) ->
  In (df, vf) kvs -> (forall x, In x (knots kvs) -> df <= x) -> In (dl, vl) kvs -> (forall x, In x (knots kvs) -> x <= dl) ->
  exists vals, c_values cv = (df, vf) :: vals /\ forall kv, last (c_values cv) kv = (dl, vl).
Proof.
  intros H ND If Mf Il Ml. assert (NE : kvs <> []) by (intros ->; contradiction).
  destruct (new_wf (fun _ _ _ => 0%R) kvs m c oref l r cv NE ND H) as ((N & SS & F) & I1 & I2 & _).
  destruct (c_values cv) as [|[a x] vals] eqn:V; [congruence|].
  assert (Ea : a = df).
  { assert (df <= a) by (apply Mf, I2; left; auto). assert (In (df, vf) ((a, x) :: vals)) as J by (apply I1; auto).
    cbn in SS. inversion SS as [|? ? H1 H2]; subst. rewrite Forall_forall in H2. destruct J as [[= -> ->]|J]; auto.
    specialize (H2 df (in_map fst _ _ J)). lia. }
  assert (U : forall kv kv' : knot_value, In kv kvs -> In kv' kvs -> fst kv = fst kv' -> kv = kv').
  { clear -ND. unfold knots in ND. induction kvs as [|k kvs IH]; [contradiction|]. cbn in ND. inversion ND as [|? ? H1 H2]; subst.
    intros kv kv' [->|I] [->|I'] E; auto; exfalso; apply H1; [rewrite E | rewrite <- E]; apply in_map; auto. }
  exists vals. split.
  - f_equal. apply U; auto. apply I1. left; auto.
  - intros kv. destruct (exists_last N) as (vs & kl & El). rewrite El in *. rewrite last_split.
    assert (Ik : In kl (vs ++ [kl])) by (apply in_or_app; right; left; auto).
    apply U; [apply I1; exact Ik | auto |]. cbn [fst].
    assert (fst kl <= dl) by (apply Ml, I2; apply in_map; exact Ik).
    assert (J : In (dl, vl) (vs ++ [kl])) by (apply I1; auto). apply in_app_or in J. destruct J as [J|[->|[]]]; auto.
    destruct (sorted_split _ vs [] kl SS eq_refl) as [S1 _]. specialize (S1 _ J). cbn in S1. lia.
Qed.

(** End behaviour: (df, vf) is the first knot, (dl, vl) the last, [a] the optional adjustment. *)
Theorem C27_ends : forall spline kvs m c oref l r cv df vf dl vl d a,
  new_curve kvs m c oref l r = Ok cv -> NoDup (knots kvs) ->
  In (df, vf) kvs -> (forall x, In x (knots kvs) -> df <= x) -> In (dl, vl) kvs -> (forall x, In x (knots kvs) -> x <= dl) ->
  (d < df -> l = ERROR -> interpolate spline cv d a = Err ValueError) /\
  (d < df -> l = CONSTANT -> interpolate spline cv d None = Ok vf /\
     forall f x, a = Some f -> f (ADate d) = Ok x -> interpolate spline cv d a = Ok (vf + x)%R) /\
  (dl < d -> r = ERROR -> interpolate spline cv d a = Err ValueError) /\
  (dl < d -> r = CONSTANT -> interpolate spline cv d None = Ok vl /\
     (forall k, interpolate spline cv d (kr_adjust k) = Err TypeError) /\
     forall f x, a = Some f -> f TheClass = Ok x -> interpolate spline cv d a = Ok (vl + x)%R).
Proof.
  intros spline kvs m c oref l r cv df vf dl vl d a H ND If Mf Il Ml.
  destruct (first_last kvs m c oref l r cv df vf dl vl H ND If Mf Il Ml) as (vals & V & La).
  pose proof (new_curve_ok _ _ _ _ _ _ _ H) as (_ & _ & _ & Le & Ri & _).
  assert (df <= dl) by (apply Mf; apply (in_map fst) in Il; exact Il).
  assert (U : forall b, interpolate spline cv d b =
    if d <? df then match l with CONSTANT => do x <- adj_call b (ADate d); Ok (vf + x)%R | ERROR => Err ValueError end
    else if dl <? d then match r with CONSTANT => do x <- adj_call b TheClass; Ok (vl + x)%R | ERROR => Err ValueError end
    else do t <- date_to_interpolation_axis cv d; do v <- interp1d spline (c_method cv) (c_pts cv) t; do x <- adj_call b (ADate d); Ok (v + x)%R).
  { intros b. unfold interpolate. specialize (La (df, vf)). rewrite Le, Ri. rewrite V in *. rewrite La. reflexivity. }
  clear Le Ri. repeat split; intros; rewrite U.
  - replace (d <? df) with true by lia. subst; auto.
  - replace (d <? df) with true by lia. subst; cbn. rewrite Rplus_0_r; auto.
  - replace (d <? df) with true by lia. subst; cbn. match goal with E : _ = Ok x |- _ => rewrite E end. auto.
  - replace (d <? df) with false by lia. replace (dl <? d) with true by lia. subst; auto.
  - replace (d <? df) with false by lia. replace (dl <? d) with true by lia. subst; cbn. rewrite Rplus_0_r; auto.
  - replace (d <? df) with false by lia. replace (dl <? d) with true by lia. subst; auto.
  - replace (d <? df) with false by lia. replace (dl <? d) with true by lia. subst; cbn. match goal with E : _ = Ok x |- _ => rewrite E end. auto.
Qed.
Print Assumptions C27_ends.

(** From the first to the last knot a curve is defined for every convention that separates the date from the knots, and an
    adjustment is added to the unadjusted value. *)
Theorem C27_inside : forall spline kvs m c oref l r cv d a t, new_curve kvs m c oref l r = Ok cv -> NoDup (knots kvs) ->
  (exists x, In x (knots kvs) /\ x <= d) -> (exists x, In x (knots kvs) /\ d <= x) ->
  accrual c (c_ref cv) d t -> separates c (c_ref cv) (d :: knots kvs) ->
  exists v, interpolate spline cv d None = Ok v /\
    interpolate spline cv d a = match adj_call a (ADate d) with Ok x => Ok (v + x)%R | Err e => Err e end.
Proof.
  intros spline kvs m c oref l r cv d a t H ND (x & Ix & Lx) (z & Iz & Lz) T SE.
  assert (NE : kvs <> []) by (intros ->; contradiction).
  destruct (new_wf spline kvs m c oref l r cv NE ND H) as (W & I1 & I2 & _).
  pose proof (new_curve_ok _ _ _ _ _ _ _ H) as (V & EM & EC & _ & _ & _ & F).
  assert (A : exists kv, In kv (c_values cv) /\ fst kv <= d).
  { apply I2 in Ix. apply in_map_iff in Ix. destruct Ix as (kv & <- & I). eauto. }
  assert (B : exists kv, In kv (c_values cv) /\ d <= fst kv).
  { apply I2 in Iz. apply in_map_iff in Iz. destruct Iz as (kv & <- & I). eauto. }
  assert (RI : rising (c_dcc cv) (c_ref cv) (d :: List.map fst (c_values cv))).
  { rewrite EC. eapply rising_sub; [exact SE|]. intros y [<-|Hy]; [left; auto | right; apply I2; auto]. }
  assert (T' : axis (c_dcc cv) (c_ref cv) d = Ok t) by (rewrite EC; exact T).
  destruct (interp1d_ok spline cv d t W A B T' RI) as (v & Hv).
  exists v. rewrite !(interior spline cv d _ t W A B T'). rewrite Hv. cbn. rewrite Rplus_0_r. split; [auto|]. destruct (adj_call a (ADate d)); auto.
Qed.
Print Assumptions C27_inside.

Example C27_case : exists cv, new_curve [(738916, 3%R); (738886, 1%R)] LINEAR ACT360 (Some 738880) CONSTANT ERROR = Ok cv /\
  (interpolate (fun _ _ _ => 0%R) cv 738881 (Some (fun _ => Ok 5%R)) = Ok (1 + 5)%R) /\
  interpolate (fun _ _ _ => 0%R) cv 738917 None = Err ValueError /\
  new_curve [(738916, 3%R)] LINEAR ACT360 (Some 738917) CONSTANT ERROR = Err ValueError.
Proof.
  eexists. split; [vm_compute; reflexivity|]. split; [vm_compute; reflexivity|]. split; vm_compute; reflexivity.
Qed.

(** ---- C28 ---- *)
Theorem C28_last_knot_before : forall spline kvs c oref l r cv d0 v0 d t, new_curve kvs PREVIOUS c oref l r = Ok cv ->
  NoDup (knots kvs) -> In (d0, v0) kvs -> d0 <= d -> (forall x, In x (knots kvs) -> ~ (d0 < x <= d)) ->
  (exists x, In x (knots kvs) /\ d <= x) -> accrual c (c_ref cv) d t -> separates c (c_ref cv) (d :: knots kvs) ->
  interpolate spline cv d None = Ok v0.
Proof.
  intros spline kvs c oref l r cv d0 v0 d t H ND I0 L Adj (z & Iz & Lz) T SE.
  assert (NE : kvs <> []) by (intros ->; contradiction).
  destruct (new_wf spline kvs PREVIOUS c oref l r cv NE ND H) as (W & I1 & I2 & _).
  pose proof (new_curve_ok _ _ _ _ _ _ _ H) as (V & EM & EC & _ & _ & _ & F).
  apply I1 in I0 as I0'. destruct (in_split _ _ I0') as (pre & post & E).
  assert (SS : StronglySorted Z.lt (List.map fst (c_values cv))) by apply W.
  destruct (sorted_split _ _ _ _ SS E) as [S1 S2].
  assert (RI : rising (c_dcc cv) (c_ref cv) (d :: List.map fst (c_values cv))).
  { rewrite EC. eapply rising_sub; [exact SE|]. intros x [<-|Hx]; [left; auto | right; apply I2; auto]. }
  assert (LP : match post with [] => d = fst (d0, v0) | kv' :: _ => d < fst kv' end).
  { destruct post as [|kv' post].
    - cbn. apply I2 in Iz. rewrite E in Iz. rewrite map_app in Iz. apply in_app_or in Iz. destruct Iz as [Iz|[Iz|[]]]; [|cbn in Iz; lia].
      apply in_map_iff in Iz. destruct Iz as (kv & <- & Ik). specialize (S1 kv Ik). cbn in S1. lia.
    - assert (A : fst (d0, v0) < fst kv') by (apply S2; left; auto). cbn in A.
      assert (In (fst kv') (knots kvs)) by (apply I2; rewrite E; apply in_map, in_or_app; right; right; left; auto).
      specialize (Adj _ H0). lia. }
  assert (T' : axis (c_dcc cv) (c_ref cv) d = Ok t) by (rewrite EC; exact T).
  destruct (interp_located spline cv d t pre (d0, v0) post W E L LP T' RI) as (t0 & _ & _ & _ & Hp & _).
  rewrite (interior spline cv d None t W); auto.
  - rewrite (Hp EM). cbn. rewrite Rplus_0_r. auto.
  - exists (d0, v0). auto.
  - apply I2 in Iz. apply in_map_iff in Iz. destruct Iz as (kv & <- & I). eauto.
Qed.
Print Assumptions C28_last_knot_before.

Example C28_case : exists cv, new_curve [(738916, 3%R); (738886, 1%R); (738900, 2%R)] PREVIOUS ACT360 None ERROR ERROR = Ok cv /\
  interpolate (fun _ _ _ => 0%R) cv 738915 None = Ok (2 + 0)%R.
Proof. eexists. split; [vm_compute; reflexivity|]. vm_compute; reflexivity. Qed.

(** ---- C30 ---- *)
(** calls on a yield curve that are queries, and resets of its knots *)
Inductive yc_query := QDiscount (a : adjust) | QPresentValue (i : instrument) (a : adjust) | QDeriv (k : kr) (i : instrument).
Inductive yc_op := Query (q : yc_query) | Reset (kvs : list knot_value) | ResetOne (kv : knot_value) (i : Z).
Definition yc_apply spline (y : ycurve) (o : yc_op) : ycurve :=
  match o with
  | Query (QDiscount a) => fst (to_discount_curve spline y a)
  | Query (QPresentValue i a) => fst (yc_present_value spline y i a)
  | Query (QDeriv k i) => fst (fst (calculate_key_rate_deriv spline y k i))
  | Reset kvs => YC (fst (reset_interpolation_values kvs (y_curve y))) (y_space y) (y_dc y)
  | ResetOne kv i => YC (fst (reset_interpolation_value kv i (y_curve y))) (y_space y) (y_dc y)
  end.
Definition yc_run spline (y : ycurve) (ops : list yc_op) : ycurve := fold_left (yc_apply spline) ops y.

(** the same yield curve without its cached discount curve *)
Definition fresh (y : ycurve) : ycurve := YC (y_curve y) (y_space y) None.

Definition cache_ok (y : ycurve) : Prop := forall dc, y_dc y = Some dc ->
  c_method dc = discount_method (y_curve y) (y_space y) /\ c_dcc dc = c_dcc (y_curve y) /\ c_ref dc = c_ref (y_curve y) /\
  c_left dc = ERROR /\ c_right dc = ERROR.

Lemma to_dc_fresh spline y a : cache_ok y ->
  snd (to_discount_curve spline y a) = snd (to_discount_curve spline (fresh y) a) /\
  y_curve (fst (to_discount_curve spline y a)) = y_curve y /\ y_space (fst (to_discount_curve spline y a)) = y_space y /\
  cache_ok (fst (to_discount_curve spline y a)).
Proof.
  intros C. unfold to_discount_curve. cbn [fresh y_curve y_space y_dc].
  destruct (discount_values spline (y_curve y) (y_space y) a) as [vals|e]; [|cbn; auto].
  destruct (y_dc y) as [dc|] eqn:D.
  - specialize (C dc D). destruct C as (M & Cc & Rf & L & R').
    unfold reset_interpolation_values, new_curve. cbn [bind]. rewrite M, Cc, Rf, L, R'.
    destruct (create_points _ _ _ _) as [pts|e]; cbn; (split; [reflexivity|]; split; [reflexivity|]; split; [reflexivity|]);
    intros dc' [= <-]; cbn; auto.
  - destruct (new_curve _ _ _ _ _ _) as [dc|e] eqn:N; cbn; (split; [reflexivity|]; split; [reflexivity|]; split; [reflexivity|]).
    + intros dc' [= <-]. cbn. apply new_curve_ok in N. destruct N as (_ & A & B & X & Y & Z' & _). auto.
    + exact C.
Qed.

Lemma pv_fresh spline y i a : cache_ok y ->
  snd (yc_present_value spline y i a) = snd (yc_present_value spline (fresh y) i a) /\
  y_curve (fst (yc_present_value spline y i a)) = y_curve y /\ y_space (fst (yc_present_value spline y i a)) = y_space y /\
  cache_ok (fst (yc_present_value spline y i a)).
Proof.
  intros C. destruct (to_dc_fresh spline y a C) as (A & B & D & E). unfold yc_present_value.
  destruct (to_discount_curve spline y a) as [y' r]. destruct (to_discount_curve spline (fresh y) a) as [y2 r2]. cbn in *. subst r2. auto.
Qed.

Lemma deriv_keeps spline y k i : cache_ok y -> let y' := fst (fst (calculate_key_rate_deriv spline y k i)) in
  y_curve y' = y_curve y /\ y_space y' = y_space y /\ cache_ok y'.
Proof.
  intros C. unfold calculate_key_rate_deriv. set (k1 := set_bump_val _ (create_adjustment_function k)).
  destruct (pv_fresh spline y i (kr_adjust k1) C) as (_ & A1 & B1 & C1).
  destruct (yc_present_value spline y i (kr_adjust k1)) as [y1 [n|e]] eqn:E1; cbn [fst snd] in *; [|auto].
  set (k2 := set_bump_val _ (create_adjustment_function k1)).
  destruct (pv_fresh spline y1 i (kr_adjust k2) C1) as (_ & A2 & B2 & C2).
  destruct (yc_present_value spline y1 i (kr_adjust k2)) as [y2 [p|e]] eqn:E2; cbn [fst snd] in *; (split; [congruence|split; [congruence|auto]]).
Qed.

Lemma reset_keeps kvs cv : c_method (fst (reset_interpolation_values kvs cv)) = c_method cv /\
  c_dcc (fst (reset_interpolation_values kvs cv)) = c_dcc cv /\ c_ref (fst (reset_interpolation_values kvs cv)) = c_ref cv /\
  c_left (fst (reset_interpolation_values kvs cv)) = c_left cv /\ c_right (fst (reset_interpolation_values kvs cv)) = c_right cv.
Proof. unfold reset_interpolation_values. destruct (create_points _ _ _ _); cbn; auto. Qed.
Lemma reset_one_keeps kv i cv : c_method (fst (reset_interpolation_value kv i cv)) = c_method cv /\
  c_dcc (fst (reset_interpolation_value kv i cv)) = c_dcc cv /\ c_ref (fst (reset_interpolation_value kv i cv)) = c_ref cv /\
  c_left (fst (reset_interpolation_value kv i cv)) = c_left cv /\ c_right (fst (reset_interpolation_value kv i cv)) = c_right cv.
Proof. unfold reset_interpolation_value. destruct (py_index _ _); cbn; auto. destruct (create_points _ _ _ _); cbn; auto. Qed.

Definition same_shape (cv cv' : curve) : Prop :=
  c_method cv' = c_method cv /\ c_dcc cv' = c_dcc cv /\ c_ref cv' = c_ref cv /\ c_left cv' = c_left cv /\ c_right cv' = c_right cv.

Lemma apply_inv_yc spline y o : cache_ok y -> cache_ok (yc_apply spline y o) /\ y_space (yc_apply spline y o) = y_space y /\
  same_shape (y_curve y) (y_curve (yc_apply spline y o)) /\ (forall q, o = Query q -> y_curve (yc_apply spline y o) = y_curve y).
Proof.
  intros C. destruct o as [[a|i a|k i]|kvs|kv i]; cbn [yc_apply].
  - destruct (to_dc_fresh spline y a C) as (_ & A & B & D). unfold same_shape. rewrite A. split; [auto|split; [auto|split; [repeat split; auto|auto]]].
  - destruct (pv_fresh spline y i a C) as (_ & A & B & D). unfold same_shape. rewrite A. split; [auto|split; [auto|split; [repeat split; auto|auto]]].
  - destruct (deriv_keeps spline y k i C) as (A & B & D). unfold same_shape. rewrite A. split; [auto|split; [auto|split; [repeat split; auto|auto]]].
  - destruct (reset_keeps kvs (y_curve y)) as (A & B & D & E & F). cbn. split; [|split; [auto|split; [repeat split; auto|discriminate]]].
    intros dc H. destruct (C dc H) as (X1 & X2 & X3 & X4 & X5). cbn. repeat split; try congruence.
    rewrite X1. unfold discount_method. rewrite A. auto.
  - destruct (reset_one_keeps kv i (y_curve y)) as (A & B & D & E & F). cbn. split; [|split; [auto|split; [repeat split; auto|discriminate]]].
    intros dc H. destruct (C dc H) as (X1 & X2 & X3 & X4 & X5). cbn. repeat split; try congruence.
    rewrite X1. unfold discount_method. rewrite A. auto.
Qed.

Lemma run_inv_yc spline ops : forall y, cache_ok y -> cache_ok (yc_run spline y ops) /\ y_space (yc_run spline y ops) = y_space y /\
  same_shape (y_curve y) (y_curve (yc_run spline y ops)) /\
  ((forall o, In o ops -> exists q, o = Query q) -> y_curve (yc_run spline y ops) = y_curve y).
Proof.
  induction ops as [|o ops IH]; intros y C; [split; [auto|split; [auto|split; [repeat split; auto|auto]]]|].
  destruct (apply_inv_yc spline y o C) as (C1 & S1 & H1 & Q1). destruct (IH _ C1) as (C2 & S2 & H2 & Q2).
  unfold yc_run in *. cbn. split; [auto|]. split; [congruence|]. split.
  - unfold same_shape in *. destruct H1 as (A & B & D & E & F), H2 as (A' & B' & D' & E' & F'). repeat split; congruence.
  - intros H. rewrite Q2; [|intros; apply H; right; auto]. destruct (H o ltac:(left; auto)) as (q & ->). eapply Q1; eauto.
Qed.

Lemma new_yc_cache kvs m c s ref l r y : new_yield_curve kvs m c s ref l r = Ok y ->
  cache_ok y /\ y_space y = s /\ new_curve kvs m c (Some ref) l r = Ok (y_curve y) /\ y_dc y = None.
Proof.
  unfold new_yield_curve. destruct (new_curve kvs m c (Some ref) l r) as [cv|e]; cbn; [|discriminate].
  intros [= <-]. split; [intros dc; cbn; discriminate|auto].
Qed.

(** After any history of queries, a present value (and a discount curve) is what the new yield curve would have given. *)
Theorem C30_queries_have_no_effect : forall spline kvs m c s ref l r y qs, new_yield_curve kvs m c s ref l r = Ok y ->
  (forall o, In o qs -> exists q, o = Query q) ->
  forall i a, snd (yc_present_value spline (yc_run spline y qs) i a) = snd (yc_present_value spline y i a) /\
    snd (to_discount_curve spline (yc_run spline y qs) a) = snd (to_discount_curve spline y a) /\
    forall d, interpolate spline (y_curve (yc_run spline y qs)) d a = interpolate spline (y_curve y) d a.
Proof.
  intros spline kvs m c s ref l r y qs N H i a. apply new_yc_cache in N. destruct N as (C & _ & _ & D).
  destruct (run_inv_yc spline qs y C) as (C' & S' & _ & Q). specialize (Q H).
  destruct (pv_fresh spline _ i a C') as (A & _). destruct (pv_fresh spline y i a C) as (A0 & _).
  destruct (to_dc_fresh spline _ a C') as (B & _). destruct (to_dc_fresh spline y a C) as (B0 & _).
  rewrite A, A0, B, B0. unfold fresh. rewrite S', Q. auto.
Qed.
Print Assumptions C30_queries_have_no_effect.

(** After any history of queries and resets (successful or not), a successful reset of the knots makes present values those
    of a yield curve newly built from these knots. *)
Theorem C30_reset_forgets_history : forall spline kvs m c s ref l r y ops kvs' y', new_yield_curve kvs m c s ref l r = Ok y ->
  new_yield_curve kvs' m c s ref l r = Ok y' ->
  forall i a, snd (yc_present_value spline (yc_run spline y (ops ++ [Reset kvs'])) i a) = snd (yc_present_value spline y' i a).
Proof.
  intros spline kvs m c s ref l r y ops kvs' y' N N' i a. apply new_yc_cache in N. destruct N as (C & Sp & Nc & D).
  apply new_yc_cache in N'. destruct N' as (C1 & Sp1 & Nc1 & D1).
  destruct (run_inv_yc spline ops y C) as (C' & S' & Sh & _).
  assert (E : yc_run spline y (ops ++ [Reset kvs']) = yc_apply spline (yc_run spline y ops) (Reset kvs')).
  { unfold yc_run. rewrite fold_left_app. reflexivity. }
  rewrite E. destruct (apply_inv_yc spline _ (Reset kvs') C') as (C2 & S2 & Sh2 & _).
  destruct (pv_fresh spline _ i a C2) as (A & _). destruct (pv_fresh spline y' i a C1) as (A1 & _). rewrite A, A1.
  f_equal. f_equal. unfold fresh. rewrite S2, S', Sp, Sp1. f_equal.
  pose proof (new_curve_ok _ _ _ _ _ _ _ Nc) as (V0 & M0 & K0 & L0 & R0 & F0 & _). specialize (F0 ref eq_refl).
  cbn [yc_apply y_curve]. unfold reset_interpolation_values. destruct Sh as (X1 & X2 & X3 & X4 & X5).
  rewrite X1, X2, X3, X4, X5, M0, K0, L0, R0, F0.
  unfold new_curve in Nc1. cbn [bind] in Nc1. destruct (create_points m c ref (sort_by fst kvs')) as [pts|e]; cbn in *; congruence.
Qed.
Print Assumptions C30_reset_forgets_history.

(** The discount curve returned is the cached object: a later call changes what was returned earlier. *)
Theorem C30_returned_curve_is_the_cache : forall spline y a y' dc, to_discount_curve spline y a = (y', Ok dc) -> y_dc y' = Some dc.
Proof.
  intros spline y a y' dc. unfold to_discount_curve. destruct (discount_values spline _ _ _); [|discriminate].
  destruct (y_dc y) as [d0|].
  - destruct (reset_interpolation_values _ _) as [dc' [u|e]]; cbn; [|discriminate]. intros [= <- <-]. auto.
  - destruct (new_curve _ _ _ _ _ _); [|discriminate]. intros [= <- <-]. auto.
Qed.
Print Assumptions C30_returned_curve_is_the_cache.

Definition shift (x : R) : adjust := Some (fun _ => Ok x).
Theorem C30_snapshot_refuted : exists spline y y1 dc1 y2 dc2, new_yield_curve [(738886, 1%R); (738916, 3%R)] LINEAR ACT360 DISCOUNT_FACTOR 738886 ERROR ERROR = Ok y /\
  to_discount_curve spline y None = (y1, Ok dc1) /\ y_dc y1 = Some dc1 /\
  to_discount_curve spline y1 (shift 1%R) = (y2, Ok dc2) /\ y_dc y2 = Some dc2 /\
  interpolate spline dc1 738886 None = Ok (1 + 0 + 0)%R /\ interpolate spline dc2 738886 None = Ok (1 + 1 + 0)%R.
Proof.
  exists (fun _ _ _ => 0%R).
  eexists. eexists. eexists. eexists. eexists.
  split; [vm_compute; reflexivity|]. split; [vm_compute; reflexivity|]. split; [vm_compute; reflexivity|].
  split; [vm_compute; reflexivity|]. split; [vm_compute; reflexivity|].
  split; vm_compute; reflexivity.
Qed.
Print Assumptions C30_snapshot_refuted.
