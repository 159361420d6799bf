(** Property theorems C73 (bootstrapped yield curve). *)
From Verif Require Import Base PyDate PyDateFacts DayCount DayCountFacts PyList KeyRate KeyRateFacts P_KeyRate Curve CurveFacts P_Curve Holidays Scheduler Cashflow CashflowFacts P_Yield Bond YieldFactory P_YieldFactory P_YieldFit.
From Verif Require P_Bond P_BondYield P_Cashflow.
From Coq Require Import Sorting.Sorted Permutation Lra Lqa.
Open Scope Z_scope.
Ltac lra := first [Lra.lra | Lqa.lra].

(** ---- specification ---- *)
(** An instrument is worth the same on two discount curves that agree from the reference date to its knot. *)
Definition local spline (ref : date) (q : quoted) : Prop := forall dc dc', c_ref dc = ref -> c_ref dc' = ref ->
  (forall d, ref <= d <= q_date q -> interpolate spline dc d None = interpolate spline dc' d None) -> q_pv q dc = q_pv q dc'.
(** the error on the last of the first instruments, [vs] being the yields at the earlier knots and [x] its own *)
Definition last_error spline (l : list quoted) (q : quoted) (m : interp_method) (ref : date) (vs : list R) (x : R) : res R :=
  do y <- curve_with (l ++ [q]) m ref (vs ++ [x]); do v <- value_on spline y q; Ok (v - q_price q)%R.

(** Bonds and zero coupon bonds are local. *)
Theorem C73_zero_local : forall spline ref d p, ref <= d -> local spline ref (quoted_zero spline (new_zero_coupon d p)).
Proof.
  intros spline ref d p L dc dc' R1 R2 A. cbn [quoted_zero q_pv]. specialize (A d). cbn [q_date quoted_zero q_knot zc_to_knot zc_date new_zero_coupon fst] in A. specialize (A ltac:(lia)).
  unfold zc_present_value. cbn [new_zero_coupon zc_cfs cfc_getitem new_cf_collection combine fold_left dict_set dict_get cfc_dict fst snd key_eqb bind].
  unfold cf_present_value, new_cashflow. cbn [sort_by fold_left insort pv_terms amount payment_date]. rewrite R1, R2. replace (ref <=? d) with true by lia. rewrite A. reflexivity.
Qed.
Print Assumptions C73_zero_local.
Theorem C73_bond_local : forall spline ref a b q, new_bond a = Ok b -> date_ok ref -> date_ok (maturity_date a) -> quoted_bond spline b = Ok q -> local spline ref q.
Proof.
  intros spline ref a b q B Or Om Q dc dc' R1 R2 A. destruct (P_BondYield.C61_knot a b B) as (d & K & _ & Le). unfold quoted_bond in Q. rewrite K in Q. injection Q as <-.
  cbn [q_pv]. cbn [q_date q_knot fst] in A.
  assert (T : forall l, (forall p, In p l -> In p (coupons b ++ redemption b)) -> received_terms spline b dc l = received_terms spline b dc' l).
  { induction l as [|p l IH]; intros S; [reflexivity|]. cbn [received_terms]. rewrite R1, R2. rewrite IH by (intros; apply S; right; auto).
    destruct (is_payment_received b p (Some ref)) as [[]|] eqn:E; cbn [bind]; try reflexivity.
    pose proof (S p (or_introl eq_refl)) as I. pose proof (P_BondYield.C40_paid_later a b p ref B Om Or I E). rewrite A; [reflexivity|]. specialize (Le p I). lia. }
  unfold bond_present_value. rewrite !T; [reflexivity | |]; intros p I; apply in_or_app; auto.
Qed.
Print Assumptions C73_bond_local.

(** ---- locality of curves ---- *)
Lemma last_le (l : list Z) d : (forall x, In x l -> d < x) \/ (exists x, In x l /\ x <= d /\ forall z, In z l -> z <= d -> z <= x).
Proof.
  induction l as [|a l IH]; [left; intros x []|]. destruct (Z_le_gt_dec a d) as [L|L].
  - right. destruct IH as [F|(x & I & Lx & M)].
    + exists a. split; [left; auto|]. split; [auto|]. intros z [<-|J]; [lia|]. specialize (F z J). lia.
    + exists (Z.max a x). split; [destruct (Z.max_spec a x) as [[_ ->]|[_ ->]]; [right|left]; auto|]. split; [lia|]. intros z [<-|J] H; [lia|]. specialize (M z J H). lia.
  - destruct IH as [F|(x & I & Lx & M)]; [left|right].
    + intros x [<-|J]; [lia|auto].
    + exists x. split; [right; auto|]. split; [auto|]. intros z [<-|J] H; [lia|auto].
Qed.
Lemma first_ge (l : list Z) d x0 : In x0 l -> d <= x0 -> exists x, In x l /\ d <= x /\ forall z, In z l -> d <= z -> x <= z.
Proof.
  intros I L. destruct (last_le (List.map Z.opp l) (- d)) as [F|(x & J & Lx & M)].
  - specialize (F (- x0) (in_map Z.opp _ _ I)). lia.
  - apply in_map_iff in J. destruct J as (x' & <- & J). exists x'. split; [auto|]. split; [lia|]. intros z Jz Lz. specialize (M (- z) (in_map Z.opp _ _ Jz)). lia.
Qed.
Lemma in_knots d kvs : In d (knots kvs) <-> exists v, In (d, v) kvs.
Proof. unfold knots. rewrite in_map_iff. split; [intros ([d' v] & <- & I); eauto | intros (v & I); exists (d, v); auto]. Qed.

Lemma local_interp spline kvs kvs' m ref r r' dl dl' y y' D d : m = LINEAR \/ m = PREVIOUS ->
  usual kvs m ACTACT ref r dl y -> usual kvs' m ACTACT ref r' dl' y' -> In D (knots kvs) ->
  (forall d v, d <= D -> In (d, v) kvs <-> In (d, v) kvs') -> ref <= d <= D ->
  interpolate spline (y_curve y) d None = interpolate spline (y_curve y') d None.
Proof.
  intros M U U' ID Ag L. pose proof U as (H & ND & Il & Ml & N & Rf & Dl). pose proof U' as (H' & ND' & Il' & Ml' & _ & _ & Dl').
  apply new_yc_cache in H. destruct H as (_ & _ & Hn & _). apply new_yc_cache in H'. destruct H' as (_ & _ & Hn' & _).
  assert (Agk : forall x, x <= D -> In x (knots kvs) <-> In x (knots kvs')).
  { intros x Lx. rewrite !in_knots. split; intros (v & I); exists v; apply Ag; auto. }
  assert (ID' : In D (knots kvs')) by (apply Agk; [lia|auto]). pose proof (Ml D ID). pose proof (Ml' D ID').
  assert (Ge : forall kvs r cv, new_curve kvs m ACTACT (Some ref) CONSTANT r = Ok cv -> forall x, In x (knots kvs) -> ref <= x).
  { intros k rr cv E x Ix. destruct (Z_le_gt_dec ref x); auto. apply in_knots in Ix. destruct Ix as (v & Ix).
    pose proof (C27_knot_before_reference k m ACTACT ref CONSTANT rr x v Ix ltac:(lia)) as X. generalize (eq_trans (eq_sym X) E). discriminate. }
  pose proof (Ge _ _ _ Hn) as G. pose proof (Ge _ _ _ Hn') as G'. clear Ge.
  assert (Cd : forall x, ref <= x <= dl -> countable ACTACT x) by (intros x Lx; eapply countable_between; [exact Rf | exact Dl | lia]).
  assert (Cd' : forall x, ref <= x <= dl' -> countable ACTACT x) by (intros x Lx; eapply countable_between; [exact Rf | exact Dl' | lia]).
  pose proof (new_curve_ok _ _ _ _ _ _ _ Hn) as (_ & _ & _ & _ & _ & Er & _). specialize (Er ref eq_refl).
  pose proof (new_curve_ok _ _ _ _ _ _ _ Hn') as (_ & _ & _ & _ & _ & Er' & _). specialize (Er' ref eq_refl).
  assert (SE : forall x, ref <= x <= D -> separates ACTACT (c_ref (y_curve y)) (x :: knots kvs)).
  { intros x Lx. rewrite Er. apply C26_actual_separates; auto. intros z [<-|I]; [apply Cd; lia|]. apply Cd. split; [apply G; auto | apply Ml; auto]. }
  assert (SE' : forall x, ref <= x <= D -> separates ACTACT (c_ref (y_curve y')) (x :: knots kvs')).
  { intros x Lx. rewrite Er'. apply C26_actual_separates; auto. intros z [<-|I]; [apply Cd'; lia|]. apply Cd'. split; [apply G'; auto | apply Ml'; auto]. }
  assert (SK : separates ACTACT (c_ref (y_curve y)) (knots kvs)) by (intros a b ta tb A1 A2; apply (SE D ltac:(lia)); right; auto).
  assert (SK' : separates ACTACT (c_ref (y_curve y')) (knots kvs')) by (intros a b ta tb A1 A2; apply (SE' D ltac:(lia)); right; auto).
  destruct (accrual_ok ACTACT ref d ltac:(discriminate) Rf (Cd d ltac:(lia)) ltac:(lia)) as (t & T & _).
  assert (T1 : accrual ACTACT (c_ref (y_curve y)) d t) by (rewrite Er; auto). assert (T2 : accrual ACTACT (c_ref (y_curve y')) d t) by (rewrite Er'; auto).
  destruct (last_le (knots kvs) d) as [F|(d0 & I0 & L0 & M0)].
  - destruct (first_ge (knots kvs) d D ID ltac:(lia)) as (df & Idf & Ldf & Mdf). pose proof (Mdf D ID ltac:(lia)).
    apply in_knots in Idf as X. destruct X as (vf & If).
    assert (Mf : forall x, In x (knots kvs) -> df <= x) by (intros x I; apply Mdf; auto; specialize (F x I); lia).
    apply in_knots in Il as X. destruct X as (vl & Ivl). apply in_knots in Il' as X. destruct X as (vl' & Ivl').
    assert (If' : In (df, vf) kvs') by (apply Ag; [lia|auto]).
    assert (Mf' : forall x, In x (knots kvs') -> df <= x). { intros x I. destruct (Z_le_gt_dec x D); [apply Mf, Agk; auto|lia]. }
    specialize (F df Idf).
    destruct (C27_ends spline _ _ _ _ _ _ _ df vf dl vl d None Hn ND If Mf Ivl Ml) as (_ & E & _).
    destruct (C27_ends spline _ _ _ _ _ _ _ df vf dl' vl' d None Hn' ND' If' Mf' Ivl' Ml') as (_ & E' & _).
    destruct (E ltac:(lia) eq_refl) as (-> & _). destruct (E' ltac:(lia) eq_refl) as (-> & _). reflexivity.
  - assert (L0D : d0 <= D) by lia. apply in_knots in I0 as X. destruct X as (v0 & Iv0). assert (Iv0' : In (d0, v0) kvs') by (apply Ag; auto).
    destruct M as [-> | ->].
    + destruct (Z.eq_dec d0 d) as [->|Ne].
      * rewrite (C26_reprices_knots spline kvs LINEAR ACTACT _ _ _ _ d v0 (or_introl eq_refl) Hn ND SK Iv0).
        rewrite (C26_reprices_knots spline kvs' LINEAR ACTACT _ _ _ _ d v0 (or_introl eq_refl) Hn' ND' SK' Iv0'). reflexivity.
      * destruct (first_ge (knots kvs) d D ID ltac:(lia)) as (d1 & I1 & L1 & M1). pose proof (M1 D ID ltac:(lia)).
        assert (Ne1 : d <> d1). { intros ->. specialize (M0 d1 I1 ltac:(lia)). lia. }
        apply in_knots in I1 as X. destruct X as (v1 & Iv1). assert (Iv1' : In (d1, v1) kvs') by (apply Ag; auto; lia).
        destruct (accrual_ok ACTACT ref d0 ltac:(discriminate) Rf (Cd d0 ltac:(specialize (G d0 I0); lia)) (G d0 I0)) as (t0 & T0 & _).
        destruct (accrual_ok ACTACT ref d1 ltac:(discriminate) Rf (Cd d1 ltac:(specialize (G d1 I1); lia)) (G d1 I1)) as (t1 & Ta1 & _).
        assert (Ad : forall x, In x (knots kvs) -> ~ (d0 < x < d1)).
        { intros x I K. destruct (Z_le_gt_dec x d); [specialize (M0 x I ltac:(lia)); lia | specialize (M1 x I ltac:(lia)); lia]. }
        assert (Ad' : forall x, In x (knots kvs') -> ~ (d0 < x < d1)). { intros x I K. apply (Ad x); [apply Agk; auto; lia | lia]. }
        rewrite <- Er in T0, Ta1.
        destruct (C26_between_knots spline kvs ACTACT _ _ _ _ d0 v0 d1 v1 d t0 t t1 Hn ND (SE d L) Iv0 Iv1 ltac:(lia) Ad T0 T1 Ta1) as (w & Ew & Vw & _).
        rewrite Er, <- Er' in T0, Ta1.
        destruct (C26_between_knots spline kvs' ACTACT _ _ _ _ d0 v0 d1 v1 d t0 t t1 Hn' ND' (SE' d L) Iv0' Iv1' ltac:(lia) Ad' T0 T2 Ta1) as (w' & Ew' & Vw' & _).
        rewrite Ew, Ew', Vw, Vw'. reflexivity.
    + rewrite (C28_last_knot_before spline kvs ACTACT _ _ _ _ d0 v0 d t Hn ND Iv0 L0) by (first [exact T1 | exact (SE d L) | (exists D; split; [exact ID | lia]) | (intros x I K; specialize (M0 x I ltac:(lia)); lia)]).
      rewrite (C28_last_knot_before spline kvs' ACTACT _ _ _ _ d0 v0 d t Hn' ND' Iv0' L0) by (first [exact T2 | exact (SE' d L) | (exists D; split; [exact ID' | lia]) |
         (intros x I K; assert (J : In x (knots kvs)) by (apply Agk; auto; lia); specialize (M0 x J ltac:(lia)); lia)]). reflexivity.
Qed.

Lemma local_value spline kvs kvs' m ref r r' dl dl' y y' q : m = LINEAR \/ m = PREVIOUS ->
  usual kvs m ACTACT ref r dl y -> usual kvs' m ACTACT ref r' dl' y' -> In (q_date q) (knots kvs) ->
  (forall d v, d <= q_date q -> In (d, v) kvs <-> In (d, v) kvs') -> local spline ref q -> value_on spline y q = value_on spline y' q.
Proof.
  intros M U U' I Ag Lo.
  destruct (C29_usual_discount_factors spline kvs m ACTACT ref r dl y [] None U ltac:(intros o []) ltac:(intros; cbn; eauto)) as (dc & E & Er & A).
  destruct (C29_usual_discount_factors spline kvs' m ACTACT ref r' dl' y' [] None U' ltac:(intros o []) ltac:(intros; cbn; eauto)) as (dc' & E' & Er' & A').
  cbn [yc_run fold_left] in E, E'. unfold value_on, yc_present_value. destruct (to_discount_curve spline y None) as [y1 r1]. destruct (to_discount_curve spline y' None) as [y2 r2].
  cbn [snd] in *. subst r1 r2. cbn [bind]. apply Lo; auto. intros d L.
  assert (L1 : q_date q <= dl) by (apply U; auto). assert (I' : In (q_date q) (knots kvs')).
  { apply in_knots in I. destruct I as (v & I). apply in_knots. exists v. apply Ag; auto. lia. }
  assert (L2 : q_date q <= dl') by (apply U'; auto).
  destruct (A d ltac:(lia)) as (t & v & x & T & Ev & Ex & ->). destruct (A' d ltac:(lia)) as (t' & v' & x' & T' & Ev' & Ex' & ->).
  rewrite (local_interp spline kvs kvs' m ref r r' dl dl' y y' (q_date q) d M U U' I Ag L) in Ev. unfold accrual in *. rewrite T in T'. injection T' as <-.
  rewrite Ev in Ev'. injection Ev' as <-. rewrite Ex in Ex'. injection Ex' as <-. reflexivity.
Qed.

(** ---- the curve during the bootstrap ---- *)
Lemma curve_exists kvs m ref : m = LINEAR \/ m = PREVIOUS -> countable ACTACT ref -> (forall d, In d (knots kvs) -> countable ACTACT d /\ ref <= d) ->
  exists y, new_yield_curve kvs m ACTACT CONTINUOUSLY_COMPOUNDED_YIELD ref CONSTANT CONSTANT = Ok y.
Proof.
  intros M Rf Kn. destruct (create_points m ACTACT ref (sort_by fst kvs)) as [pts|e] eqn:CP.
  - unfold new_yield_curve, new_curve. cbn [bind]. rewrite CP. cbn [bind]. eauto.
  - exfalso. unfold create_points in CP. destruct (mapM (fun kv => axis ACTACT ref (fst kv)) (sort_by fst kvs)) as [xs|e'] eqn:E.
    + destruct M as [-> | ->]; discriminate.
    + apply mapM_err in E. destruct E as (kv & I & E). assert (J : In (fst kv) (knots kvs)) by (apply in_map; eapply Permutation_in; [apply sort_by_perm | exact I]).
      destruct (Kn _ J) as (C & L). destruct (accrual_ok ACTACT ref (fst kv) ltac:(discriminate) Rf C L) as (t & T & _). unfold accrual in T. unfold axis, acc in E. congruence.
Qed.
Lemma knots_combine ds : forall vs, List.length vs = List.length ds -> knots (combine ds vs) = ds.
Proof. induction ds as [|d ds IH]; intros [|v vs]; cbn; intros E; try discriminate; auto. injection E as E. f_equal. apply IH; auto. Qed.
Lemma lt_le_sorted l : StronglySorted Z.lt l -> StronglySorted Z.le l.
Proof. induction 1 as [|a l S IH F]; constructor; auto. eapply Forall_impl; [|exact F]. cbn. intros; lia. Qed.

Definition holds (l : list quoted) (m : interp_method) (ref : date) (y : ycurve) (vs : list R) : Prop :=
  cache_ok y /\ List.length vs = List.length l /\
  new_yield_curve (combine (List.map q_date l) vs) m ACTACT CONTINUOUSLY_COMPOUNDED_YIELD ref CONSTANT CONSTANT = Ok (fresh y).
(** what the theorem assumes of the instruments *)
Definition bootstrappable (l : list quoted) (ref : date) : Prop :=
  StronglySorted Z.lt (List.map q_date l) /\ countable ACTACT ref /\ (forall q, In q l -> countable ACTACT (q_date q) /\ ref <= q_date q).

Lemma boot_usual l m ref vs y : bootstrappable l ref -> List.length vs = List.length l -> l <> [] ->
  new_yield_curve (combine (List.map q_date l) vs) m ACTACT CONTINUOUSLY_COMPOUNDED_YIELD ref CONSTANT CONSTANT = Ok y ->
  exists dl, usual (combine (List.map q_date l) vs) m ACTACT ref CONSTANT dl y.
Proof.
  intros (S & Rf & Cn) Le NE N. destruct (exists_last NE) as (l' & q & E). exists (q_date q).
  assert (K : knots (combine (List.map q_date l) vs) = List.map q_date l) by (apply knots_combine; rewrite map_length; auto).
  split; [exact N|]. rewrite K. split; [apply sorted_lt_NoDup, S|]. split; [rewrite E, map_app; apply in_or_app; right; left; auto|].
  split. { rewrite E, map_app in *. cbn [List.map] in *. intros x I. clear -S I. induction (List.map q_date l') as [|a l'' IH]; [destruct I as [->|[]]; lia|].
    inversion S as [|? ? S' F]; subst. destruct I as [->|I]; [|auto]. rewrite Forall_forall in F. assert (x < q_date q) by (apply F, in_or_app; right; left; auto). lia. }
  split; [discriminate|]. split; [exact Rf|]. apply Cn. rewrite E. apply in_or_app. right; left; auto.
Qed.
Lemma holds_values l m ref y vs : bootstrappable l ref -> holds l m ref y vs -> c_values (y_curve y) = combine (List.map q_date l) vs.
Proof.
  intros (S & _) (_ & Le & N). apply new_yc_cache in N. destruct N as (_ & _ & N & _). apply new_curve_ok in N. destruct N as (V & _). cbn [fresh y_curve] in V. rewrite V.
  apply sort_by_id. change (List.map fst ?l) with (knots l). rewrite knots_combine by (rewrite map_length; auto). apply lt_le_sorted, S.
Qed.
Lemma value_fresh spline y q : cache_ok y -> value_on spline y q = value_on spline (fresh y) q.
Proof. intros C. unfold value_on. apply (pv_fresh spline y (q_pv q) None C). Qed.
Lemma replace_middle {A} (a b : A) l l' : replace_nth (List.length l) b (l ++ a :: l') = l ++ b :: l'.
Proof. induction l as [|c l IH]; cbn; [reflexivity|]. f_equal. exact IH. Qed.
Lemma combine_app {A B} (l1 : list A) : forall (r1 : list B) l2 r2, List.length l1 = List.length r1 -> combine (l1 ++ l2) (r1 ++ r2) = combine l1 r1 ++ combine l2 r2.
Proof. induction l1 as [|a l1 IH]; intros [|b r1] l2 r2; cbn; intros E; try discriminate; auto. f_equal. apply IH. auto. Qed.

(** one evaluation of the residual *)
Lemma pv_diff_step spline pre q post m ref y ws w us q' x : m = LINEAR \/ m = PREVIOUS -> bootstrappable (pre ++ q :: post) ref ->
  List.length ws = List.length pre -> holds (pre ++ q :: post) m ref y (ws ++ w :: us) ->
  let '(y1, r) := pv_diff spline (List.length pre) (q_price q') (q_pv q') x y in
  r = (do v <- value_on spline (fresh y1) q'; Ok (v - q_price q')%R) /\ holds (pre ++ q :: post) m ref y1 (ws ++ x :: us).
Proof.
  intros M Bo Lw Ho. set (l := pre ++ q :: post) in *. pose proof (holds_values l m ref y _ Bo Ho) as V. pose proof Ho as (C & Le & N).
  assert (Lu : List.length us = List.length post). { unfold l in Le. rewrite !app_length in Le. cbn [List.length] in Le. lia. }
  assert (Ek : forall z, combine (List.map q_date l) (ws ++ z :: us) = combine (List.map q_date pre) ws ++ (q_date q, z) :: combine (List.map q_date post) us).
  { intros z. unfold l. rewrite map_app. rewrite combine_app by (rewrite map_length; auto). reflexivity. }
  assert (Lp : List.length (combine (List.map q_date pre) ws) = List.length pre) by (rewrite combine_length, map_length; lia).
  unfold pv_diff. rewrite V, Ek. rewrite nth_error_app2 by lia. rewrite Lp, Nat.sub_diag. cbn [nth_error fst].
  assert (Lx : List.length (ws ++ x :: us) = List.length l) by (rewrite app_length in *; cbn [List.length] in *; lia).
  assert (Kx : knots (combine (List.map q_date l) (ws ++ x :: us)) = List.map q_date l) by (apply knots_combine; rewrite map_length; auto).
  destruct (curve_exists (combine (List.map q_date l) (ws ++ x :: us)) m ref M) as (y' & N').
  { apply Bo. } { rewrite Kx. intros d I. apply in_map_iff in I. destruct I as (q2 & <- & I). apply Bo. exact I. }
  assert (R1 : exists y1, yc_reset_one (q_date q, x) (Z.of_nat (List.length pre)) y = (y1, Ok tt) /\ cache_ok y1 /\ fresh y1 = y').
  { pose proof (new_under_way _ _ _ _ N) as (_ & S0 & M0 & D0 & F0 & L0 & R0). cbn [fresh y_curve y_space] in *.
    unfold yc_reset_one, reset_interpolation_value. rewrite V.
    assert (Pi : @py_index knot_value (combine (List.map q_date l) (ws ++ w :: us)) (Z.of_nat (List.length pre)) = Ok (List.length pre)).
    { unfold py_index. rewrite Ek, app_length, Lp. cbn [List.length]. replace (Z.of_nat (List.length pre) <? 0) with false by lia.
      match goal with |- context [if ?b then Ok _ else _] => replace b with true by lia end. f_equal. lia. }
    rewrite Pi, M0, D0, F0, L0, R0.
    assert (Rp : @replace_nth knot_value (List.length pre) (q_date q, x) (combine (List.map q_date l) (ws ++ w :: us)) = combine (List.map q_date l) (ws ++ x :: us)).
    { rewrite !Ek. rewrite <- Lp. apply replace_middle. }
    rewrite Rp. unfold new_yield_curve, new_curve in N'. cbn [bind] in N'. rewrite sort_by_id in N'.
    2: { change (List.map fst ?l) with (knots l). rewrite Kx. apply lt_le_sorted. apply Bo. }
    destruct (create_points m ACTACT ref (combine (List.map q_date l) (ws ++ x :: us))) as [pts|]; cbn [bind] in N'; [|discriminate]. injection N' as <-.
    eexists. split; [reflexivity|]. split; [|unfold fresh; cbn [y_curve y_space]; rewrite S0; reflexivity].
    intros dc E. cbn [y_dc] in E. destruct (C dc E) as (X1 & X2 & X3 & X4 & X5). cbn [y_curve y_space fst c_method c_dcc c_ref] in *. split; [|repeat split; congruence].
    rewrite X1. unfold discount_method. cbn [c_method]. rewrite M0. reflexivity. }
  destruct R1 as (y1 & Er & C1 & Fr). rewrite Er. rewrite <- Fr in N'.
  destruct (pv_fresh spline y1 (q_pv q') None C1) as (P0 & P1 & P2 & P3).
  destruct (yc_present_value spline y1 (q_pv q') None) as [y2 r2]. cbn [fst snd] in *.
  assert (Ff : fresh y2 = fresh y1) by (unfold fresh; congruence). rewrite Ff. split; [rewrite P0; reflexivity|].
  split; [exact P3|]. split; [exact Lx|]. rewrite Ff. exact N'.
Qed.
Lemma pv_diff_spec spline pre q post m ref y ws w us x : m = LINEAR \/ m = PREVIOUS -> bootstrappable (pre ++ q :: post) ref -> local spline ref q ->
  List.length ws = List.length pre -> holds (pre ++ q :: post) m ref y (ws ++ w :: us) ->
  let '(y1, r) := pv_diff spline (List.length pre) (q_price q) (q_pv q) x y in
  r = last_error spline pre q m ref ws x /\ holds (pre ++ q :: post) m ref y1 (ws ++ x :: us).
Proof.
  intros M Bo Lo Lw Ho. pose proof (pv_diff_step spline pre q post m ref y ws w us q x M Bo Lw Ho) as St.
  destruct (pv_diff spline (List.length pre) (q_price q) (q_pv q) x y) as [y1 r]. destruct St as (Er & H1). split; [|exact H1]. destruct H1 as (C1 & Lx & N').
  set (l := pre ++ q :: post) in *.
  assert (Ek : forall z, combine (List.map q_date l) (ws ++ z :: us) = combine (List.map q_date pre) ws ++ (q_date q, z) :: combine (List.map q_date post) us).
  { intros z. unfold l. rewrite map_app. rewrite combine_app by (rewrite map_length; auto). reflexivity. }
  assert (Kx : knots (combine (List.map q_date l) (ws ++ x :: us)) = List.map q_date l) by (apply knots_combine; rewrite map_length; auto).
  subst r.
  - assert (Bp : bootstrappable (pre ++ [q]) ref).
    { destruct Bo as (S & Rf & Cn). split; [|split; [exact Rf|]].
      - unfold l in S. rewrite map_app in *. cbn [List.map] in *. clear -S. induction (List.map q_date pre) as [|a p IH]; [repeat constructor|].
        inversion S as [|? ? S' F]; subst. cbn [app]. constructor; [auto|]. rewrite Forall_forall in *. intros z I. apply F. apply in_app_or in I. apply in_or_app. destruct I as [I|[I|[]]]; [auto|right; left; auto].
      - intros q' I. apply Cn. unfold l. apply in_app_or in I. apply in_or_app. destruct I as [I|[I|[]]]; [auto|right; left; auto]. }
    assert (Lq : List.length (ws ++ [x]) = List.length (pre ++ [q])) by (rewrite !app_length; cbn; lia).
    destruct (curve_exists (combine (List.map q_date (pre ++ [q])) (ws ++ [x])) m ref M) as (yp & Np).
    { apply Bo. } { rewrite knots_combine by (rewrite map_length; auto). intros d I. apply in_map_iff in I. destruct I as (q' & <- & I). apply Bp. exact I. }
    destruct (boot_usual _ _ _ _ _ Bp Lq ltac:(destruct pre; discriminate) Np) as (dp & Up).
    destruct (boot_usual _ _ _ _ _ Bo Lx ltac:(unfold l; destruct pre; discriminate) N') as (dl & Ul).
    unfold last_error, curve_with. rewrite Np. cbn [bind]. 
    assert (Ep : combine (List.map q_date (pre ++ [q])) (ws ++ [x]) = combine (List.map q_date pre) ws ++ [(q_date q, x)]).
    { rewrite map_app. rewrite combine_app by (rewrite map_length; auto). reflexivity. }
    rewrite (local_value spline _ _ m ref _ _ _ _ (fresh y1) yp q M Ul Up).
    + reflexivity.
    + rewrite Kx. apply in_map. unfold l. apply in_or_app. right; left; auto.
    + intros d v Ld. rewrite Ek, Ep. split; intros I; apply in_app_or in I; apply in_or_app; destruct I as [I|[I|I]]; auto; try contradiction.
      * right; left; auto.
      * exfalso. apply in_combine_l in I. destruct Bo as (S & _). unfold l in S. rewrite map_app in S. cbn [List.map] in S. clear -S I Ld. induction (List.map q_date pre) as [|a p IH].
        -- inversion S as [|? ? _ F]; subst. rewrite Forall_forall in F. specialize (F d I). lia.
        -- inversion S; subst; auto.
      * right; left; auto.
    + exact Lo.
Qed.

Lemma last_cons' {A} (a b : A) l : last (a :: l) b = last l a.
Proof. destruct l as [|c l]; [reflexivity|]. change (last (a :: c :: l) b) with (last (c :: l) b). apply last_indep. discriminate. Qed.
(** one round *)
Lemma round spline pre q post m ref ws us : m = LINEAR \/ m = PREVIOUS -> bootstrappable (pre ++ q :: post) ref -> local spline ref q -> List.length ws = List.length pre ->
  forall s y w y1 r, holds (pre ++ q :: post) m ref y (ws ++ w :: us) -> run_solver s (pv_diff spline (List.length pre) (q_price q) (q_pv q)) y = (y1, Ok r) ->
  exists t, conversation (last_error spline pre q m ref ws) s t r /\ holds (pre ++ q :: post) m ref y1 (ws ++ last (List.map fst t) w :: us).
Proof.
  intros M Bo Lo Lw s. induction s as [x|x k IH]; intros y w y1 r Ho; cbn [run_solver].
  - intros [= <- <-]. exists []. split; [constructor | exact Ho].
  - pose proof (pv_diff_spec spline pre q post m ref y ws w us x M Bo Lo Lw Ho) as P. destruct (pv_diff spline (List.length pre) (q_price q) (q_pv q) x y) as [y2 [a|e]]; [|discriminate].
    destruct P as (E & H2). intros H. destruct (IH a y2 x y1 r H2 H) as (t & Ct & H3). exists ((x, a) :: t). split; [constructor; auto|].
    cbn [List.map fst]. rewrite last_cons'. exact H3.
Qed.
Lemma nth_app_len {A} (l l' : list A) j : nth_error (l ++ l') (List.length l + j) = nth_error l' j.
Proof. rewrite nth_error_app2 by lia. f_equal. lia. Qed.
(** the loop *)
Lemma loop_spec spline m ref s : m = LINEAR \/ m = PREVIOUS -> forall post pre ws y y', bootstrappable (pre ++ post) ref -> (forall q, In q post -> local spline ref q) ->
  List.length ws = List.length pre -> holds (pre ++ post) m ref y (ws ++ List.map (fun q => snd (q_knot q)) post) -> bootstrap_loop spline s (List.length pre) post y = Ok y' ->
  exists us, holds (pre ++ post) m ref y' (ws ++ us) /\
    forall j q, nth_error post j = Some q -> exists t r, conversation (last_error spline (pre ++ firstn j post) q m ref (ws ++ firstn j us)) (s (List.length pre + j)%nat) t r /\
      nth_error us j = Some (last (List.map fst t) (snd (q_knot q))).
Proof.
  intros M. induction post as [|q post IH]; intros pre ws y y' Bo Lo Lw Ho H; cbn [bootstrap_loop] in H.
  - injection H as <-. exists []. split; [exact Ho|]. intros [|j] q; discriminate.
  - destruct (run_solver (s (List.length pre)) (pv_diff spline (List.length pre) (q_price q) (q_pv q)) y) as [y1 [r|e]] eqn:Er; [|discriminate].
    cbn [List.map] in Ho. destruct (round spline pre q post m ref ws _ M Bo (Lo q (or_introl eq_refl)) Lw _ y _ y1 r Ho Er) as (t & Ct & H1).
    set (v := last (List.map fst t) (snd (q_knot q))) in *.
    assert (X : exists y2, holds (pre ++ q :: post) m ref y2 (ws ++ v :: List.map (fun q => snd (q_knot q)) post) /\ bootstrap_loop spline s (S (List.length pre)) post y2 = Ok y').
    { destruct (Nat.eqb (List.length pre) 4).
      - destruct H1 as (C1 & L1 & N1). destruct (pv_fresh spline y1 (q_pv q) None C1) as (_ & P1 & P2 & P3). destruct (yc_present_value spline y1 (q_pv q) None) as [y2 r2]. cbn [fst] in *.
        destruct r2 as [v2|]; [|discriminate]. cbn [bind] in H. exists y2. split; [|exact H]. split; [exact P3|]. split; [exact L1|]. unfold fresh in *. rewrite P1, P2. exact N1.
      - exists y1. auto. }
    destruct X as (y2 & H2 & Hl). clear H. assert (Ea : pre ++ q :: post = (pre ++ [q]) ++ post) by (rewrite <- app_assoc; reflexivity).
    assert (Eb : forall A (a : list A) b c, a ++ b :: c = (a ++ [b]) ++ c) by (intros; rewrite <- app_assoc; reflexivity).
    assert (El : List.length (pre ++ [q]) = S (List.length pre)) by (rewrite app_length; cbn; lia).
    rewrite Ea in Bo, H2 |- *. rewrite (Eb _ ws v) in H2. rewrite <- El in Hl.
    destruct (IH (pre ++ [q]) (ws ++ [v]) y2 y' Bo ltac:(intros; apply Lo; right; auto) ltac:(rewrite !app_length; cbn; lia) H2 Hl) as (us & Hu & K).
    exists (v :: us). split; [rewrite (Eb _ ws v); exact Hu|]. intros [|j] q' E; cbn [nth_error] in E.
    + injection E as <-. exists t, r. cbn [firstn nth_error]. rewrite !app_nil_r, Nat.add_0_r. split; [exact Ct | reflexivity].
    + destruct (K j q' E) as (t' & r' & Ct' & E'). exists t', r'. cbn [firstn nth_error]. rewrite (Eb _ pre q), (Eb _ ws v). rewrite El in Ct'.
      replace (List.length pre + S j)%nat with (S (List.length pre) + j)%nat by lia. auto.
Qed.

Lemma conv_in {X Y} (f : X -> res Y) s t r : conversation f s t r -> forall x y, In (x, y) t -> f x = Ok y.
Proof. induction 1 as [|x k y t r E C IH]; intros x' y' I; [contradiction|]. destruct I as [[= <- <-]|I]; auto. Qed.
Lemma boot_prefix pre post ref : bootstrappable (pre ++ post) ref -> bootstrappable pre ref.
Proof.
  intros (S & Rf & Cn). split; [|split; [exact Rf | intros q I; apply Cn, in_or_app; auto]]. rewrite map_app in S. clear -S.
  induction (List.map q_date pre) as [|a p IH]; [constructor|]. cbn [app] in S. inversion S as [|? ? S' F]; subst. constructor; [auto|].
  rewrite Forall_forall in *. intros z I. apply F, in_or_app. auto.
Qed.

(** ---- C73 ---- *)
(** With the instruments in order of their knots (distinct, countable by act/act), a bootstrap is one round per instrument:
    round i runs the root finder on the error of instrument i on a newly built curve through the yields found so far and the
    trial yield at its own knot.  The yield kept is the last one tried (the quoted price if none was), and the finished curve
    values each instrument at its price plus the last error answered in its round: later rounds do not disturb it. *)
Theorem C73_bootstrap : forall spline s l m ref y, m = LINEAR \/ m = PREVIOUS -> StronglySorted Z.lt (List.map q_date l) ->
  countable ACTACT ref -> (forall q, In q l -> countable ACTACT (q_date q)) -> (forall q, In q l -> local spline ref q) ->
  bootstrap_yield_curve spline s l m ref = Ok y ->
  exists vs, List.length vs = List.length l /\ forall i q, nth_error l i = Some q -> exists v t r, nth_error vs i = Some v /\
    interpolate spline (y_curve y) (q_date q) None = Ok v /\
    conversation (last_error spline (firstn i l) q m ref (firstn i vs)) (s i) t r /\ v = last (List.map fst t) (snd (q_knot q)) /\
    (forall t' x a, t = t' ++ [(x, a)] -> value_on spline y q = Ok (q_price q + a)%R).
Proof.
  intros spline s l m ref y M So Rf Cn Lo H. unfold bootstrap_yield_curve in H. destruct (initial_curve l m ref) as [y0|] eqn:N; [|discriminate]. cbn [bind] in H. unfold initial_curve in N.
  assert (Bo : bootstrappable l ref).
  { split; [exact So|]. split; [exact Rf|]. intros q I. split; [auto|]. destruct (Z_le_gt_dec ref (q_date q)) as [L|L]; [exact L|exfalso].
    apply new_yc_cache in N. destruct N as (_ & _ & N & _). assert (J : In (q_date q, snd (q_knot q)) (List.map q_knot l)).
    { apply in_map_iff. exists q. split; [unfold q_date; destruct (q_knot q); reflexivity | exact I]. }
    pose proof (C27_knot_before_reference _ m ACTACT ref CONSTANT CONSTANT _ _ J ltac:(lia)) as X. generalize (eq_trans (eq_sym X) N). discriminate. }
  assert (H0 : holds ([] ++ l) m ref y0 ([] ++ List.map (fun q => snd (q_knot q)) l)).
  { cbn [app]. pose proof (new_yc_cache _ _ _ _ _ _ _ _ N) as (C & S & _ & D). split; [exact C|]. split; [apply map_length|]. rewrite initial_combine, N. unfold fresh. rewrite <- D.
    f_equal. destruct y0. reflexivity. }
  destruct (loop_spec spline m ref s M l [] [] y0 y Bo Lo eq_refl H0 H) as (vs & (C & Le & Nf) & K). cbn [app List.length Nat.add] in *.
  exists vs. split; [exact Le|]. intros i q E. destruct (K i q E) as (t & r & Ct & Ev). set (v := last (List.map fst t) (snd (q_knot q))) in *.
  assert (NE : l <> []) by (destruct l; [destruct i; discriminate | discriminate]). destruct (boot_usual l m ref vs _ Bo Le NE Nf) as (dl & U).
  assert (Kn : knots (combine (List.map q_date l) vs) = List.map q_date l) by (apply knots_combine; rewrite map_length; auto).
  exists v, t, r. split; [exact Ev|]. split; [|split; [exact Ct|split; [reflexivity|]]].
  - pose proof Nf as Nc. apply new_yc_cache in Nc. destruct Nc as (_ & _ & Nc & _). cbn [fresh y_curve] in Nc.
    eapply C26_reprices_knots; [exact M | exact Nc | rewrite Kn; apply sorted_lt_NoDup, So | |].
    + apply C26_actual_separates; [discriminate | |].
      * pose proof (new_curve_ok _ _ _ _ _ _ _ Nc) as (_ & _ & _ & _ & _ & Er & _). rewrite (Er ref eq_refl). exact Rf.
      * rewrite Kn. intros d J. apply in_map_iff in J. destruct J as (q' & <- & J). auto.
    + clear -E Ev. revert l vs E Ev. induction i as [|i IH]; intros [|q' l] [|x' xs]; cbn [nth_error List.map combine]; try discriminate.
      * intros [= ->] [= ->]. left; reflexivity.
      * intros A B. right. apply IH; auto.
  - intros t' x a Et. assert (Ex : v = x). { unfold v. rewrite Et, map_app. cbn [List.map fst]. apply last_last. }
    pose proof (conv_in _ _ _ _ Ct x a ltac:(rewrite Et; apply in_or_app; right; left; auto)) as La. unfold last_error in La.
    assert (Sp : l = (firstn i l ++ [q]) ++ skipn (S i) l /\ vs = (firstn i vs ++ [x]) ++ skipn (S i) vs).
    { rewrite <- Ex. rewrite <- !app_assoc. cbn [app]. split.
      - rewrite <- (firstn_skipn i l) at 1. f_equal. clear -E. revert l E. induction i as [|i IH]; intros [|q' l]; cbn [nth_error skipn]; try discriminate; [intros [= ->]; reflexivity | apply IH].
      - rewrite <- (firstn_skipn i vs) at 1. f_equal. clear -Ev. revert vs Ev. induction i as [|i IH]; intros [|q' l]; cbn [nth_error skipn]; try discriminate; [intros [= ->]; reflexivity | apply IH]. }
    destruct Sp as (Sl & Sv). assert (Il : (i < List.length l)%nat) by (apply nth_error_Some; congruence).
    assert (Lq : List.length (firstn i vs ++ [x]) = List.length (firstn i l ++ [q])) by (rewrite !app_length, !firstn_length; cbn; lia).
    destruct (curve_with (firstn i l ++ [q]) m ref (firstn i vs ++ [x])) as [yp|] eqn:Np; [|discriminate]. cbn [bind] in La. unfold curve_with in Np.
    assert (Bp : bootstrappable (firstn i l ++ [q]) ref) by (apply (boot_prefix _ (skipn (S i) l)); rewrite <- Sl; exact Bo).
    destruct (boot_usual _ _ _ _ _ Bp Lq ltac:(destruct (firstn i l); discriminate) Np) as (dp & Up).
    rewrite (value_fresh spline y q C). rewrite (local_value spline _ _ m ref _ _ _ _ (fresh y) yp q M U Up).
    + destruct (value_on spline yp q) as [w|]; [|discriminate]. cbn [bind] in La. injection La as <-. f_equal. lra.
    + rewrite Kn. apply in_map. apply nth_error_In in E. exact E.
    + assert (Ec : combine (List.map q_date l) vs = combine (List.map q_date (firstn i l ++ [q])) (firstn i vs ++ [x]) ++ combine (List.map q_date (skipn (S i) l)) (skipn (S i) vs)).
      { rewrite Sl at 1. rewrite Sv at 1. rewrite map_app. apply combine_app. rewrite map_length. auto. }
      intros d z Ld. rewrite Ec. split; [|intros J; apply in_or_app; auto]. intros J. apply in_app_or in J. destruct J as [J|J]; [exact J|exfalso].
      apply in_combine_l in J. pose proof So as So'. rewrite Sl, map_app, map_app in So'. cbn [List.map] in So'. rewrite <- app_assoc in So'. clear -So' J Ld.
      induction (List.map q_date (firstn i l)) as [|b p IH]; cbn [app] in So'; inversion So' as [|? ? S' F]; subst; [|auto]. rewrite Forall_forall in F. specialize (F d J). lia.
    + apply Lo. apply nth_error_In in E. exact E.
Qed.
Print Assumptions C73_bootstrap.
(** In particular an instrument whose round ended on a point with error 0 is repriced. *)
Theorem C73_repriced : forall spline s l m ref y, m = LINEAR \/ m = PREVIOUS -> StronglySorted Z.lt (List.map q_date l) ->
  countable ACTACT ref -> (forall q, In q l -> countable ACTACT (q_date q)) -> (forall q, In q l -> local spline ref q) ->
  (forall i q vs t r, nth_error l i = Some q -> List.length vs = i -> conversation (last_error spline (firstn i l) q m ref vs) (s i) t r -> exists t' x, t = t' ++ [(x, 0%R)]) ->
  bootstrap_yield_curve spline s l m ref = Ok y -> forall q, In q l -> value_on spline y q = Ok (q_price q).
Proof.
  intros spline s l m ref y M So Rf Cn Lo G H q I. destruct (C73_bootstrap spline s l m ref y M So Rf Cn Lo H) as (vs & Le & K). destruct (In_nth_error _ _ I) as (i & E).
  destruct (K i q E) as (v & t & r & _ & _ & Ct & _ & V). assert (Li : (i < List.length l)%nat) by (apply nth_error_Some; congruence). destruct (G i q (firstn i vs) t r E ltac:(rewrite firstn_length; lia) Ct) as (t' & x & Et). rewrite (V t' x 0%R Et), Rplus_0_r. reflexivity.
Qed.
Print Assumptions C73_repriced.

(** The bootstrap goes through with any root finder, if the instruments can be valued wherever the curve reaches. *)
Definition priced spline (ref : date) (q : quoted) : Prop := forall dc, c_ref dc = ref ->
  (forall d, ref <= d <= q_date q -> exists v, interpolate spline dc d None = Ok v) -> exists v, q_pv q dc = Ok v.
Theorem C73_zero_priced : forall spline ref d p, ref <= d -> priced spline ref (quoted_zero spline (new_zero_coupon d p)).
Proof.
  intros spline ref d p L dc R1 A. cbn [quoted_zero q_pv]. destruct (A d ltac:(cbn; lia)) as (v & E). rewrite (P_Cashflow.C34_zero_coupon spline dc d p v E). eauto.
Qed.
Print Assumptions C73_zero_priced.
Theorem C73_bond_priced : forall spline ref a b q sd, new_bond a = Ok b -> date_ok ref -> date_ok (maturity_date a) -> add_business_days ref 1 (b_cal a) = Ok sd ->
  quoted_bond spline b = Ok q -> priced spline ref q.
Proof.
  intros spline ref a b q sd B Or Om S Q dc R1 A. destruct (P_BondYield.C61_knot a b B) as (d & K & _ & Le). unfold quoted_bond in Q. rewrite K in Q. injection Q as <-.
  cbn [q_pv]. cbn [q_date q_knot fst] in A. destruct (BondFacts.new_bond_inv _ _ B) as (Ea & _).
  destruct (mapM_total (fun p => interpolate spline dc (bp_date p) None) (P_BondYield.remaining b sd)) as (dfs & Ed).
  { intros p I. unfold P_BondYield.remaining in I. apply filter_In in I. destruct I as [I U]. apply A. split; [|apply Le; exact I].
    assert (X : is_payment_received b p (Some ref) = Ok true). { unfold is_payment_received. rewrite Ea, S. cbn [bind]. rewrite U. reflexivity. }
    pose proof (P_BondYield.C40_paid_later a b p ref B Om Or I X). lia. }
  apply mapM_Forall2 in Ed. eexists. apply (P_BondYield.C61_present_value spline a b dc _ B). exists sd, dfs. rewrite R1. split; [exact S|]. split; [exact Ed | reflexivity].
Qed.
Print Assumptions C73_bond_priced.

Lemma value_defined spline kvs m ref dl y q : usual kvs m ACTACT ref CONSTANT dl y -> priced spline ref q -> q_date q <= dl -> exists v, value_on spline y q = Ok v.
Proof.
  intros U P L. destruct (C29_usual_discount_factors spline kvs m ACTACT ref CONSTANT dl y [] None U ltac:(intros o []) ltac:(intros; cbn; eauto)) as (dc & E & Er & A).
  unfold value_on, yc_present_value. cbn [yc_run fold_left] in E. destruct (to_discount_curve spline y None) as [y1 r1]. cbn [snd] in *. subst r1. cbn [bind].
  apply P; [exact Er|]. intros d Ld. destruct (A d ltac:(lia)) as (t & v & x & _ & _ & _ & Ed). eauto.
Qed.
Lemma usual_date spline l m ref y vs q : bootstrappable l ref -> holds l m ref y vs -> In q l -> priced spline ref q -> exists v, value_on spline (fresh y) q = Ok v.
Proof.
  intros Bo (C & Le & N) I P. destruct (boot_usual l m ref vs _ Bo Le ltac:(intros ->; contradiction) N) as (dl & U). eapply value_defined; [exact U | exact P|].
  apply U. rewrite knots_combine by (rewrite map_length; auto). apply in_map. exact I.
Qed.
Theorem C73_defined : forall spline s l m ref, m = LINEAR \/ m = PREVIOUS -> StronglySorted Z.lt (List.map q_date l) ->
  countable ACTACT ref -> (forall q, In q l -> countable ACTACT (q_date q) /\ ref <= q_date q) -> (forall q, In q l -> priced spline ref q) ->
  exists y, bootstrap_yield_curve spline s l m ref = Ok y.
Proof.
  intros spline s l m ref M So Rf Cn Pr. assert (Bo : bootstrappable l ref) by (split; [exact So|split; [exact Rf|exact Cn]]).
  assert (Kn : knots (List.map q_knot l) = List.map q_date l) by (unfold knots; rewrite map_map; reflexivity).
  destruct (curve_exists (List.map q_knot l) m ref M Rf) as (y0 & N). { rewrite Kn. intros d I. apply in_map_iff in I. destruct I as (q & <- & I). auto. }
  unfold bootstrap_yield_curve, initial_curve. rewrite N. cbn [bind].
  assert (H0 : holds l m ref y0 ([] ++ List.map (fun q => snd (q_knot q)) l)).
  { pose proof (new_yc_cache _ _ _ _ _ _ _ _ N) as (C & S & _ & D). split; [exact C|]. split; [apply map_length|]. cbn [app]. rewrite initial_combine, N. unfold fresh. rewrite <- D.
    f_equal. destruct y0. reflexivity. }
  change 0%nat with (List.length (@nil quoted)). assert (Lw : List.length (@nil R) = List.length (@nil quoted)) by reflexivity.
  assert (El : l = [] ++ l) by reflexivity. revert El H0 Lw. generalize (@nil quoted) as pre. generalize (@nil R) as ws.
  assert (G : forall post ws pre y, l = pre ++ post -> holds l m ref y (ws ++ List.map (fun q => snd (q_knot q)) post) -> List.length ws = List.length pre -> exists y', bootstrap_loop spline s (List.length pre) post y = Ok y').
  { clear N y0. induction post as [|q post IH]; intros ws pre y El H0 Lw; cbn [bootstrap_loop]; [eauto|]. cbn [List.map] in H0. rewrite El in *.
    assert (R1 : forall s0 y w, holds (pre ++ q :: post) m ref y (ws ++ w :: List.map (fun q => snd (q_knot q)) post) ->
      exists y1 r v, run_solver s0 (pv_diff spline (List.length pre) (q_price q) (q_pv q)) y = (y1, Ok r) /\ holds (pre ++ q :: post) m ref y1 (ws ++ v :: List.map (fun q => snd (q_knot q)) post)).
    { induction s0 as [x|x k IHs]; intros z w Hz; cbn [run_solver]; [eauto|].
      pose proof (pv_diff_step spline pre q post m ref z ws w _ q x M Bo Lw Hz) as P. destruct (pv_diff spline (List.length pre) (q_price q) (q_pv q) x z) as [y2 r2]. destruct P as (Er & H2).
      destruct (usual_date spline _ m ref y2 _ q Bo H2) as (v & Ev); [apply in_or_app; right; left; auto | apply Pr; apply in_or_app; right; left; auto|].
      rewrite Ev in Er. cbn [bind] in Er. subst r2. eapply IHs. exact H2. }
    destruct (R1 (s (List.length pre)) y _ H0) as (y1 & r & v & -> & H1).
    assert (El' : pre ++ q :: post = (pre ++ [q]) ++ post) by (rewrite <- app_assoc; reflexivity).
    assert (Ew : forall u, ws ++ v :: u = (ws ++ [v]) ++ u) by (intros; rewrite <- app_assoc; reflexivity).
    assert (Lw' : List.length (ws ++ [v]) = List.length (pre ++ [q])) by (rewrite !app_length; cbn; lia).
    assert (Ep : List.length (pre ++ [q]) = S (List.length pre)) by (rewrite app_length; cbn; lia).
    destruct (Nat.eqb (List.length pre) 4).
    - destruct (usual_date spline _ m ref y1 _ q Bo H1) as (z & Ez); [apply in_or_app; right; left; auto | apply Pr; apply in_or_app; right; left; auto|].
      destruct H1 as (C1 & L1 & N1). rewrite <- (value_fresh spline y1 q C1) in Ez. unfold value_on in Ez.
      destruct (pv_fresh spline y1 (q_pv q) None C1) as (_ & P1 & P2 & P3). destruct (yc_present_value spline y1 (q_pv q) None) as [y2 r2]. cbn [fst snd] in *. subst r2. cbn [bind].
      rewrite <- Ep. apply (IH (ws ++ [v]) (pre ++ [q]) y2 El'); [|exact Lw']. rewrite <- Ew. split; [exact P3|]. split; [exact L1|]. unfold fresh in *. rewrite P1, P2. exact N1.
    - rewrite <- Ep. apply (IH (ws ++ [v]) (pre ++ [q]) y1 El'); [|exact Lw']. rewrite <- Ew. exact H1. }
  intros ws pre El H0 Lw. exact (G l ws pre y0 El H0 Lw).
Qed.
Print Assumptions C73_defined.

(** ---- the order of the instruments ---- *)
(** curve states reached from [y] by any trials: index of the knot, instrument, trial yield *)
Definition tried spline (y : ycurve) (ops : list (nat * quoted * R)) : ycurve :=
  fold_left (fun y o => let '(i, q, x) := o in fst (pv_diff spline i (q_price q) (q_pv q) x y)) ops y.

Lemma split_nth {A} i (l : list A) a : nth_error l i = Some a -> exists pre post, l = pre ++ a :: post /\ List.length pre = i.
Proof. apply nth_error_split. Qed.
Lemma tried_holds spline ls m ref : m = LINEAR \/ m = PREVIOUS -> bootstrappable ls ref -> forall ops y vs, holds ls m ref y vs -> exists vs', holds ls m ref (tried spline y ops) vs'.
Proof.
  intros M Bo. induction ops as [|[[i q] x] ops IH]; intros y vs Ho; [exists vs; exact Ho|]. cbn [tried fold_left].
  destruct (nth_error ls i) as [q'|] eqn:E.
  - destruct (split_nth i ls q' E) as (pre & post & El & Li). subst i ls. pose proof Ho as (_ & Le & _).
    destruct (nth_error vs (List.length pre)) as [w|] eqn:Ew.
    + destruct (split_nth _ vs w Ew) as (ws & us & -> & Lw). pose proof (pv_diff_step spline pre q' post m ref y ws w us q x M Bo Lw Ho) as P.
      destruct (pv_diff spline (List.length pre) (q_price q) (q_pv q) x y) as [y1 r]. destruct P as (_ & H1). cbn [fst]. exact (IH y1 _ H1).
    + exfalso. apply nth_error_None in Ew. rewrite app_length in Le. cbn in Le. lia.
  - apply (IH _ vs). unfold pv_diff. pose proof (holds_values ls m ref y vs Bo Ho) as V. rewrite V. destruct Ho as (A & Le & B).
    assert (En : nth_error (combine (List.map q_date ls) vs) i = None).
    { apply nth_error_None. rewrite combine_length, map_length. apply nth_error_None in E. lia. }
    change (@nth_error knot_value (combine (List.map q_date ls) vs) i = None) in En. rewrite En. split; [exact A|split; [exact Le|exact B]].
Qed.

(** A round whose knot (the i-th in date order) lies after the instrument's own knot is blind: in every state its error is
    the same for all trial yields. *)
Lemma blind spline pre q' post m ref y vs q x x' : m = LINEAR \/ m = PREVIOUS -> bootstrappable (pre ++ q' :: post) ref -> local spline ref q ->
  holds (pre ++ q' :: post) m ref y vs -> In (q_date q) (List.map q_date pre) ->
  snd (pv_diff spline (List.length pre) (q_price q) (q_pv q) x y) = snd (pv_diff spline (List.length pre) (q_price q) (q_pv q) x' y).
Proof.
  intros M Bo Lo Ho I. pose proof Ho as (_ & Le & _). set (l := pre ++ q' :: post) in *.
  destruct (nth_error vs (List.length pre)) as [w|] eqn:Ew; [|apply nth_error_None in Ew; unfold l in Le; rewrite app_length in Le; cbn in Le; lia].
  destruct (split_nth _ vs w Ew) as (ws & us & -> & Lw).
  pose proof (pv_diff_step spline pre q' post m ref y ws w us q x M Bo Lw Ho) as P. pose proof (pv_diff_step spline pre q' post m ref y ws w us q x' M Bo Lw Ho) as P'.
  destruct (pv_diff spline (List.length pre) (q_price q) (q_pv q) x y) as [y1 r]. destruct (pv_diff spline (List.length pre) (q_price q) (q_pv q) x' y) as [y2 r'].
  destruct P as (-> & C1 & L1 & N1). destruct P' as (-> & C2 & L2 & N2). cbn [snd]. fold l in N1, N2, L1, L2.
  assert (NE : l <> []) by (unfold l; destruct pre; discriminate).
  destruct (boot_usual l m ref _ _ Bo L1 NE N1) as (d1 & U1). destruct (boot_usual l m ref _ _ Bo L2 NE N2) as (d2 & U2).
  assert (Ek : forall z, combine (List.map q_date l) (ws ++ z :: us) = combine (List.map q_date pre) ws ++ (q_date q', z) :: combine (List.map q_date post) us).
  { intros z. unfold l. rewrite map_app. rewrite combine_app by (rewrite map_length; auto). reflexivity. }
  rewrite (local_value spline _ _ m ref _ _ _ _ (fresh y1) (fresh y2) q M U1 U2); [reflexivity | | |exact Lo].
  - rewrite knots_combine by (rewrite map_length; auto). unfold l. rewrite map_app. apply in_or_app. left. exact I.
  - assert (Lt : forall d, In d (q_date q' :: List.map q_date post) -> q_date q < d).
    { destruct Bo as (S & _). unfold l in S. rewrite map_app in S. cbn [List.map] in S. clear -S I. induction (List.map q_date pre) as [|a p IH]; [contradiction|].
      inversion S as [|? ? S' F]; subst. destruct I as [->|I]; [|auto]. intros d J. rewrite Forall_forall in F. apply F. apply in_or_app. right. exact J. }
    intros d v Ld. rewrite !Ek. split; intros J; apply in_app_or in J; apply in_or_app; destruct J as [J|J]; auto; exfalso.
    + assert (K : In d (q_date q' :: List.map q_date post)) by (destruct J as [[= <- _]|J]; [left; auto|right; apply in_combine_l in J; auto]). specialize (Lt d K). lia.
    + assert (K : In d (q_date q' :: List.map q_date post)) by (destruct J as [[= <- _]|J]; [left; auto|right; apply in_combine_l in J; auto]). specialize (Lt d K). lia.
Qed.

(** in a rearrangement of a strictly increasing list that is not the list itself, some element stands before its turn *)
Lemma misplaced l : forall ls, StronglySorted Z.lt ls -> Permutation l ls -> l <> ls -> exists i a b, nth_error l i = Some a /\ nth_error ls i = Some b /\ a < b.
Proof.
  induction l as [|a l IH]; intros ls S P Ne; [apply Permutation_nil in P; congruence|]. destruct ls as [|b ls]; [apply Permutation_sym, Permutation_nil in P; discriminate|].
  inversion S as [|? ? S' F]; subst. destruct (Z.eq_dec a b) as [->|Nab].
  - destruct (IH ls S' (Permutation_cons_inv P) ltac:(congruence)) as (i & x & z & E1 & E2 & L). exists (Datatypes.S i), x, z. auto.
  - assert (Ib : In b l). { assert (J : In b (a :: l)) by (eapply Permutation_in; [apply Permutation_sym; exact P | left; auto]). destruct J; [congruence|auto]. }
    destruct (In_nth_error _ _ Ib) as (i & Ei). assert (Li : (i < List.length ls)%nat). { apply Permutation_length in P. cbn in P. assert (i < List.length l)%nat by (apply nth_error_Some; congruence). lia. }
    destruct (nth_error ls i) as [c|] eqn:Ec; [|apply nth_error_None in Ec; lia]. exists (Datatypes.S i), b, c. cbn [nth_error]. split; [auto|]. split; [auto|].
    rewrite Forall_forall in F. apply F. apply nth_error_In in Ec. exact Ec.
Qed.

(** Instruments with distinct knots given in any other order than that of their knots: some round is blind, in every state
    reachable by trials, so the price of its instrument has no influence on the curve but through the root finder's reaction
    to a constant. *)
Theorem C73_unsorted_blind : forall spline l m ref y0, m = LINEAR \/ m = PREVIOUS -> NoDup (List.map q_date l) -> ~ StronglySorted Z.lt (List.map q_date l) ->
  countable ACTACT ref -> (forall q, In q l -> countable ACTACT (q_date q)) -> (forall q, In q l -> local spline ref q) ->
  initial_curve l m ref = Ok y0 ->
  exists i q, nth_error l i = Some q /\ forall ops x x', snd (pv_diff spline i (q_price q) (q_pv q) x (tried spline y0 ops)) = snd (pv_diff spline i (q_price q) (q_pv q) x' (tried spline y0 ops)).
Proof.
  intros spline l m ref y0 M ND NS Rf Cn Lo N. set (ls := sort_by q_date l). assert (P : Permutation ls l) by apply sort_by_perm.
  assert (Pd : Permutation (List.map q_date ls) (List.map q_date l)) by (apply Permutation_map; exact P).
  assert (S : StronglySorted Z.lt (List.map q_date ls)).
  { pose proof (sort_by_sorted q_date l) as S. change (StronglySorted Z.le (List.map q_date ls)) in S. assert (ND' : NoDup (List.map q_date ls)) by (eapply Permutation_NoDup; [apply Permutation_sym; exact Pd | exact ND]).
    clear -S ND'. revert S ND'. generalize (List.map q_date ls). intros k. induction k as [|a k IH]; intros S ND'; [constructor|]. apply StronglySorted_inv in S. destruct S as (S' & F). apply NoDup_cons_iff in ND'. destruct ND' as (Na & ND2). constructor; [auto|].
    rewrite Forall_forall in *. intros z I. specialize (F z I). assert (a <> z) by (intros ->; contradiction). lia. }
  destruct (misplaced (List.map q_date l) (List.map q_date ls) S (Permutation_sym Pd)) as (i & da & db & Ea & Eb & Lt). { intros E. apply NS. rewrite E. exact S. }
  rewrite nth_error_map in Ea, Eb. destruct (nth_error l i) as [q|] eqn:Eq; [|discriminate]. destruct (nth_error ls i) as [q'|] eqn:Eq'; [|discriminate]. injection Ea as <-. injection Eb as <-.
  exists i, q. split; [exact Eq|]. intros ops x x'. unfold initial_curve in N.
  assert (Nd : NoDup (knots (List.map q_knot l))) by (unfold knots; rewrite map_map; exact ND).
  assert (Bo : bootstrappable ls ref).
  { split; [exact S|]. split; [exact Rf|]. intros z I. assert (J : In z l) by (eapply Permutation_in; eauto). split; [auto|]. destruct (Z_le_gt_dec ref (q_date z)) as [L|L]; [exact L|exfalso].
    apply new_yc_cache in N. destruct N as (_ & _ & N & _). assert (J' : In (q_date z, snd (q_knot z)) (List.map q_knot l)).
    { apply in_map_iff. exists z. split; [unfold q_date; destruct (q_knot z); reflexivity | exact J]. }
    pose proof (C27_knot_before_reference _ m ACTACT ref CONSTANT CONSTANT _ _ J' ltac:(lia)) as X. generalize (eq_trans (eq_sym X) N). discriminate. }
  assert (H0 : holds ls m ref y0 (List.map (fun q => snd (q_knot q)) ls)).
  { pose proof (new_yc_cache _ _ _ _ _ _ _ _ N) as (C & Sp & Nc & D). split; [exact C|]. split; [apply map_length|]. rewrite initial_combine. unfold new_yield_curve.
    rewrite <- (C26_order_irrelevant (List.map q_knot l) (List.map q_knot ls)); [|apply Permutation_map, Permutation_sym, P | exact Nd]. rewrite Nc. cbn [bind]. unfold fresh. rewrite Sp. reflexivity. }
  destruct (tried_holds spline ls m ref M Bo ops y0 _ H0) as (vs & Hv). destruct (split_nth i ls q' Eq') as (pre & post & El & Li). rewrite El in Bo, Hv. subst i.
  eapply blind; [exact M | exact Bo | apply Lo; apply nth_error_In in Eq; exact Eq | exact Hv|].
  assert (J : In (q_date q) (List.map q_date ls)) by (eapply Permutation_in; [apply Permutation_sym; exact Pd | apply in_map; apply nth_error_In in Eq; exact Eq]).
  rewrite El, map_app in J. apply in_app_or in J. destruct J as [J|J]; [exact J|exfalso]. rewrite El, map_app in S. cbn [List.map] in S. clear -S J Lt.
  induction (List.map q_date pre) as [|a p IH]; cbn [app] in S.
  - apply StronglySorted_inv in S. destruct S as (_ & F). rewrite Forall_forall in F. destruct J as [J|J]; [lia|]. specialize (F _ J). lia.
  - apply StronglySorted_inv in S. destruct S as (S & _). auto.
Qed.
Print Assumptions C73_unsorted_blind.

(** ---- concrete bootstraps ---- *)
Lemma usual_knot spline kvs m ref r dl y d v : m = LINEAR \/ m = PREVIOUS -> usual kvs m ACTACT ref r dl y -> In (d, v) kvs -> interpolate spline (y_curve y) d None = Ok v.
Proof.
  intros M U I. pose proof U as (H & ND & Il & Ml & N & Rf & Dl). apply new_yc_cache in H. destruct H as (_ & _ & Hn & _).
  eapply C26_reprices_knots; [exact M | exact Hn | exact ND | | exact I]. apply C26_actual_separates; [exact N | |].
  - pose proof (new_curve_ok _ _ _ _ _ _ _ Hn) as (_ & _ & _ & _ & _ & Er & _). rewrite (Er ref eq_refl). exact Rf.
  - intros x Ix. assert (L : ref <= x).
    { destruct (Z_le_gt_dec ref x); auto. apply in_knots in Ix. destruct Ix as (v' & Ix). pose proof (C27_knot_before_reference kvs m ACTACT ref CONSTANT r x v' Ix ltac:(lia)) as X. generalize (eq_trans (eq_sym X) Hn). discriminate. }
    specialize (Ml x Ix). eapply countable_between; [exact Rf | exact Dl | lia].
Qed.
Lemma zero_at_knot spline kvs m ref r dl y d v t p : m = LINEAR \/ m = PREVIOUS -> usual kvs m ACTACT ref r dl y -> In (d, v) kvs -> accrual ACTACT ref d t ->
  value_on spline y (quoted_zero spline (new_zero_coupon d p)) = Ok (exp (- (v * Q2R t))).
Proof.
  intros M U I T. assert (L : ref <= d <= dl).
  { split; [|apply U; apply in_knots; eauto]. destruct (Z_le_gt_dec ref d); auto. pose proof U as (H & _). apply new_yc_cache in H. destruct H as (_ & _ & Hn & _).
    pose proof (C27_knot_before_reference kvs m ACTACT ref CONSTANT r d v I ltac:(lia)) as X. generalize (eq_trans (eq_sym X) Hn). discriminate. }
  destruct (zero_value spline kvs m ref r dl y d p U L) as (t' & v' & T' & Ev & V). rewrite V. unfold accrual in *. rewrite T in T'. injection T' as <-.
  rewrite (usual_knot spline kvs m ref r dl y d v M U I) in Ev. injection Ev as <-. reflexivity.
Qed.

(** two zero coupon bonds, 30 and 60 days after the reference date, priced at yields of 5% and 10% *)
Definition day0 : date := 738886. Definition day1 : date := 738916. Definition day2 : date := 738946.
Definition at_yield spline (d : date) (v : R) (t : Q) : quoted := quoted_zero spline (new_zero_coupon d (exp (- (v * Q2R t)))).
Lemma day_countable : countable ACTACT day0 /\ countable ACTACT day1 /\ countable ACTACT day2.
Proof. repeat split; try (vm_compute; discriminate); vm_compute; try split; discriminate. Qed.
Lemma day_accruals : exists t1 t2, accrual ACTACT day0 day1 t1 /\ accrual ACTACT day0 day2 t2 /\ (0 < Q2R t1)%R /\ (0 < Q2R t2)%R.
Proof.
  eexists. eexists. split; [vm_compute; reflexivity|]. split; [vm_compute; reflexivity|]. unfold Q2R. cbn. split; lra.
Qed.
Lemma two_boot spline v1 v2 t1 t2 : bootstrappable [at_yield spline day1 v1 t1; at_yield spline day2 v2 t2] day0.
Proof.
  destruct day_countable as (C0 & C1 & C2). split; [repeat constructor|]. split; [exact C0|]. intros q [<-|[<-|[]]]; (split; [assumption | vm_compute; discriminate]).
Qed.
Lemma zero_last_error spline pre d v t m vs x : m = LINEAR \/ m = PREVIOUS -> bootstrappable (pre ++ [at_yield spline d v t]) day0 -> List.length vs = List.length pre -> accrual ACTACT day0 d t ->
  last_error spline pre (at_yield spline d v t) m day0 vs x = Ok (exp (- (x * Q2R t)) - exp (- (v * Q2R t)))%R.
Proof.
  intros M Bo Lv T. set (q := at_yield spline d v t) in *. assert (Lq : List.length (vs ++ [x]) = List.length (pre ++ [q])) by (rewrite !app_length; cbn; lia).
  destruct (curve_exists (combine (List.map q_date (pre ++ [q])) (vs ++ [x])) m day0 M) as (y & N).
  { apply Bo. } { rewrite knots_combine by (rewrite map_length; auto). intros z I. apply in_map_iff in I. destruct I as (q' & <- & I). apply Bo. exact I. }
  destruct (boot_usual _ _ _ _ _ Bo Lq ltac:(destruct pre; discriminate) N) as (dl & U).
  unfold last_error, curve_with. rewrite N. cbn [bind]. unfold q at 1. unfold at_yield. rewrite (zero_at_knot spline _ m day0 _ dl y d x t _ M U); [reflexivity | | exact T].
  rewrite map_app. rewrite combine_app by (rewrite map_length; auto). apply in_or_app. right. left. reflexivity.
Qed.

(** Non-vacuity: in order, each round trying 1 and then the right yield (and returning something else), both bonds are
    repriced; the hypotheses of C73_bootstrap, C73_repriced and C73_defined hold. *)
Example C73_case : forall spline, exists t1 t2, accrual ACTACT day0 day1 t1 /\ accrual ACTACT day0 day2 t2 /\
  let l := [at_yield spline day1 (1 / 20) t1; at_yield spline day2 (1 / 10) t2] in
  let s := fun i => Ask 1%R (fun _ => Ask (if Nat.eqb i 0 then 1 / 20 else 1 / 10)%R (fun _ => Done 7%R)) in
  exists y, bootstrap_yield_curve spline s l LINEAR day0 = Ok y /\ forall q, In q l -> value_on spline y q = Ok (q_price q).
Proof.
  intros spline. destruct day_accruals as (t1 & t2 & T1 & T2 & _). exists t1, t2. split; [exact T1|]. split; [exact T2|]. intros l s.
  destruct (two_boot spline (1 / 20) (1 / 10) t1 t2) as (So & Rf & Cn). fold l in So, Cn.
  assert (Lo : forall q, In q l -> local spline day0 q) by (intros q [<-|[<-|[]]]; apply C73_zero_local; vm_compute; discriminate).
  assert (Pr : forall q, In q l -> priced spline day0 q) by (intros q [<-|[<-|[]]]; apply C73_zero_priced; vm_compute; discriminate).
  destruct (C73_defined spline s l LINEAR day0 (or_introl eq_refl) So Rf Cn Pr) as (y & H). exists y. split; [exact H|].
  refine (C73_repriced spline s l LINEAR day0 y (or_introl eq_refl) So Rf (fun q I => proj1 (Cn q I)) Lo _ H).
  pose proof (two_boot spline (1 / 20) (1 / 10) t1 t2) as Bo.
  intros i q vs t r E Lv Ct. inversion Ct as [|x0 k0 e0 t0 r0 E0 Ct0]; subst. inversion Ct0 as [|x1 k1 e1 t1' r1 E1 Ct1]; subst. inversion Ct1; subst.
  exists [(1%R, e0)], (if Nat.eqb (List.length vs) 0 then 1 / 20 else 1 / 10)%R. cbn [app]. do 3 f_equal.
  destruct vs as [|v1 [|v2 vs]]; cbn [List.length nth_error l] in E.
  - injection E as <-. cbn [firstn l List.length Nat.eqb] in E1. rewrite (zero_last_error spline [] day1 (1 / 20) t1 LINEAR [] (1 / 20) (or_introl eq_refl)) in E1; [injection E1 as <-; lra | | reflexivity | exact T1].
    apply (boot_prefix _ [at_yield spline day2 (1 / 10) t2]). exact Bo.
  - injection E as <-. cbn [firstn l List.length Nat.eqb] in E1. rewrite (zero_last_error spline [at_yield spline day1 (1 / 20) t1] day2 (1 / 10) t2 LINEAR [v1] (1 / 10) (or_introl eq_refl)) in E1; [injection E1 as <-; lra | exact Bo | reflexivity | exact T2].
  - destruct vs; discriminate.
Qed.

(** The solution returned by the root finder is not used: a root finder that tries the yield 1 and then returns the root 1/20
    leaves the curve at the yield 1, where the bond is not worth its price. *)
Theorem C73_solution_dropped_refuted : forall spline, exists t1, accrual ACTACT day0 day1 t1 /\
  let q := at_yield spline day1 (1 / 20) t1 in let s := fun _ : nat => Ask 1%R (fun _ => Done (1 / 20)%R) in
  last_error spline [] q LINEAR day0 [] (1 / 20) = Ok 0%R /\
  exists y, bootstrap_yield_curve spline s [q] LINEAR day0 = Ok y /\ interpolate spline (y_curve y) day1 None = Ok 1%R /\ value_on spline y q <> Ok (q_price q).
Proof.
  intros spline. destruct day_accruals as (t1 & t2 & T1 & T2 & P1 & _). exists t1. split; [exact T1|]. intros q s.
  assert (Bo : bootstrappable [q] day0) by (apply (boot_prefix _ [at_yield spline day2 (1 / 10) t2]); apply two_boot).
  assert (Le : forall x, last_error spline [] q LINEAR day0 [] x = Ok (exp (- (x * Q2R t1)) - exp (- (1 / 20 * Q2R t1)))%R) by (intros x; apply (zero_last_error spline []); auto).
  split. { rewrite Le. f_equal. lra. }
  pose proof Bo as (So & Rf & Cn). assert (Lo : forall z, In z [q] -> local spline day0 z) by (intros z [<-|[]]; apply C73_zero_local; vm_compute; discriminate).
  destruct (C73_defined spline s [q] LINEAR day0 (or_introl eq_refl) So Rf Cn) as (y & H). { intros z [<-|[]]. apply C73_zero_priced. vm_compute; discriminate. }
  exists y. split; [exact H|]. destruct (C73_bootstrap spline s [q] LINEAR day0 y (or_introl eq_refl) So Rf (fun z I => proj1 (Cn z I)) Lo H) as (vs & _ & K).
  destruct (K 0%nat q eq_refl) as (v & t & r & Ev & Ei & Ct & Vl & Va). cbn [firstn] in Ct. inversion Ct as [|x0 k0 e0 t0 r0 E0 Ct0]; subst. inversion Ct0; subst. cbn in Ei. split; [exact Ei|].
  rewrite (Va [] 1%R e0 eq_refl). rewrite Le in E0. injection E0 as <-. intros X. injection X as X. cbn [q q_price at_yield quoted_zero zc_price new_zero_coupon] in X.
  assert (Y : exp (- (1 * Q2R t1)) = exp (- (1 / 20 * Q2R t1))) by lra. apply exp_inv in Y. lra.
Qed.
Print Assumptions C73_solution_dropped_refuted.

(** Out of order the yields go to the wrong knots: with the later bond first and a root finder that tries exactly the right
    yield for each bond, the curve gives the earlier knot the yield of the later bond. *)
Theorem C73_order_refuted : forall spline, exists t1 t2, accrual ACTACT day0 day1 t1 /\ accrual ACTACT day0 day2 t2 /\
  let q1 := at_yield spline day1 (1 / 20) t1 in let q2 := at_yield spline day2 (1 / 10) t2 in
  let s := fun i => let x := (if Nat.eqb i 0 then 1 / 10 else 1 / 20)%R in Ask x (fun _ => Done x) in
  pricing_errors spline [q2; q1] LINEAR day0 [(1 / 10)%R; (1 / 20)%R] = Ok [0%R; 0%R] /\
  exists y, bootstrap_yield_curve spline s [q2; q1] LINEAR day0 = Ok y /\ value_on spline y q1 <> Ok (q_price q1) /\ value_on spline y q2 <> Ok (q_price q2).
Proof.
  intros spline. destruct day_accruals as (t1 & t2 & T1 & T2 & P1 & P2). exists t1, t2. split; [exact T1|]. split; [exact T2|]. intros q1 q2 s.
  pose proof (two_boot spline (1 / 20) (1 / 10) t1 t2) as Bo. fold q1 q2 in Bo. assert (M : LINEAR = LINEAR \/ LINEAR = PREVIOUS) by auto.
  assert (Cv : forall a b, exists y dl, new_yield_curve [(day1, a); (day2, b)] LINEAR ACTACT CONTINUOUSLY_COMPOUNDED_YIELD day0 CONSTANT CONSTANT = Ok y /\ usual [(day1, a); (day2, b)] LINEAR ACTACT day0 CONSTANT dl y).
  { intros a b. destruct (curve_exists [(day1, a); (day2, b)] LINEAR day0 M) as (y & N).
    { apply Bo. } { intros d [<-|[<-|[]]]; (split; [apply day_countable | vm_compute; discriminate]). }
    exists y. destruct (boot_usual [q1; q2] LINEAR day0 [a; b] y Bo eq_refl ltac:(discriminate) N) as (dl & U). eauto. }
  assert (Sw : forall a b, new_yield_curve [(day2, b); (day1, a)] LINEAR ACTACT CONTINUOUSLY_COMPOUNDED_YIELD day0 CONSTANT CONSTANT = new_yield_curve [(day1, a); (day2, b)] LINEAR ACTACT CONTINUOUSLY_COMPOUNDED_YIELD day0 CONSTANT CONSTANT).
  { intros a b. unfold new_yield_curve. rewrite (C26_order_irrelevant [(day2, b); (day1, a)] [(day1, a); (day2, b)]); [reflexivity | apply perm_swap |].
    unfold knots; cbn [List.map fst]. constructor; [intros [X|[]]; vm_compute in X; discriminate X | constructor; [intros [] | constructor]]. }
  split.
  - destruct (Cv (1 / 20)%R (1 / 10)%R) as (y & dl & N & U). unfold pricing_errors, curve_with. cbn [List.map combine]. change (q_date q2) with day2. change (q_date q1) with day1.
    rewrite Sw, N. cbn [bind mapM]. unfold q2 at 1. unfold at_yield. rewrite (zero_at_knot spline _ LINEAR day0 _ dl y day2 (1 / 10) t2 _ M U ltac:(right; left; reflexivity) T2). cbn [bind].
    unfold q1 at 1. unfold at_yield. rewrite (zero_at_knot spline _ LINEAR day0 _ dl y day1 (1 / 20) t1 _ M U ltac:(left; reflexivity) T1). cbn [bind q1 q2 q_price at_yield quoted_zero zc_price new_zero_coupon].
    do 2 f_equal; [lra|]. f_equal. lra.
  - destruct (Cv (q_price q1) (q_price q2)) as (y0 & dl0 & N0 & _). unfold bootstrap_yield_curve, initial_curve. cbn [List.map].
    change (q_knot q2) with (day2, q_price q2). change (q_knot q1) with (day1, q_price q1). rewrite Sw, N0. cbn [bind bootstrap_loop].
    assert (H0 : holds ([] ++ q1 :: [q2]) LINEAR day0 y0 ([] ++ q_price q1 :: [q_price q2])).
    { pose proof (new_yc_cache _ _ _ _ _ _ _ _ N0) as (C & S & _ & D). split; [exact C|]. split; [reflexivity|]. cbn [app List.map combine]. change (q_date q2) with day2. change (q_date q1) with day1.
      rewrite N0. unfold fresh. rewrite <- D. f_equal. destruct y0. reflexivity. }
    assert (Pr : forall z, In z [q1; q2] -> priced spline day0 z) by (intros z [<-|[<-|[]]]; apply C73_zero_priced; vm_compute; discriminate).
    cbn [s Nat.eqb run_solver].
    pose proof (pv_diff_step spline [] q1 [q2] LINEAR day0 y0 [] _ [q_price q2] q2 (1 / 10) M Bo eq_refl H0) as St. cbn [List.length] in St.
    destruct (pv_diff spline 0 (q_price q2) (q_pv q2) (1 / 10) y0) as [y1 r1]. destruct St as (E1 & H1).
    destruct (usual_date spline _ LINEAR day0 y1 _ q2 Bo H1 ltac:(right; left; reflexivity) (Pr q2 ltac:(right; left; reflexivity))) as (w1 & W1). rewrite W1 in E1. cbn [bind] in E1. subst r1.
    pose proof (pv_diff_step spline [q1] q2 [] LINEAR day0 y1 [(1 / 10)%R] (q_price q2) [] q1 (1 / 20) M Bo eq_refl H1) as St. cbn [List.length] in St.
    cbn [run_solver].
    destruct (pv_diff spline 1 (q_price q1) (q_pv q1) (1 / 20) y1) as [y2 r2]. destruct St as (E2 & H2).
    destruct (usual_date spline _ LINEAR day0 y2 _ q1 Bo H2 ltac:(left; reflexivity) (Pr q1 ltac:(left; reflexivity))) as (w2 & W2). rewrite W2 in E2. cbn [bind] in E2. subst r2.
    exists y2. split; [reflexivity|]. destruct H2 as (C2 & L2 & N2). cbn [app List.map combine] in N2, L2. destruct (boot_usual [q1; q2] LINEAR day0 _ _ Bo L2 ltac:(discriminate) N2) as (dl & U).
    rewrite !(value_fresh spline y2 _ C2). split.
    + unfold q1 at 1. unfold at_yield. rewrite (zero_at_knot spline _ LINEAR day0 _ dl (fresh y2) day1 (1 / 10) t1 _ M U ltac:(left; reflexivity) T1).
      cbn [q1 q_price at_yield quoted_zero zc_price new_zero_coupon]. intros X. injection X as X. apply exp_inv in X. lra.
    + unfold q2 at 1. unfold at_yield. rewrite (zero_at_knot spline _ LINEAR day0 _ dl (fresh y2) day2 (1 / 20) t2 _ M U ltac:(right; left; reflexivity) T2).
      cbn [q2 q_price at_yield quoted_zero zc_price new_zero_coupon]. intros X. injection X as X. apply exp_inv in X. lra.
Qed.
Print Assumptions C73_order_refuted.
