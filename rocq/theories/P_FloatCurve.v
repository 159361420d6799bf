(** Property theorems C88 (curves in floating point). *)
From Verif Require Import Base PyDate PyDateFacts DayCount DayCountFacts PyList KeyRate KeyRateFacts P_KeyRate Curve CurveFacts P_Curve Float FloatDayCount FloatFacts P_FloatDayCount FloatKeyRate P_FloatKeyRate FloatCurve.
From Coq Require Import Reals Qreals Lra Lqa Sorting.Sorted Permutation.
From Flocq Require Import Core Plus_error BinarySingleNaN.
Open Scope Z_scope.
Ltac lra := first [Lra.lra | Lqa.lra].
Ltac nra := Lra.nra.

(** ---- specification ---- *)
(** A convention, a reference date and dates the convention can count from it. *)
Definition axis_ok (c : dcc) (ref : date) (ds : list date) : Prop := c <> THIRTY360 /\ countable c ref /\ forall d, In d ds -> countable c d.
(** no knot between *)
Definition neighbouring (ds : list date) (d0 d1 : date) : Prop := In d0 ds /\ In d1 ds /\ d0 < d1 /\ forall x, In x ds -> ~ (d0 < x < d1).

(** ---- the axis ---- *)
Lemma fle_bool x y a b : val x a -> val y b -> forall t, (a <= b <-> t = true)%R -> fle x y = t.
Proof. intros X Y t H. pose proof (fle_val _ _ _ _ X Y) as L. destruct (fle x y), t; try reflexivity; exfalso; intuition congruence. Qed.

Lemma axis_total c ref d : c <> THIRTY360 -> countable c ref -> countable c d -> ref <= d ->
  exists q x v, acc c ref d = Ok q /\ f_axis c ref d = Ok x /\ val x v /\ (Rabs (v - Q2R q) <= 4 * u * Q2R q)%R /\ (0 <= Q2R q <= 100000)%R.
Proof.
  intros NT Cr Cd L. unfold f_axis. destruct (Z.eq_dec ref d) as [<- | NE].
  - unfold acc, f_acc.
    assert (Q : exists q, compute_accrual_length (Day ref) (Day ref) c = Ok q).
    { destruct c; try contradiction; try (rewrite q_compute_days, Z.leb_refl; eexists; reflexivity).
      destruct Cr as [Or Yr]. destruct (compute_actact ref ref Or Or (Yr eq_refl) ltac:(lia)) as (q & E & _). eauto. }
    destruct Q as (q & Q). destruct Cr as [Or Yr]. destruct (count_laws c ref ref ref q q q NT Or Or Or ltac:(lia) ltac:(lia) Q Q Q) as (_ & Z0 & _).
    assert (Zq : (q == 0)%Q) by (apply Z0; reflexivity). apply Qeq_eqR in Zq. replace (Q2R 0) with 0%R in Zq by (unfold Q2R; cbn; lra).
    pose proof Q as Q'. rewrite q_compute_days, Z.leb_refl in Q'. destruct (fun_close c ref ref q Or Or Q') as (x & v & X & V & (_ & _ & C) & _).
    exists q, x, v. split; [exact Q|]. split; [rewrite f_compute_days, Z.leb_refl; exact X|]. split; [exact V|]. specialize (C ltac:(lia)). rewrite Zq in *. rewrite Rabs_R0 in C. split; [lra|lra].
  - destruct (count_pos c ref d NT Cr Cd ltac:(lia)) as (q & x & v & A & F & V & E & G). exists q, x, v. split; [exact A|]. split; [exact F|]. split; [exact V|]. split; [exact E|lra].
Qed.

Lemma axis_after c ref d x : f_axis c ref d = Ok x -> ref <= d.
Proof. unfold f_axis, f_acc. rewrite f_compute_days. destruct (Z.leb_spec ref d); [auto|discriminate]. Qed.

Lemma axis_order c ref d1 d2 x1 x2 : c <> THIRTY360 -> countable c ref -> countable c d1 -> countable c d2 -> f_axis c ref d1 = Ok x1 -> f_axis c ref d2 = Ok x2 ->
  fle x1 x2 = (d1 <=? d2) /\ flt x1 x2 = (d1 <? d2) /\ feq x1 x2 = (d1 =? d2).
Proof.
  intros NT Cr C1 C2 F1 F2. destruct (C83_order c ref d1 d2 x1 x2 NT (proj1 Cr) (proj1 C1) (proj1 C2) F1 F2) as (A & B). split; [|auto].
  destruct (axis_total c ref d1 NT Cr C1 (axis_after _ _ _ _ F1)) as (q1 & y1 & v1 & _ & Y1 & V1 & _). assert (y1 = x1) by congruence. subst y1.
  destruct (axis_total c ref d2 NT Cr C2 (axis_after _ _ _ _ F2)) as (q2 & y2 & v2 & _ & Y2 & V2 & _). assert (y2 = x2) by congruence. subst y2.
  apply (fle_bool _ _ _ _ V1 V2). pose proof (flt_val _ _ _ _ V1 V2) as Lt. pose proof (feq_val _ _ _ _ V1 V2) as Eq. rewrite A in Lt. rewrite B in Eq.
  split; [intros H; destruct (Req_dec v1 v2) as [E|N]; [apply Eq in E; lia|assert (v1 < v2)%R by lra; apply Lt in H0; lia]|].
  intros H. destruct (Z.eq_dec d1 d2) as [E|N]; [apply Req_le, Eq; lia|apply Rlt_le, Lt; lia].
Qed.

(** ---- finding the segment ---- *)
Lemma f_scan pre : forall p0 rest p post x, p0 :: rest = pre ++ p :: post -> (forall q, In q (pre ++ [p]) -> fle (fst q) x = true) ->
  (match post with [] => True | q :: _ => fle (fst q) x = false end) ->
  f_np_previous p0 rest x = snd p /\
  f_np_interp p0 rest x = match post with [] => snd p | q :: _ => if feq (fst p) x then snd p else f_segment p q x end.
Proof.
  induction pre as [|a pre IH]; intros p0 rest p post x E L N.
  - cbn in E. injection E as -> ->. destruct post as [|q post]; cbn; [auto|]. rewrite N. auto.
  - cbn in E. injection E as -> E. destruct rest as [|r rest]; [destruct pre; discriminate|].
    assert (Lr : fle (fst r) x = true) by (apply L; destruct pre as [|b pre]; cbn in E; injection E as -> _; [right; left; reflexivity|right; left; reflexivity]).
    cbn [f_np_previous f_np_interp]. rewrite Lr. apply (IH r rest p post x E); [|exact N]. intros q Hq. apply L. right. exact Hq.
Qed.

Definition is_pt (c : dcc) (ref : date) (kv : f_knot) (p : f64 * f64) : Prop := f_axis c ref (fst kv) = Ok (fst p) /\ snd p = snd kv.
Lemma points_ok c ref vals pts : f_create_points c ref vals = Ok pts -> Forall2 (is_pt c ref) vals pts.
Proof.
  unfold f_create_points. intros H. apply mapM_Forall2 in H. induction H as [|a b l l' H F IH]; constructor; [|exact IH].
  destruct (f_axis c ref (fst a)) as [x|e] eqn:E; [|discriminate]. cbn in H. injection H as <-. split; [exact E|reflexivity].
Qed.
Lemma Forall2_app_inv {A B} (R : A -> B -> Prop) l1 a l2 m : Forall2 R (l1 ++ a :: l2) m -> exists m1 b m2, m = m1 ++ b :: m2 /\ Forall2 R l1 m1 /\ R a b /\ Forall2 R l2 m2.
Proof.
  intros H. apply Forall2_app_inv_l in H. destruct H as (m1 & m2 & H1 & H2 & ->). inversion H2 as [|? b ? m2' Hb H2' E1 E2]; subst. exists m1, b, m2'. auto.
Qed.

(** the value looked up at a date from a knot on, before the next one *)
Lemma located spline c ref vals pts pre d0 y0 post d x m : axis_ok c ref (List.map fst vals) -> countable c d -> Forall2 (is_pt c ref) vals pts ->
  StronglySorted Z.lt (List.map fst vals) -> vals = pre ++ (d0, y0) :: post -> d0 <= d -> (match post with [] => d = d0 | kv :: _ => d < fst kv end) -> f_axis c ref d = Ok x -> m = LINEAR \/ m = PREVIOUS ->
  exists x0, f_axis c ref d0 = Ok x0 /\ f_interp1d spline m pts x = Ok (match m, post with
     | LINEAR, (d1, y1) :: _ => if d =? d0 then y0 else f_segment (x0, y0) (ok_or (f_axis c ref d1), y1) x
     | _, _ => y0 end).
Proof.
  intros (NT & Cr & Ck) Cd P Sd E L N X M. subst vals. destruct (Forall2_app_inv _ _ _ _ _ P) as (p1 & p & p2 & -> & P1 & [A0 S0] & P2). cbn [fst snd] in *.
  exists (fst p). split; [exact A0|].
  assert (C0 : countable c d0) by (apply Ck; rewrite map_app; apply in_or_app; right; left; reflexivity).
  rewrite map_app in Sd. cbn [List.map fst] in Sd.
  assert (Before : forall q, In q p1 -> exists dq, f_axis c ref dq = Ok (fst q) /\ countable c dq /\ dq < d0).
  { intros q Hq. destruct (Forall2_in_r _ _ _ _ P1 Hq) as (kv & Hk & [Ak _]). exists (fst kv). split; [exact Ak|]. split; [apply Ck; rewrite map_app; apply in_or_app; left; apply in_map; exact Hk|].
    clear -Sd Hk. revert Sd. induction pre as [|k pre IH]; [contradiction|]. cbn [List.map app]. intros Sd. apply StronglySorted_inv in Sd. destruct Sd as [Sd F]. destruct Hk as [-> |Hk]; [|auto].
    rewrite Forall_forall in F. apply F. apply in_or_app. right. left. reflexivity. }
  assert (After : forall q, In q p2 -> exists dq, f_axis c ref dq = Ok (fst q) /\ countable c dq /\ d < dq).
  { intros q Hq. destruct (Forall2_in_r _ _ _ _ P2 Hq) as (kv & Hk & [Ak _]). exists (fst kv). split; [exact Ak|]. split; [apply Ck; rewrite map_app; apply in_or_app; right; right; apply in_map; exact Hk|].
    destruct post as [|k post]; [contradiction|]. destruct Hk as [-> |Hk]; [exact N|]. clear -Sd Hk N. assert (S2 : StronglySorted Z.lt (List.map fst (k :: post))).
    { revert Sd. induction pre as [|z pre IH]; cbn [List.map app]; intros Sd; apply StronglySorted_inv in Sd; destruct Sd as [Sd _]; auto. }
    cbn [List.map] in S2. apply StronglySorted_inv in S2. destruct S2 as [_ F]. rewrite Forall_forall in F. specialize (F (fst kv) (in_map fst _ _ Hk)). lia. }
  assert (Le : forall q, In q (p1 ++ [p]) -> fle (fst q) x = true).
  { intros q Hq. apply in_app_or in Hq. destruct Hq as [Hq|[<- |[]]].
    - destruct (Before q Hq) as (dq & Aq & Cq & Lq). rewrite (proj1 (axis_order c ref dq d _ _ NT Cr Cq Cd Aq X)). lia.
    - rewrite (proj1 (axis_order c ref d0 d _ _ NT Cr C0 Cd A0 X)). lia. }
  assert (Nx : match p2 with [] => True | q :: _ => fle (fst q) x = false end).
  { destruct p2 as [|q p2]; [exact I|]. destruct (After q ltac:(left; reflexivity)) as (dq & Aq & Cq & Lq). rewrite (proj1 (axis_order c ref dq d _ _ NT Cr Cq Cd Aq X)). lia. }
  destruct (p1 ++ p :: p2) as [|h0 t0] eqn:EP; [destruct p1; discriminate|]. destruct (f_scan p1 h0 t0 p p2 x (eq_sym EP) Le Nx) as (Sp & Si).
  assert (Lo : flt x (fst h0) = false).
  { destruct p1 as [|a p1]; cbn in EP; injection EP as <- <-; [rewrite (proj1 (proj2 (axis_order c ref d d0 _ _ NT Cr Cd C0 X A0))); lia|].
    destruct (Before a ltac:(left; reflexivity)) as (dq & Aq & Cq & Lq). rewrite (proj1 (proj2 (axis_order c ref d dq _ _ NT Cr Cd Cq X Aq))). lia. }
  assert (Hi : flt (fst (last (h0 :: t0) h0)) x = false).
  { rewrite <- EP. rewrite last_app by discriminate. destruct p2 as [|q p2]; [cbn [last]; inversion P2; subst post; rewrite (proj1 (proj2 (axis_order c ref d0 d _ _ NT Cr C0 Cd A0 X))); lia|].
    assert (Il : In (last (p :: q :: p2) h0) (q :: p2)) by (change (last (p :: q :: p2) h0) with (last (q :: p2) h0); apply last_in; discriminate).
    destruct (After _ Il) as (dq & Aq & Cq & Lq). rewrite (proj1 (proj2 (axis_order c ref dq d _ _ NT Cr Cq Cd Aq X))). lia. }
  unfold f_interp1d. rewrite Lo, Hi. cbn [orb]. destruct M as [-> | ->]; [|rewrite Sp, S0; destruct post; reflexivity]. rewrite Si, S0.
  destruct post as [|[d1 y1] post]; inversion P2 as [|? q ? p2' [Aq Sq] _]; subst; [reflexivity|]. cbn [fst snd] in *. rewrite (proj2 (proj2 (axis_order c ref d0 d _ _ NT Cr C0 Cd A0 X))).
  rewrite Z.eqb_sym. destruct (d =? d0); [reflexivity|]. rewrite Aq. cbn [ok_or]. destruct p as [px py], q as [qx qy]. cbn [fst snd] in *. subst. reflexivity.
Qed.

(** ---- arithmetic ---- *)
Lemma keep (x : f64) : is_finite x = true -> val (fadd x (of_int 0)) (B2R x).
Proof.
  intros F. destruct zero_val as [F0 E0]. pose proof (Bplus_correct 53 1024 prec_gt prec_lt mode_NE x (of_int 0) F F0) as C.
  change (round radix2 _ (round_mode mode_NE) ?x) with (rn x) in C. rewrite E0, Rplus_0_r, rn_B2R in C. rewrite Rlt_bool_true in C by apply abs_B2R_lt_emax. destruct C as (V & F' & _). split; assumption.
Qed.
Lemma rn_bpow z k : (-1074 <= k)%Z -> (Rabs z <= bpow radix2 k)%R -> (Rabs (rn z) <= bpow radix2 k)%R.
Proof. intros K H. unfold rn. apply abs_round_le_generic; try typeclasses eauto; [|exact H]. rewrite fe_FLT. apply generic_format_FLT_bpow; [reflexivity|exact K]. Qed.
Lemma rn_pos z : (0 <= z -> 0 <= rn z)%R. Proof. intros H. rewrite <- rn_0. apply rn_le. exact H. Qed.
Lemma bpow_num : (bpow radix2 (-20) = / 1048576)%R /\ (bpow radix2 18 = 262144)%R.
Proof. split; reflexivity. Qed.

Definition slope (a b v0 v1 : R) : R := rn (rn (b - a) / rn (v1 - v0)).
Definition seg (a b v0 v1 v : R) : R := rn (rn (slope a b v0 v1 * rn (v - v0)) + a).
(** values far from overflow *)
Definition moderate (a : R) : Prop := (Rabs a <= bpow radix2 900)%R.

Lemma seg_val x0 x1 x y0 y1 v0 v1 v a b : val x0 v0 -> val x1 v1 -> val x v -> val y0 a -> val y1 b -> moderate a -> moderate b ->
  (/ 1048576 <= v1 - v0 -> 0 <= v - v0 <= v1 - v0 -> v1 - v0 <= 262144 -> val (f_segment (x0, y0) (x1, y1) x) (seg a b v0 v1 v))%R.
Proof.
  intros X0 X1 X Y0 Y1 Ma Mb G Lv Gb. unfold f_segment. cbn [fst snd]. destruct bpow_num as [B20 B18].
  assert (Big : forall z k, (k <= 1000)%Z -> (Rabs z <= bpow radix2 k)%R -> (Rabs z <= big)%R) by (intros z k K H; apply Rle_trans with (1 := H); apply bpow_le; exact K).
  assert (Ab : (Rabs (b - a) <= bpow radix2 901)%R).
  { unfold Rminus. apply Rle_trans with (1 := Rabs_triang _ _). rewrite Rabs_Ropp. unfold moderate in *. replace (bpow radix2 901) with (bpow radix2 1 * bpow radix2 900)%R by (rewrite <- bpow_plus; reflexivity). change (bpow radix2 1) with 2%R. lra. }
  pose proof (fsub_val _ _ _ _ Y1 Y0 (Big _ 901%Z ltac:(lia) Ab)) as Vn. pose proof (rn_bpow _ 901 ltac:(lia) Ab) as Bn. set (num := rn (b - a)) in *.
  assert (Ad : (Rabs (v1 - v0) <= bpow radix2 18)%R) by (rewrite B18, Rabs_pos_eq; lra).
  pose proof (fsub_val _ _ _ _ X1 X0 (Big _ 18%Z ltac:(lia) Ad)) as Vd. set (den := rn (v1 - v0)) in *.
  assert (Ld : (bpow radix2 (-20) <= den)%R). { unfold den. replace (bpow radix2 (-20)) with (rn (bpow radix2 (-20))); [apply rn_le; rewrite B20; exact G|]. apply rn_format. rewrite fe_FLT. apply generic_format_FLT_bpow; [reflexivity|lia]. }
  assert (P20 : (0 < bpow radix2 (-20))%R) by apply bpow_gt_0.
  assert (Aq : (Rabs (num / den) <= bpow radix2 921)%R).
  { unfold Rdiv. rewrite Rabs_mult, (Rabs_pos_eq (/ den)) by (apply Rlt_le, Rinv_0_lt_compat; lra). replace (bpow radix2 921) with (bpow radix2 901 * / bpow radix2 (-20))%R by (rewrite <- bpow_opp, <- bpow_plus; reflexivity).
    apply Rmult_le_compat; [apply Rabs_pos|apply Rlt_le, Rinv_0_lt_compat; lra|exact Bn|apply Rinv_le; lra]. }
  destruct (fdiv_val _ _ _ _ Vn Vd ltac:(lra) (Big _ 921%Z ltac:(lia) Aq)) as (z & Ez & Vz). unfold fdiv in Ez. rewrite (fzero_val _ _ Vd ltac:(lra)) in Ez. injection Ez as Ez. fold (cdiv (fsub y1 y0) (fsub x1 x0)) in Ez. subst z.
  pose proof (rn_bpow _ 921 ltac:(lia) Aq) as Bs. fold (slope a b v0 v1) in *. change (rn (num / den)) with (slope a b v0 v1) in *. set (s := slope a b v0 v1) in *.
  assert (Ax : (Rabs (v - v0) <= bpow radix2 18)%R) by (rewrite B18, Rabs_pos_eq; lra).
  pose proof (fsub_val _ _ _ _ X X0 (Big _ 18%Z ltac:(lia) Ax)) as Vt. pose proof (rn_bpow _ 18 ltac:(lia) Ax) as Bt. set (t := rn (v - v0)) in *.
  assert (Am : (Rabs (s * t) <= bpow radix2 939)%R).
  { rewrite Rabs_mult. replace (bpow radix2 939) with (bpow radix2 921 * bpow radix2 18)%R by (rewrite <- bpow_plus; reflexivity). apply Rmult_le_compat; auto using Rabs_pos. }
  pose proof (fmul_val _ _ _ _ Vz Vt (Big _ 939%Z ltac:(lia) Am)) as Vm. pose proof (rn_bpow _ 939 ltac:(lia) Am) as Bm.
  assert (As : (Rabs (rn (s * t) + a) <= bpow radix2 940)%R).
  { apply Rle_trans with (1 := Rabs_triang _ _). unfold moderate in *. assert (bpow radix2 900 <= bpow radix2 939)%R by (apply bpow_le; lia). replace (bpow radix2 940) with (bpow radix2 1 * bpow radix2 939)%R by (rewrite <- bpow_plus; reflexivity). change (bpow radix2 1) with 2%R. lra. }
  pose proof (fadd_val _ _ _ _ Vm Y0 (Big _ 940%Z ltac:(lia) As)) as Vr. change (rn (rn (s * t) + a)) with (seg a b v0 v1 v) in Vr.
  assert (Nn : is_nan64 (fadd (fmul (cdiv (fsub y1 y0) (fsub x1 x0)) (fsub x x0)) y0) = false).
  { destruct Vr as [F _]. unfold is_nan64. destruct (fadd _ y0); try reflexivity; discriminate. }
  rewrite Nn. exact Vr.
Qed.

Lemma seg_flat a v0 v1 v : rn a = a -> seg a a v0 v1 v = a.
Proof. intros E. unfold seg, slope. replace (a - a)%R with 0%R by ring. rewrite rn_0. unfold Rdiv. rewrite Rmult_0_l, rn_0, Rmult_0_l, rn_0, Rplus_0_l. exact E. Qed.
Lemma seg_mono a b v0 v1 v v' : rn a = a -> (v0 < v1 -> v0 <= v -> v <= v' ->
  (a <= b -> a <= seg a b v0 v1 v /\ seg a b v0 v1 v <= seg a b v0 v1 v') /\ (b <= a -> seg a b v0 v1 v <= a /\ seg a b v0 v1 v' <= seg a b v0 v1 v))%R.
Proof.
  intros Ea L0 L1 L2. set (den := rn (v1 - v0)). assert (D0 : (0 <= / den)%R). { destruct (Rle_lt_or_eq_dec 0 den) as [P|P]; [apply rn_pos; lra|apply Rlt_le, Rinv_0_lt_compat; exact P|rewrite <- P, Rinv_0; lra]. }
  assert (T : (0 <= rn (v - v0) <= rn (v' - v0))%R) by (split; [apply rn_pos; lra|apply rn_le; lra]).
  unfold seg. split; intros H.
  - assert (S0 : (0 <= slope a b v0 v1)%R) by (apply rn_pos; apply Rmult_le_pos; [apply rn_pos; lra|exact D0]).
    split; [rewrite <- Ea at 1; apply rn_le; assert (0 <= rn (slope a b v0 v1 * rn (v - v0)))%R by (apply rn_pos, Rmult_le_pos; lra); lra|].
    apply rn_le. apply Rplus_le_compat_r. apply rn_le. apply Rmult_le_compat_l; lra.
  - assert (S0 : (slope a b v0 v1 <= 0)%R).
    { unfold slope. rewrite <- rn_0. apply rn_le. assert (rn (b - a) <= 0)%R by (rewrite <- rn_0; apply rn_le; lra). unfold Rdiv. fold den. nra. }
    split; [apply Rle_trans with (rn a); [|rewrite Ea; apply Rle_refl]; apply rn_le; assert (rn (slope a b v0 v1 * rn (v - v0)) <= 0)%R by (rewrite <- rn_0; apply rn_le; nra); lra|].
    apply rn_le. apply Rplus_le_compat_r. apply rn_le. nra.
Qed.

(** ---- two knots and the axis ---- *)
Lemma axis_gap c ref d0 d1 q0 q1 : c <> THIRTY360 -> countable c ref -> countable c d0 -> countable c d1 -> ref <= d0 -> d0 < d1 -> acc c ref d0 = Ok q0 -> acc c ref d1 = Ok q1 ->
  (Q2R q0 + 1 / 133590 <= Q2R q1)%R.
Proof.
  intros NT Cr C0 C1 L0 L1 A0 A1. unfold acc in *. destruct (count_pos c d0 d1 NT C0 C1 L1) as (q & _ & _ & A & _). unfold acc in A.
  destruct (count_laws c ref d0 d1 q0 q q1 NT (proj1 Cr) (proj1 C0) (proj1 C1) L0 ltac:(lia) A0 A A1) as (_ & _ & M). specialize (M L1). apply Qlt_Rlt in M.
  rewrite q_compute_days in A0, A1. destruct (Z.leb_spec ref d0); [|lia]. destruct (Z.leb_spec ref d1); [|lia].
  destruct (on_grid c _ _ _ A0) as (n0 & G0). destruct (on_grid c _ _ _ A1) as (n1 & G1). rewrite G0, G1 in *. apply gap; [destruct c; cbn; lia|exact M].
Qed.

(** three positions on the axis: two knots and a date from the first to before the second *)
Lemma axis_three c ref d0 d d1 : c <> THIRTY360 -> countable c ref -> countable c d0 -> countable c d1 -> ref <= d0 -> d0 <= d < d1 ->
  exists q0 q q1 x0 x x1 v0 v v1, acc c ref d0 = Ok q0 /\ acc c ref d = Ok q /\ acc c ref d1 = Ok q1 /\ f_axis c ref d0 = Ok x0 /\ f_axis c ref d = Ok x /\ f_axis c ref d1 = Ok x1 /\
    val x0 v0 /\ val x v /\ val x1 v1 /\ (Rabs (v0 - Q2R q0) <= 4 * u * Q2R q0)%R /\ (Rabs (v - Q2R q) <= 4 * u * Q2R q)%R /\ (Rabs (v1 - Q2R q1) <= 4 * u * Q2R q1)%R /\
    (0 <= Q2R q0 <= Q2R q)%R /\ (Q2R q <= Q2R q1 <= 100000)%R /\ (Q2R q0 + 1 / 133590 <= Q2R q1)%R /\ (v0 <= v <= v1)%R /\ (/ 1048576 <= v1 - v0 <= 262144)%R.
Proof.
  intros NT Cr C0 C1 L0 [L1 L2]. assert (C : countable c d) by (apply (countable_between c d0 d1 d); auto; lia).
  destruct (axis_total c ref d0 NT Cr C0 L0) as (q0 & x0 & v0 & A0 & F0 & V0 & E0 & G0).
  destruct (axis_total c ref d NT Cr C ltac:(lia)) as (q & x & v & A & F & V & E & G).
  destruct (axis_total c ref d1 NT Cr C1 ltac:(lia)) as (q1 & x1 & v1 & A1 & F1 & V1 & E1 & G1).
  exists q0, q, q1, x0, x, x1, v0, v, v1. do 12 (split; [assumption|]).
  pose proof (axis_gap c ref d0 d1 q0 q1 NT Cr C0 C1 L0 ltac:(lia) A0 A1) as Gp.
  pose proof (axis_gap c ref d d1 q q1 NT Cr C C1 ltac:(lia) ltac:(lia) A A1) as Gp2.
  assert (Lq : (Q2R q0 <= Q2R q)%R). { destruct (Z.eq_dec d0 d) as [<- | NE]; [assert (q0 = q) by congruence; subst; lra|]. pose proof (axis_gap c ref d0 d q0 q NT Cr C0 C L0 ltac:(lia) A0 A). lra. }
  assert (Lv : (v0 <= v)%R). { apply (fle_val _ _ _ _ V0 V). rewrite (proj1 (axis_order c ref d0 d _ _ NT Cr C0 C F0 F)). lia. }
  assert (Lv1 : (v <= v1)%R). { apply (fle_val _ _ _ _ V V1). rewrite (proj1 (axis_order c ref d d1 _ _ NT Cr C C1 F F1)). lia. }
  split; [lra|]. split; [lra|]. split; [exact Gp|]. split; [lra|].
  assert (U : (0 < u <= / 1000000000000000)%R). { split; [apply u_small|]. unfold u. change (bpow radix2 (-53)) with (/ 9007199254740992)%R. lra. }
  apply Rabs_le_inv in E0, E1. assert (4 * u * Q2R q0 <= 4 / 1000000000)%R by nra. assert (4 * u * Q2R q1 <= 4 / 1000000000)%R by nra. split; lra.
Qed.

(** ---- error of one segment ---- *)
Lemma rn_plus_format a b : rn a = a -> rn b = b -> (Rabs (rn (a + b) - (a + b)) <= u * Rabs (a + b))%R.
Proof.
  intros A B. assert (G : forall z, rn z = z -> generic_format radix2 (FLT_exp (-1074) 53) z) by (intros z <-; rewrite <- fe_FLT; unfold rn; apply generic_format_round; typeclasses eauto).
  destruct (Rle_or_lt small (Rabs (a + b))) as [H|H]; [apply rn_err; right; exact H|].
  assert (E : rn (a + b) = (a + b)%R). { apply rn_format. rewrite fe_FLT. apply (@FLT_format_plus_small radix2 (-1074) 53 prec_gt a b); auto. apply Rlt_le. apply Rlt_le_trans with (1 := H). apply bpow_le. lia. }
  rewrite E, Rminus_diag_eq, Rabs_R0 by reflexivity. apply Rmult_le_pos; [apply bpow_ge_0|apply Rabs_pos].
Qed.
Lemma one_mult p q x y : (Rabs (x - 1) <= p -> Rabs (y - 1) <= q -> Rabs (x * y - 1) <= p + q + p * q)%R.
Proof.
  intros X Y. replace (x * y - 1)%R with ((x - 1) + (y - 1) + (x - 1) * (y - 1))%R by ring. apply Rle_trans with (1 := Rabs_triang _ _). pose proof (Rabs_triang (x - 1) (y - 1)) as T. rewrite Rabs_mult.
  assert (Rabs (x - 1) * Rabs (y - 1) <= p * q)%R by (apply Rmult_le_compat; auto using Rabs_pos). lra.
Qed.
Lemma one_factor x z : (x = 0 \/ x <> 0 -> Rabs (z - x) <= u * Rabs x -> exists f, z = x * f /\ Rabs (f - 1) <= u)%R.
Proof.
  intros [-> | N] H.
  - exists 1%R. rewrite Rabs_R0, Rmult_0_r in H. assert (z = 0)%R. { pose proof (Rabs_pos (z - 0)). destruct (Req_dec (z - 0) 0) as [Z|Z]; [lra|]. apply Rabs_pos_lt in Z. lra. }
    split; [lra|]. replace (1 - 1)%R with 0%R by ring. rewrite Rabs_R0. apply Rlt_le, u_small.
  - exists (z / x)%R. split; [field; exact N|]. replace (z / x - 1)%R with ((z - x) / x)%R by (field; exact N). unfold Rdiv. rewrite Rabs_mult, Rabs_inv. assert (0 < Rabs x)%R by (apply Rabs_pos_lt; exact N).
    apply Rmult_le_reg_r with (Rabs x); [assumption|]. rewrite Rmult_assoc, Rinv_l by lra. lra.
Qed.
Lemma one_inv f : (Rabs (f - 1) <= u -> Rabs (/ f - 1) <= 2 * u)%R.
Proof.
  intros H. assert (U : (0 < u <= / 1000000000000000)%R). { split; [apply u_small|]. unfold u. change (bpow radix2 (-53)) with (/ 9007199254740992)%R. lra. }
  pose proof (Rabs_le_inv _ _ H) as H'. replace (/ f - 1)%R with ((1 - f) / f)%R by (field; lra). unfold Rdiv. rewrite Rabs_mult, Rabs_inv, (Rabs_pos_eq f) by lra. rewrite (Rabs_minus_sym 1 f).
  apply Rmult_le_reg_r with f; [lra|]. rewrite Rmult_assoc, Rinv_l by lra. nra.
Qed.

Lemma ratio_close T D t d e X : (0 <= T <= D -> 0 < D -> D <= X -> Rabs (t - T) <= e * X -> Rabs (d - D) <= e * X -> D / 2 <= d -> 0 <= e -> e * X <= D / 1000 ->
  Rabs (t / d - T / D) <= (201 / 100) * e * (X / D))%R.
Proof.
  intros HT HD HX Et Ed Hd He Hx. apply Rabs_le_inv in Et, Ed. assert (L : (D * (999 / 1000) <= d)%R) by lra.
  assert (N : (Rabs ((t - T) * D - T * (d - D)) <= 2 * e * X * D)%R) by (apply Rabs_le; split; nra).
  replace (t / d - T / D)%R with (((t - T) * D - T * (d - D)) / (D * d))%R by (field; lra). unfold Rdiv at 1. rewrite Rabs_mult, Rabs_inv, (Rabs_pos_eq (D * d)) by nra.
  apply Rmult_le_reg_r with (D * d)%R; [nra|]. rewrite Rmult_assoc, Rinv_l, Rmult_1_r by nra. apply Rle_trans with (1 := N).
  replace ((201 / 100) * e * (X / D) * (D * d))%R with ((201 / 100) * (e * X) * d)%R by (field; lra). assert (0 <= e * X)%R by nra. nra.
Qed.

(** the product of slope and distance is the exact increment up to a small relative error of the ratio of lengths *)
Lemma seg_parts x0 x1 x y0 y1 q0 q q1 v0 v v1 a b : val x0 v0 -> val x1 v1 -> val x v -> val y0 a -> val y1 b ->
  (Rabs (v0 - q0) <= 4 * u * q0 -> Rabs (v - q) <= 4 * u * q -> Rabs (v1 - q1) <= 4 * u * q1 ->
   0 <= q0 -> q0 + 1 / 133590 <= q -> q + 1 / 133590 <= q1 -> q1 <= 100000 -> v <= v1 -> (b = a \/ bpow radix2 (-900) <= Rabs (b - a)) ->
   exists w, seg a b v0 v1 v = rn ((b - a) * w + a) /\ rn ((b - a) * w) = (b - a) * w /\ 0 <= w <= 1 /\
     Rabs (w - (q - q0) / (q1 - q0)) <= 26 * u * (q1 / (q1 - q0)))%R.
Proof.
  intros X0 X1 X Y0 Y1 E0 E E1 P0 P P1 Pm Vm Nd.
  assert (U : (0 < u <= / 1000000000000000)%R). { split; [apply u_small|]. unfold u. change (bpow radix2 (-53)) with (/ 9007199254740992)%R. lra. }
  assert (HD : (1 / 133590 <= q1 - q0)%R) by lra. set (T := (q - q0)%R) in *. set (D := (q1 - q0)%R) in *.
  assert (Dq : (1 <= q1 / D)%R) by (apply Rmult_le_reg_r with D; [lra|]; unfold Rdiv; rewrite Rmult_assoc, Rinv_l by lra; unfold D; lra).
  destruct (Req_dec b a) as [-> | NE].
  - exists (T / D)%R. unfold seg, slope. replace (a - a)%R with 0%R by ring. rewrite rn_0. unfold Rdiv at 1. rewrite !Rmult_0_l, rn_0, Rmult_0_l, rn_0. split; [reflexivity|]. split; [reflexivity|].
    split; [|replace (T / D - T / D)%R with 0%R by ring; rewrite Rabs_R0; nra].
    split; [apply Rmult_le_pos; [unfold T; lra|apply Rlt_le, Rinv_0_lt_compat; lra]|]. apply Rmult_le_reg_r with D; [lra|]. unfold Rdiv. rewrite Rmult_assoc, Rinv_l by lra. unfold T, D. lra.
  - destruct Nd as [Nd|Nd]; [contradiction|]. apply Rabs_le_inv in E0, E, E1.
    assert (Ub : (u * q1 <= / 10000000000)%R) by nra. assert (Ub0 : (0 <= u * q0 <= u * q1)%R) by nra. assert (Ub1 : (u * q <= u * q1)%R) by nra.
    assert (Lt : (/ 1048576 <= v - v0 <= 262144)%R) by lra. assert (Ld : (/ 1048576 <= v1 - v0 <= 262144)%R) by lra.
    destruct (one_factor (b - a) (rn (b - a)) ltac:(lra) (rn_minus_err _ _ _ _ Y1 Y0)) as (f1 & F1 & G1).
    destruct (one_factor (v1 - v0) (rn (v1 - v0)) ltac:(lra) (rn_minus_err _ _ _ _ X1 X0)) as (f2 & F2 & G2).
    destruct (one_factor (v - v0) (rn (v - v0)) ltac:(lra) (rn_minus_err _ _ _ _ X X0)) as (f3 & F3 & G3).
    pose proof (one_inv _ G2) as G2'. pose proof (Rabs_le_inv _ _ G1) as H1. pose proof (Rabs_le_inv _ _ G2) as H2. pose proof (Rabs_le_inv _ _ G3) as H3.
    assert (Sm : forall k z, (-1000 <= k)%Z -> (bpow radix2 k <= Rabs z)%R -> z = 0%R \/ (small <= Rabs z)%R) by (intros k z K H; right; apply Rle_trans with (2 := H); apply bpow_le; lia).
    set (s0 := (rn (b - a) / rn (v1 - v0))%R).
    assert (B900 : (bpow radix2 (-901) * 2 = bpow radix2 (-900))%R) by (change 2%R with (bpow radix2 1); rewrite <- bpow_plus; reflexivity).
    assert (As : (bpow radix2 (-920) <= Rabs s0)%R).
    { unfold s0, Rdiv. rewrite Rabs_mult, Rabs_inv, F1, F2, Rabs_mult, (Rabs_pos_eq f1) by lra. rewrite (Rabs_pos_eq ((v1 - v0) * f2)) by nra. replace (bpow radix2 (-920)) with (bpow radix2 (-901) * / bpow radix2 19)%R by (rewrite <- bpow_opp, <- bpow_plus; reflexivity).
      change (bpow radix2 19) with 524288%R. pose proof (bpow_gt_0 radix2 (-901)). apply Rmult_le_compat; [lra|lra|nra|]. apply Rinv_le; nra. }
    destruct (one_factor s0 (rn s0) ltac:(lra) (rn_err s0 (Sm (-920)%Z _ ltac:(lia) As))) as (f4 & F4 & G4). pose proof (Rabs_le_inv _ _ G4) as H4.
    set (m0 := (rn s0 * rn (v - v0))%R).
    assert (Am : (bpow radix2 (-950) <= Rabs m0)%R).
    { unfold m0. rewrite F3, F4, !Rabs_mult, (Rabs_pos_eq f4), (Rabs_pos_eq f3), (Rabs_pos_eq (v - v0)) by lra. replace (bpow radix2 (-950)) with (bpow radix2 (-920) * bpow radix2 (-30))%R by (rewrite <- bpow_plus; reflexivity).
      assert (bpow radix2 (-30) <= (1 / 2) * (/ 1048576 * (1 / 2)))%R by (change (bpow radix2 (-30)) with (/ 1073741824)%R; lra). pose proof (bpow_gt_0 radix2 (-920)). pose proof (bpow_gt_0 radix2 (-30)).
      rewrite Rmult_assoc. apply Rmult_le_compat; [lra|lra|exact As|]. apply Rle_trans with (1 := H). apply Rmult_le_compat; [lra|lra|lra|]. apply Rmult_le_compat; lra. }
    destruct (one_factor m0 (rn m0) ltac:(lra) (rn_err m0 (Sm (-950)%Z _ ltac:(lia) Am))) as (f5 & F5 & G5). pose proof (Rabs_le_inv _ _ G5) as H5.
    set (rho := ((v - v0) / (v1 - v0))%R). set (f := (f1 * / f2 * (f3 * f4 * f5))%R).
    assert (Em : rn m0 = ((b - a) * (rho * f))%R). { rewrite F5. unfold m0. rewrite F4, F3. unfold s0. rewrite F1, F2. unfold rho, f. field. split; [lra|]. lra. }
    assert (Gf : (Rabs (f - 1) <= 8 * u)%R).
    { pose proof (one_mult _ _ _ _ G1 G2') as A. pose proof (one_mult _ _ _ _ (one_mult _ _ _ _ G3 G4) G5) as B. assert (U2 : (0 <= u * u <= u / 1000)%R) by (split; nra).
      assert (A' : (Rabs (f1 * / f2 - 1) <= 4 * u)%R) by (apply Rle_trans with (1 := A); lra). assert (B1 : (Rabs (f3 * f4 - 1) <= 3 * u)%R) by (apply Rle_trans with (1 := one_mult _ _ _ _ G3 G4); lra).
      assert (B' : (Rabs (f3 * f4 * f5 - 1) <= (301 / 100) * u)%R) by (pose proof (one_mult _ _ _ _ G3 G4) as B2; apply Rle_trans with (1 := B); assert ((u + u + u * u) * u <= (3 * u) * u)%R by (apply Rmult_le_compat_r; lra); lra).
      apply Rle_trans with (1 := one_mult _ _ _ _ A' B'). replace (4 * u * ((301 / 100) * u))%R with ((1204 / 100) * (u * u))%R by field. lra. }
    pose proof (Rabs_le_inv _ _ Gf) as Hf.
    assert (Hr : (0 <= rho <= 1)%R). { unfold rho. split; [apply Rmult_le_pos; [lra|apply Rlt_le, Rinv_0_lt_compat; lra]|]. apply Rmult_le_reg_r with (v1 - v0)%R; [lra|]. unfold Rdiv. rewrite Rmult_assoc, Rinv_l by lra. lra. }
    assert (Er : (Rabs (rho - T / D) <= (201 / 100) * (8 * u) * (q1 / D))%R).
    { unfold rho. apply ratio_close; [unfold T, D; lra|lra|unfold D; lra|unfold T; apply Rabs_le; split; lra|unfold D; apply Rabs_le; split; lra|unfold D; lra|lra|unfold D; lra]. }
    assert (Ew : (Rabs (rho * f - T / D) <= 26 * u * (q1 / D))%R).
    { replace (rho * f - T / D)%R with (rho * (f - 1) + (rho - T / D))%R by ring. apply Rle_trans with (1 := Rabs_triang _ _). rewrite Rabs_mult, (Rabs_pos_eq rho) by lra.
      assert (rho * Rabs (f - 1) <= 1 * (8 * u))%R by (apply Rmult_le_compat; try lra; apply Rabs_pos). assert (8 * u * 1 <= 8 * u * (q1 / D))%R by (apply Rmult_le_compat_l; lra). clear - H Er H0 U Dq. set (z := (q1 / D)%R) in *. lra. }
    exists (rho * f)%R. split; [unfold seg, slope; fold s0; fold m0; rewrite Em; reflexivity|]. split; [rewrite <- Em; apply rn_format; unfold rn; apply generic_format_round; typeclasses eauto|]. split; [|exact Ew].
    split; [apply Rmult_le_pos; lra|]. apply Rabs_le_inv in Ew. assert (Rq : (T / D + 26 * u * (q1 / D) <= 1)%R); [|lra].
    apply Rmult_le_reg_r with D; [lra|]. replace ((T / D + 26 * u * (q1 / D)) * D)%R with (T + 26 * (u * q1))%R by (field; lra). unfold T, D. lra.
Qed.

(** ---- locating a date on a constructed curve ---- *)
Lemma f_sorted (vals : list f_knot) : NoDup (List.map fst vals) -> StronglySorted Z.lt (List.map fst (sort_by fst vals)).
Proof.
  intros N. apply sorted_le_lt; [apply sort_by_sorted|]. eapply Permutation_NoDup; [|exact N]. apply Permutation_map, Permutation_sym, sort_by_perm.
Qed.
Lemma f_sorted_split (vals pre post : list f_knot) kv : StronglySorted Z.lt (List.map fst vals) -> vals = pre ++ kv :: post ->
  (forall x, In x pre -> fst x < fst kv) /\ (forall x, In x post -> fst kv < fst x).
Proof.
  intros S1 ->. induction pre as [|y pre IH]; cbn in S1; inversion S1 as [|? ? H1 H2]; subst.
  - split; [intros x []|]. intros x I. rewrite Forall_forall in H2. apply H2. apply in_map, I.
  - destruct (IH H1) as [A B]. split; auto. intros x [<- | I]; auto. rewrite Forall_forall in H2. apply H2. apply in_map, in_or_app. right; left; auto.
Qed.
Lemma f_new_ok kvs m c ref l r cv : f_new_curve kvs m c ref l r = Ok cv ->
  fc_values cv = sort_by fst kvs /\ fc_method cv = m /\ fc_dcc cv = c /\ fc_ref cv = ref /\ fc_left cv = l /\ fc_right cv = r /\ Forall2 (is_pt c ref) (sort_by fst kvs) (fc_pts cv).
Proof.
  unfold f_new_curve. destruct (f_create_points c ref (sort_by fst kvs)) as [pts|e] eqn:E; [|discriminate]. cbn [bind]. intros H. injection H as <-. cbn [fc_values fc_method fc_dcc fc_ref fc_left fc_right fc_pts].
  do 6 (split; [reflexivity|]). apply points_ok. exact E.
Qed.
Lemma f_in (kvs : list f_knot) kv : In kv (sort_by fst kvs) <-> In kv kvs.
Proof. split; apply Permutation_in; [|apply Permutation_sym]; apply sort_by_perm. Qed.
Lemma f_ends (vals : list f_knot) kv0 rest : vals = kv0 :: rest -> StronglySorted Z.lt (List.map fst vals) -> forall kv, In kv vals -> fst kv0 <= fst kv <= fst (last vals kv0).
Proof.
  intros -> SS kv I. split.
  - cbn [List.map] in SS. apply StronglySorted_inv in SS. destruct SS as [_ F]. rewrite Forall_forall in F. destruct I as [-> | I]; [lia|]. specialize (F _ (in_map fst _ _ I)). lia.
  - destruct (in_split _ _ I) as (pre & post & E). destruct (f_sorted_split _ _ _ _ SS E) as [_ B]. rewrite E at 1. rewrite last_app by discriminate.
    destruct post as [|k post]; [cbn; lia|]. change (last (kv :: k :: post) kv0) with (last (k :: post) kv0). specialize (B _ (last_in (k :: post) kv0 ltac:(discriminate))). lia.
Qed.

(** the position of a date on the axis *)
Definition pos (c : dcc) (ref d : date) : f64 := ok_or (f_axis c ref d).
Lemma pos_ok c ref d : c <> THIRTY360 -> countable c ref -> countable c d -> ref <= d -> f_axis c ref d = Ok (pos c ref d).
Proof. intros NT Cr Cd L. destruct (axis_total c ref d NT Cr Cd L) as (_ & x & _ & _ & F & _). unfold pos. rewrite F. reflexivity. Qed.

(** the value at a date from a knot on, up to the next knot or at the last one *)
Lemma looked_up spline kvs m c ref l r cv d0 y0 d : m = LINEAR \/ m = PREVIOUS -> f_new_curve kvs m c ref l r = Ok cv -> NoDup (List.map fst kvs) -> axis_ok c ref (List.map fst kvs) ->
  In (d0, y0) kvs -> d = d0 \/ (exists y1 d1, In (d1, y1) kvs /\ d0 <= d < d1 /\ forall k, In k (List.map fst kvs) -> ~ (d0 < k < d1)) ->
  ref <= d0 /\ countable c d /\
  ((d = d0 \/ m = PREVIOUS) -> f_interpolate spline cv d None = Ok (fadd y0 (of_int 0))) /\
  (m = LINEAR -> forall d1 y1, In (d1, y1) kvs -> d0 < d < d1 -> (forall k, In k (List.map fst kvs) -> ~ (d0 < k < d1)) ->
     f_interpolate spline cv d None = Ok (fadd (f_segment (pos c ref d0, y0) (pos c ref d1, y1) (pos c ref d)) (of_int 0))).
Proof.
  intros M H ND AX I0 Hd. destruct (f_new_ok _ _ _ _ _ _ _ H) as (V & EM & EC & ER & EL & ERt & P). destruct AX as (NT & Cr & Ck).
  set (vals := sort_by fst kvs) in *. pose proof (f_sorted kvs ND) as SS. fold vals in SS.
  assert (AX' : axis_ok c ref (List.map fst vals)). { split; [exact NT|]. split; [exact Cr|]. intros k Hk. apply Ck. apply in_map_iff in Hk. destruct Hk as (kv & <- & Hk). apply in_map, f_in, Hk. }
  assert (I0' : In (d0, y0) vals) by (apply f_in; exact I0). destruct (in_split _ _ I0') as (pre & post & E). destruct (f_sorted_split _ _ _ _ SS E) as [S1 S2].
  assert (C0 : countable c d0) by (apply Ck; apply (in_map fst _ _ I0)).
  assert (L0 : ref <= d0). { destruct (Forall2_in_l _ _ _ _ P I0') as (p & _ & [A _]). apply (axis_after _ _ _ _ A). }
  assert (Cd : countable c d). { destruct Hd as [-> | (y1 & d1 & J & L & _)]; [exact C0|]. apply (countable_between c d0 d1); [exact C0|apply Ck; apply (in_map fst _ _ J)|lia]. }
  assert (Ld : d0 <= d) by (destruct Hd as [-> | (y1 & d1 & J & L & _)]; lia).
  pose proof (pos_ok c ref d NT Cr Cd ltac:(lia)) as X.
  assert (Nx : match post with [] => d = d0 | kv :: _ => d < fst kv end).
  { destruct Hd as [-> | (y1 & d1 & J & L & Adj)]; [destruct post as [|k post]; [reflexivity|]; specialize (S2 k ltac:(left; reflexivity)); exact S2|].
    apply f_in in J. fold vals in J. rewrite E in J. apply in_app_or in J. destruct J as [J|[J|J]]; [specialize (S1 _ J); cbn in S1; lia|injection J; intros; lia|].
    destruct post as [|k post]; [contradiction|]. assert (Nk : ~ d0 < fst k < d1). { apply Adj. apply in_map. apply f_in. fold vals. rewrite E. apply in_or_app. right. right. left. reflexivity. }
    specialize (S2 k ltac:(left; reflexivity)). cbn in S2. lia. }
  split; [exact L0|]. split; [exact Cd|].
  destruct (located spline c ref vals (fc_pts cv) pre d0 y0 post d _ m AX' Cd P SS E Ld Nx X M) as (x0 & X0 & Li).
  assert (Fi : f_interpolate spline cv d None = do v <- f_interp1d spline m (fc_pts cv) (pos c ref d); Ok (fadd v (of_int 0))).
  { unfold f_interpolate. rewrite V, EC, ER, EM. destruct vals as [|kv0 rest] eqn:Ev; [contradiction|]. destruct kv0 as [fd fv].
    pose proof (f_ends _ _ _ eq_refl SS _ I0') as B. set (lst := @last f_knot ((fd, fv) :: rest) (fd, fv)). change (fd <= d0 <= fst lst) in B. destruct lst as [ld lv] eqn:El. cbn [fst] in B.
    replace (d <? fd) with false by lia. replace (ld <? d) with false.
    2:{ symmetry. apply Z.ltb_ge. destruct Hd as [-> | (y1 & d1 & J & L & Adj)]; [lia|]. apply f_in in J. fold vals in J. rewrite Ev in J. pose proof (f_ends _ _ _ eq_refl SS _ J) as B1. change (fd <= d1 <= fst lst) in B1. rewrite El in B1. cbn [fst] in B1. lia. }
    rewrite X. cbn [bind f_adj_call]. reflexivity. }
  rewrite Fi, Li. cbn [bind]. split.
  - intros [-> | ->]; [rewrite Z.eqb_refl; destruct M as [-> | ->]; destruct post as [|[? ?] ?]; reflexivity|destruct post as [|[? ?] ?]; reflexivity].
  - intros -> d1 y1 J L Adj. destruct post as [|[d1' y1'] post]; [lia|]. cbn [fst] in Nx.
    assert (Ej : (d1', y1') = (d1, y1)).
    { apply f_in in J. fold vals in J. assert (J' : In (d1, y1) ((d1', y1') :: post)). { rewrite E in J. apply in_app_or in J. destruct J as [J|[J|J]]; [specialize (S1 _ J); cbn in S1; lia|injection J; intros; lia|exact J]. }
      destruct J' as [J'|J']; [exact J'|]. exfalso.
      assert (Nk : ~ d0 < d1' < d1). { apply Adj. apply (in_map fst kvs (d1', y1')). apply f_in. fold vals. rewrite E. apply in_or_app. right. right. left. reflexivity. }
      assert (E2 : vals = (pre ++ [(d0, y0)]) ++ (d1', y1') :: post) by (rewrite <- app_assoc; exact E). destruct (f_sorted_split _ _ _ _ SS E2) as [_ S3]. specialize (S3 _ J'). cbn in S3. lia. }
    injection Ej as -> ->. replace (d =? d0) with false by lia. unfold pos. rewrite X0. reflexivity.
Qed.

(** ---- C88 ---- *)
(** A curve can be built exactly when no knot lies before the reference date. *)
Theorem C88_built : forall kvs m c ref l r, axis_ok c ref (List.map fst kvs) ->
  ((forall d, In d (List.map fst kvs) -> ref <= d) <-> exists cv, f_new_curve kvs m c ref l r = Ok cv).
Proof.
  intros kvs m c ref l r (NT & Cr & Ck). split.
  - intros L. unfold f_new_curve. destruct (f_create_points c ref (sort_by fst kvs)) as [pts|e] eqn:E; [eexists; reflexivity|]. exfalso. unfold f_create_points in E. apply mapM_err in E. destruct E as (kv & I & E).
    apply (proj1 (f_in kvs _)) in I. apply (in_map fst) in I. rewrite (pos_ok c ref (fst kv) NT Cr (Ck _ I) (L _ I)) in E. discriminate.
  - intros (cv & H) d Hd. destruct (f_new_ok _ _ _ _ _ _ _ H) as (_ & _ & _ & _ & _ & _ & P). apply in_map_iff in Hd. destruct Hd as (kv & <- & I). apply f_in in I. destruct (Forall2_in_l _ _ _ _ P I) as (p & _ & [A _]). apply (axis_after _ _ _ _ A).
Qed.
Print Assumptions C88_built.

(** At a knot a linear or previous curve returns the knot's double, whatever its size. *)
Theorem C88_knots : forall spline kvs m c ref l r cv d y, m = LINEAR \/ m = PREVIOUS -> f_new_curve kvs m c ref l r = Ok cv ->
  NoDup (List.map fst kvs) -> axis_ok c ref (List.map fst kvs) -> In (d, y) kvs -> is_finite y = true ->
  exists x, f_interpolate spline cv d None = Ok x /\ feq x y = true.
Proof.
  intros spline kvs m c ref l r cv d y M H ND AX I F. destruct (looked_up spline kvs m c ref l r cv d y d M H ND AX I (or_introl eq_refl)) as (_ & _ & K & _).
  eexists. split; [apply K; left; reflexivity|]. apply (feq_val _ _ _ _ (keep y F) (conj F eq_refl)). reflexivity.
Qed.
Print Assumptions C88_knots.

(** Between knots a previous curve returns the double of the knot before. *)
Theorem C88_previous : forall spline kvs c ref l r cv d0 y0 d1 d, f_new_curve kvs PREVIOUS c ref l r = Ok cv ->
  NoDup (List.map fst kvs) -> axis_ok c ref (List.map fst kvs) -> In (d0, y0) kvs -> neighbouring (List.map fst kvs) d0 d1 -> d0 <= d < d1 -> is_finite y0 = true ->
  exists x, f_interpolate spline cv d None = Ok x /\ feq x y0 = true.
Proof.
  intros spline kvs c ref l r cv d0 y0 d1 d H ND AX I (_ & I1 & L1 & Adj) L F. apply in_map_iff in I1. destruct I1 as ([d1' y1] & E1 & I1). cbn in E1. subst d1'.
  destruct (looked_up spline kvs PREVIOUS c ref l r cv d0 y0 d (or_intror eq_refl) H ND AX I) as (_ & _ & K & _); [right; exists y1, d1; auto|].
  eexists. split; [apply K; right; reflexivity|]. apply (feq_val _ _ _ _ (keep y0 F) (conj F eq_refl)). reflexivity.
Qed.
Print Assumptions C88_previous.

(** Outside the knots: the end value, or ValueError, by the behaviour chosen for that end. *)
Theorem C88_ends : forall spline kvs m c ref l r cv d0 y0 d, f_new_curve kvs m c ref l r = Ok cv -> NoDup (List.map fst kvs) -> In (d0, y0) kvs -> is_finite y0 = true ->
  ((forall k, In k (List.map fst kvs) -> d0 <= k) -> d < d0 -> match l with CONSTANT => exists x, f_interpolate spline cv d None = Ok x /\ feq x y0 = true | ERROR => f_interpolate spline cv d None = Err ValueError end) /\
  ((forall k, In k (List.map fst kvs) -> k <= d0) -> d0 < d -> match r with CONSTANT => exists x, f_interpolate spline cv d None = Ok x /\ feq x y0 = true | ERROR => f_interpolate spline cv d None = Err ValueError end).
Proof.
  intros spline kvs m c ref l r cv d0 y0 d H ND I F. destruct (f_new_ok _ _ _ _ _ _ _ H) as (V & EM & EC & ER & EL & ERt & P). pose proof (f_sorted kvs ND) as SS. apply f_in in I.
  assert (K : feq (fadd y0 (of_int 0)) y0 = true) by (apply (feq_val _ _ _ _ (keep y0 F) (conj F eq_refl)); reflexivity).
  assert (Uq : forall kv, In kv (sort_by fst kvs) -> fst kv = d0 -> snd kv = y0).
  { intros [k yk] J E. cbn in E. subst k. destruct (in_split _ _ I) as (pre & post & Es). destruct (f_sorted_split _ _ _ _ SS Es) as [A B]. rewrite Es in J. apply in_app_or in J. destruct J as [J|[J|J]]; [specialize (A _ J); cbn in A; lia|injection J as <-; reflexivity|specialize (B _ J); cbn in B; lia]. }
  assert (Kn : forall kv, In kv (sort_by fst kvs) -> In (fst kv) (List.map fst kvs)) by (intros kv J; apply in_map, f_in, J).
  unfold f_interpolate. rewrite V, EL, ERt. destruct (sort_by fst kvs) as [|[fd fv] rest] eqn:Ev; [contradiction|]. pose proof (f_ends _ _ _ eq_refl SS _ I) as B.
  pose proof (@last_in f_knot ((fd, fv) :: rest) (fd, fv) ltac:(discriminate)) as Il. set (lst := @last f_knot ((fd, fv) :: rest) (fd, fv)) in *. change (fd <= d0 <= fst lst) in B. destruct lst as [ld lv] eqn:El. cbn [fst] in B.
  split; intros Ex Ld.
  - assert (fd = d0) by (specialize (Ex fd (Kn (fd, fv) ltac:(left; reflexivity))); lia). subst fd. pose proof (Uq (d0, fv) ltac:(left; reflexivity) eq_refl) as Ey. cbn in Ey. subst y0. replace (d <? d0) with true by lia. destruct l; [reflexivity|]. eexists. split; [reflexivity|exact K].
  - assert (ld = d0) by (specialize (Ex ld (Kn (ld, lv) Il)); lia). subst ld. pose proof (Uq (d0, lv) Il eq_refl) as Ey. cbn in Ey. subst y0. replace (d <? fd) with false by lia. replace (d0 <? d) with true by lia. destruct r; [reflexivity|]. eexists. split; [reflexivity|exact K].
Qed.
Print Assumptions C88_ends.

(** knot values within range, and two different neighbours not astronomically close *)
Definition in_range (y : f64) : Prop := is_finite y = true /\ (Rabs (B2R y) <= bpow radix2 900)%R.
Definition apart (y0 y1 : f64) : Prop := B2R y1 = B2R y0 \/ (bpow radix2 (-900) <= Rabs (B2R y1 - B2R y0))%R.

(** what a linear curve returns strictly between two neighbouring knots *)
Lemma inside spline kvs c ref l r cv d0 y0 d1 y1 d : f_new_curve kvs LINEAR c ref l r = Ok cv -> NoDup (List.map fst kvs) -> axis_ok c ref (List.map fst kvs) ->
  In (d0, y0) kvs -> In (d1, y1) kvs -> neighbouring (List.map fst kvs) d0 d1 -> d0 < d < d1 -> in_range y0 -> in_range y1 ->
  exists q0 q q1 v0 v v1, acc c ref d0 = Ok q0 /\ acc c ref d = Ok q /\ acc c ref d1 = Ok q1 /\ val (pos c ref d0) v0 /\ val (pos c ref d) v /\ val (pos c ref d1) v1 /\
    (Rabs (v0 - Q2R q0) <= 4 * u * Q2R q0)%R /\ (Rabs (v - Q2R q) <= 4 * u * Q2R q)%R /\ (Rabs (v1 - Q2R q1) <= 4 * u * Q2R q1)%R /\
    (0 <= Q2R q0)%R /\ (Q2R q0 + 1 / 133590 <= Q2R q)%R /\ (Q2R q + 1 / 133590 <= Q2R q1)%R /\ (Q2R q1 <= 100000)%R /\ (v0 <= v <= v1)%R /\ (v0 < v1)%R /\
    exists x, f_interpolate spline cv d None = Ok x /\ val x (seg (B2R y0) (B2R y1) v0 v1 v).
Proof.
  intros H ND AX I0 I1 (_ & _ & L01 & Adj) L [F0 M0] [F1 M1].
  destruct (looked_up spline kvs LINEAR c ref l r cv d0 y0 d (or_introl eq_refl) H ND AX I0) as (Lr & Cd & _ & K); [right; exists y1, d1; split; [exact I1|]; split; [lia|exact Adj]|].
  specialize (K eq_refl d1 y1 I1 L Adj). destruct AX as (NT & Cr & Ck).
  assert (C0 : countable c d0) by (apply Ck; apply (in_map fst _ _ I0)). assert (C1 : countable c d1) by (apply Ck; apply (in_map fst _ _ I1)).
  destruct (axis_three c ref d0 d d1 NT Cr C0 C1 Lr ltac:(lia)) as (q0 & q & q1 & x0 & x & x1 & v0 & v & v1 & A0 & A & A1 & F0' & F & F1' & V0 & V & V1 & E0 & E & E1 & P0 & P & G & Lv & Gd).
  assert (x0 = pos c ref d0) by (unfold pos; rewrite F0'; reflexivity). assert (x = pos c ref d) by (unfold pos; rewrite F; reflexivity). assert (x1 = pos c ref d1) by (unfold pos; rewrite F1'; reflexivity). subst x0 x x1.
  exists q0, q, q1, v0, v, v1. do 9 (split; [assumption|]). split; [lra|].
  split; [apply (axis_gap c ref d0 d q0 q NT Cr C0 Cd Lr ltac:(lia) A0 A)|]. split; [apply (axis_gap c ref d d1 q q1 NT Cr Cd C1 ltac:(lia) ltac:(lia) A A1)|]. split; [lra|]. split; [exact Lv|]. split; [lra|].
  pose proof (seg_val _ _ _ y0 y1 v0 v1 v _ _ V0 V1 V (conj F0 eq_refl) (conj F1 eq_refl) M0 M1 ltac:(lra) ltac:(lra) ltac:(lra)) as Sv.
  eexists. split; [exact K|]. destruct (keep _ (proj1 Sv)) as [Fk Ek]. split; [exact Fk|]. rewrite Ek. exact (proj2 Sv).
Qed.

(** Between two knots a linear curve stays between their values: it never overshoots, however the roundings fall. *)
Theorem C88_between : forall spline kvs c ref l r cv d0 y0 d1 y1 d, f_new_curve kvs LINEAR c ref l r = Ok cv -> NoDup (List.map fst kvs) -> axis_ok c ref (List.map fst kvs) ->
  In (d0, y0) kvs -> In (d1, y1) kvs -> neighbouring (List.map fst kvs) d0 d1 -> d0 <= d <= d1 -> in_range y0 -> in_range y1 -> apart y0 y1 ->
  exists x, f_interpolate spline cv d None = Ok x /\ is_finite x = true /\ (fle y0 y1 = true -> fle y0 x = true /\ fle x y1 = true) /\ (fle y1 y0 = true -> fle y1 x = true /\ fle x y0 = true).
Proof.
  intros spline kvs c ref l r cv d0 y0 d1 y1 d H ND AX I0 I1 Nb L R0 R1 Ap.
  assert (V0 : val y0 (B2R y0)) by (split; [apply R0|reflexivity]). assert (V1 : val y1 (B2R y1)) by (split; [apply R1|reflexivity]).
  assert (Fin : forall x v, f_interpolate spline cv d None = Ok x -> val x v -> (Rmin (B2R y0) (B2R y1) <= v <= Rmax (B2R y0) (B2R y1))%R ->
     exists x, f_interpolate spline cv d None = Ok x /\ is_finite x = true /\ (fle y0 y1 = true -> fle y0 x = true /\ fle x y1 = true) /\ (fle y1 y0 = true -> fle y1 x = true /\ fle x y0 = true)).
  { intros x v E V B. exists x. split; [exact E|]. split; [apply V|]. split; intros Lf; [apply (fle_val _ _ _ _ V0 V1) in Lf; rewrite Rmin_left, Rmax_right in B by exact Lf|apply (fle_val _ _ _ _ V1 V0) in Lf; rewrite Rmin_right, Rmax_left in B by exact Lf].
    - split; [apply (fle_val _ _ _ _ V0 V)|apply (fle_val _ _ _ _ V V1)]; apply B.
    - split; [apply (fle_val _ _ _ _ V1 V)|apply (fle_val _ _ _ _ V V0)]; apply B. }
  destruct (Z.eq_dec d d0) as [-> | N0].
  { destruct (C88_knots spline kvs LINEAR c ref l r cv d0 y0 (or_introl eq_refl) H ND AX I0 (proj1 R0)) as (x & E & Q). destruct (looked_up spline kvs LINEAR c ref l r cv d0 y0 d0 (or_introl eq_refl) H ND AX I0 (or_introl eq_refl)) as (_ & _ & K & _).
    apply (Fin _ _ (K (or_introl eq_refl)) (keep y0 (proj1 R0))). split; [apply Rmin_l|apply Rmax_l]. }
  destruct (Z.eq_dec d d1) as [-> | N1].
  { destruct (looked_up spline kvs LINEAR c ref l r cv d1 y1 d1 (or_introl eq_refl) H ND AX I1 (or_introl eq_refl)) as (_ & _ & K & _).
    apply (Fin _ _ (K (or_introl eq_refl)) (keep y1 (proj1 R1))). split; [apply Rmin_r|apply Rmax_r]. }
  destruct (inside spline kvs c ref l r cv d0 y0 d1 y1 d H ND AX I0 I1 Nb ltac:(lia) R0 R1) as (q0 & q & q1 & v0 & v & v1 & _ & _ & _ & X0 & X & X1 & E0 & E & E1 & P0 & P & P1 & Pm & Lv & Lt & x & Ex & Vx).
  apply (Fin x _ Ex Vx). destruct (seg_parts _ _ _ y0 y1 _ _ _ v0 v v1 _ _ X0 X1 X V0 V1 E0 E E1 P0 P P1 Pm (proj2 Lv) Ap) as (w & -> & _ & W & _).
  set (a := B2R y0) in *. set (b := B2R y1) in *. pose proof (val_format _ _ V0) as Ra. pose proof (val_format _ _ V1) as Rb. destruct (Rle_dec a b) as [Lab|Lab].
  - rewrite Rmin_left, Rmax_right by exact Lab. split; [apply Rle_trans with (rn a); [rewrite Ra; apply Rle_refl|]|apply Rle_trans with (rn b); [|rewrite Rb; apply Rle_refl]]; apply rn_le; nra.
  - rewrite Rmin_right, Rmax_left by lra. split; [apply Rle_trans with (rn b); [rewrite Rb; apply Rle_refl|]|apply Rle_trans with (rn a); [|rewrite Ra; apply Rle_refl]]; apply rn_le; nra.
Qed.
Print Assumptions C88_between.

(** Two knots with the same value: exactly that value in between. *)
Theorem C88_flat : forall spline kvs c ref l r cv d0 y0 d1 y1 d, f_new_curve kvs LINEAR c ref l r = Ok cv -> NoDup (List.map fst kvs) -> axis_ok c ref (List.map fst kvs) ->
  In (d0, y0) kvs -> In (d1, y1) kvs -> neighbouring (List.map fst kvs) d0 d1 -> d0 <= d <= d1 -> in_range y0 -> in_range y1 -> feq y0 y1 = true ->
  exists x, f_interpolate spline cv d None = Ok x /\ feq x y0 = true.
Proof.
  intros spline kvs c ref l r cv d0 y0 d1 y1 d H ND AX I0 I1 Nb L R0 R1 Q.
  assert (V0 : val y0 (B2R y0)) by (split; [apply R0|reflexivity]). assert (V1 : val y1 (B2R y1)) by (split; [apply R1|reflexivity]). apply (feq_val _ _ _ _ V0 V1) in Q.
  destruct (C88_between spline kvs c ref l r cv d0 y0 d1 y1 d H ND AX I0 I1 Nb L R0 R1 (or_introl (eq_sym Q))) as (x & E & F & A & _). exists x. split; [exact E|].
  destruct A as [A B]; [apply (fle_val _ _ _ _ V0 V1); lra|]. assert (Vx : val x (B2R x)) by (split; auto). apply (fle_val _ _ _ _ V0 Vx) in A. apply (fle_val _ _ _ _ Vx V1) in B. apply (feq_val _ _ _ _ Vx V0). lra.
Qed.
Print Assumptions C88_flat.

(** Along a rising segment later dates never have smaller values, along a falling one never larger ones. *)
Theorem C88_monotone : forall spline kvs c ref l r cv d0 y0 d1 y1 d d' x x', f_new_curve kvs LINEAR c ref l r = Ok cv -> NoDup (List.map fst kvs) -> axis_ok c ref (List.map fst kvs) ->
  In (d0, y0) kvs -> In (d1, y1) kvs -> neighbouring (List.map fst kvs) d0 d1 -> d0 <= d -> d <= d' -> d' <= d1 -> in_range y0 -> in_range y1 -> apart y0 y1 ->
  f_interpolate spline cv d None = Ok x -> f_interpolate spline cv d' None = Ok x' ->
  (fle y0 y1 = true -> fle x x' = true) /\ (fle y1 y0 = true -> fle x' x = true).
Proof.
  intros spline kvs c ref l r cv d0 y0 d1 y1 d d' x x' H ND AX I0 I1 Nb L0 L L1 R0 R1 Ap E E'.
  assert (V0 : val y0 (B2R y0)) by (split; [apply R0|reflexivity]). assert (V1 : val y1 (B2R y1)) by (split; [apply R1|reflexivity]).
  destruct (C88_between spline kvs c ref l r cv d0 y0 d1 y1 d H ND AX I0 I1 Nb ltac:(lia) R0 R1 Ap) as (z & Ez & Fz & A & B). assert (z = x) by congruence. subst z.
  destruct (C88_between spline kvs c ref l r cv d0 y0 d1 y1 d' H ND AX I0 I1 Nb ltac:(lia) R0 R1 Ap) as (z & Ez' & Fz' & A' & B'). assert (z = x') by congruence. subst z.
  assert (Vx : val x (B2R x)) by (split; auto). assert (Vx' : val x' (B2R x')) by (split; auto).
  assert (Tr : forall p q s a b e, val p a -> val q b -> val s e -> fle p q = true -> fle q s = true -> fle p s = true).
  { intros p q s a b e Hp Hq Hs G1 G2. apply (fle_val _ _ _ _ Hp Hs). apply (fle_val _ _ _ _ Hp Hq) in G1. apply (fle_val _ _ _ _ Hq Hs) in G2. lra. }
  assert (Kn : forall k y z, In (k, y) kvs -> is_finite y = true -> f_interpolate spline cv k None = Ok z -> val z (B2R y)).
  { intros k y z Hk Fy Hz. destruct (looked_up spline kvs LINEAR c ref l r cv k y k (or_introl eq_refl) H ND AX Hk (or_introl eq_refl)) as (_ & _ & K & _). specialize (K (or_introl eq_refl)). assert (z = fadd y (of_int 0)) by congruence. subst z. apply keep. exact Fy. }
  destruct (Z.eq_dec d d0) as [-> | N0].
  { pose proof (Kn _ _ _ I0 (proj1 R0) E) as Vk. split; intros Q; [destruct (A' Q) as [G _]; apply (fle_val _ _ _ _ V0 Vx') in G; apply (fle_val _ _ _ _ Vk Vx'); exact G|destruct (B' Q) as [_ G]; apply (fle_val _ _ _ _ Vx' V0) in G; apply (fle_val _ _ _ _ Vx' Vk); exact G]. }
  destruct (Z.eq_dec d' d1) as [-> | N1].
  { pose proof (Kn _ _ _ I1 (proj1 R1) E') as Vk. split; intros Q; [destruct (A Q) as [_ G]; apply (fle_val _ _ _ _ Vx V1) in G; apply (fle_val _ _ _ _ Vx Vk); exact G|destruct (B Q) as [G _]; apply (fle_val _ _ _ _ V1 Vx) in G; apply (fle_val _ _ _ _ Vk Vx); exact G]. }
  destruct (inside spline kvs c ref l r cv d0 y0 d1 y1 d H ND AX I0 I1 Nb ltac:(lia) R0 R1) as (q0 & q & q1 & v0 & v & v1 & A0 & Aq & A1 & X0 & X & X1 & E0 & Eq & E1 & P0 & P & P1 & Pm & Lv & Lt & z & Ex & Vz). assert (z = x) by congruence. subst z.
  destruct (inside spline kvs c ref l r cv d0 y0 d1 y1 d' H ND AX I0 I1 Nb ltac:(lia) R0 R1) as (q0' & q' & q1' & v0' & v' & v1' & _ & _ & _ & X0' & X' & X1' & _ & _ & _ & _ & _ & _ & _ & Lv' & _ & z & Ex' & Vz'). assert (z = x') by congruence. subst z.
  assert (v0' = v0) by exact (val_fun _ _ _ X0' X0). assert (v1' = v1) by exact (val_fun _ _ _ X1' X1). subst v0' v1'.
  destruct (looked_up spline kvs LINEAR c ref l r cv d0 y0 d0 (or_introl eq_refl) H ND AX I0 (or_introl eq_refl)) as (Lr & _). destruct AX as (NT & Cr & Ck). destruct Nb as (K0 & K1 & _ & _).
  assert (Cd : countable c d) by (apply (countable_between c d0 d1); [apply Ck; exact K0|apply Ck; exact K1|lia]). assert (Cd' : countable c d') by (apply (countable_between c d0 d1); [apply Ck; exact K0|apply Ck; exact K1|lia]).
  assert (Lvv : (v <= v')%R). { apply (fle_val _ _ _ _ X X'). rewrite (proj1 (axis_order c ref d d' _ _ NT Cr Cd Cd' (pos_ok c ref d NT Cr Cd ltac:(lia)) (pos_ok c ref d' NT Cr Cd' ltac:(lia)))). lia. }
  destruct (seg_mono (B2R y0) (B2R y1) v0 v1 v v' (val_format _ _ V0) Lt (proj1 Lv) Lvv) as (Up & Dn).
  split; intros Q; [apply (fle_val _ _ _ _ V0 V1) in Q; apply (fle_val _ _ _ _ Vz Vz'); apply Up; exact Q|apply (fle_val _ _ _ _ V1 V0) in Q; apply (fle_val _ _ _ _ Vz' Vz); apply Dn; exact Q].
Qed.
Print Assumptions C88_monotone.

(** Beside the exact curve through the same knots: how far the doubles are off. *)
Theorem C88_accuracy : forall spline spline' kvs c ref l r cv cvE d0 y0 d1 y1 d t0 t1 e, f_new_curve kvs LINEAR c ref l r = Ok cv ->
  new_curve (List.map (fun kv => (fst kv, B2R (snd kv))) kvs) LINEAR c (Some ref) l r = Ok cvE ->
  NoDup (List.map fst kvs) -> axis_ok c ref (List.map fst kvs) -> In (d0, y0) kvs -> In (d1, y1) kvs -> neighbouring (List.map fst kvs) d0 d1 -> d0 < d < d1 -> in_range y0 -> in_range y1 -> apart y0 y1 ->
  accrual c ref d0 t0 -> accrual c ref d1 t1 -> interpolate spline' cvE d None = Ok e ->
  exists x, f_interpolate spline cv d None = Ok x /\
    (Rabs (B2R x - e) <= / 2 ^ 48 * ((Q2R t1 / (Q2R t1 - Q2R t0) + 1) * Rabs (B2R y1 - B2R y0) + Rabs (B2R y0)))%R.
Proof.
  intros spline spline' kvs c ref l r cv cvE d0 y0 d1 y1 d t0 t1 e H HE ND AX I0 I1 Nb L R0 R1 Ap T0 T1 Ie.
  assert (V0 : val y0 (B2R y0)) by (split; [apply R0|reflexivity]). assert (V1 : val y1 (B2R y1)) by (split; [apply R1|reflexivity]).
  destruct (inside spline kvs c ref l r cv d0 y0 d1 y1 d H ND AX I0 I1 Nb L R0 R1) as (q0 & q & q1 & v0 & v & v1 & A0 & Aq & A1 & X0 & X & X1 & E0 & Eq & E1 & P0 & P & P1 & Pm & Lv & Lt & x & Ex & Vx).
  assert (t0 = q0) by (unfold accrual, acc in *; congruence). assert (t1 = q1) by (unfold accrual, acc in *; congruence). subst t0 t1.
  destruct (seg_parts _ _ _ y0 y1 _ _ _ v0 v v1 _ _ X0 X1 X V0 V1 E0 Eq E1 P0 P P1 Pm (proj2 Lv) Ap) as (w & Sw & Fw & W & Ew).
  set (kE := List.map (fun kv : f_knot => (fst kv, B2R (snd kv))) kvs) in *.
  assert (Kk : knots kE = List.map fst kvs) by (unfold knots, kE; rewrite map_map; apply map_ext; reflexivity).
  assert (Rf : c_ref cvE = ref) by (apply new_curve_ok in HE; destruct HE as (_ & _ & _ & _ & _ & HR & _); apply HR; reflexivity).
  destruct (looked_up spline kvs LINEAR c ref l r cv d0 y0 d (or_introl eq_refl) H ND AX I0) as (_ & Cd & _); [right; exists y1, d1; split; [exact I1|]; split; [lia|apply Nb]|].
  destruct AX as (NT & Cr & Ck).
  destruct (C26_between_knots spline' kE c (Some ref) l r cvE d0 (B2R y0) d1 (B2R y1) d q0 q q1 HE) as (e' & Ie' & Fe & _).
  - rewrite Kk. exact ND.
  - rewrite Kk, Rf. apply C26_actual_separates; [exact NT|exact Cr|]. intros k [<- | Hk]; [exact Cd|apply Ck; exact Hk].
  - apply in_map_iff. exists (d0, y0). split; [reflexivity|exact I0].
  - apply in_map_iff. exists (d1, y1). split; [reflexivity|exact I1].
  - exact L.
  - rewrite Kk. apply Nb.
  - rewrite Rf. exact A0.
  - rewrite Rf. exact Aq.
  - rewrite Rf. exact A1.
  - assert (Ee : e = e') by congruence. exists x. split; [exact Ex|]. destruct Vx as [_ ->]. rewrite Sw, Ee, Fe. rewrite !Q2R_minus.
    set (a := B2R y0) in *. set (b := B2R y1) in *. set (g := ((Q2R q - Q2R q0) / (Q2R q1 - Q2R q0))%R) in *. set (k := (Q2R q1 / (Q2R q1 - Q2R q0))%R) in *.
    assert (U48 : (/ 2 ^ 48 = 32 * u)%R) by (unfold u; change (bpow radix2 (-53)) with (/ 9007199254740992)%R; lra). rewrite U48.
    assert (K1 : (1 <= k)%R) by (unfold k; apply Rmult_le_reg_r with (Q2R q1 - Q2R q0)%R; [lra|]; unfold Rdiv; rewrite Rmult_assoc, Rinv_l by lra; lra).
    assert (U : (0 < u)%R) by apply u_small.
    pose proof (rn_plus_format _ _ Fw (val_format _ _ V0)) as Er.
    assert (Aw : (Rabs ((b - a) * w + a) <= Rabs (b - a) + Rabs a)%R). { apply Rle_trans with (1 := Rabs_triang _ _). rewrite Rabs_mult, (Rabs_pos_eq w) by lra. pose proof (Rabs_pos (b - a)). nra. }
    replace (rn ((b - a) * w + a) - (a + (b - a) * g))%R with ((rn ((b - a) * w + a) - ((b - a) * w + a)) + (b - a) * (w - g))%R by ring.
    apply Rle_trans with (1 := Rabs_triang _ _). rewrite (Rabs_mult (b - a)). pose proof (Rabs_pos (b - a)) as Pb. pose proof (Rabs_pos a) as Pa. set (B := Rabs (b - a)) in *. set (A := Rabs a) in *.
    assert (B * Rabs (w - g) <= B * (26 * u * k))%R by (apply Rmult_le_compat_l; assumption). assert (u * Rabs ((b - a) * w + a) <= u * (B + A))%R by (apply Rmult_le_compat_l; lra).
    assert (0 <= u * B)%R by (apply Rmult_le_pos; lra). assert (0 <= u * A)%R by (apply Rmult_le_pos; lra). assert (u * B * 1 <= u * B * k)%R by (apply Rmult_le_compat_l; lra).
    replace (32 * u * ((k + 1) * B + A))%R with (32 * (u * B * k) + 32 * (u * B) + 32 * (u * A))%R by ring. replace (B * (26 * u * k))%R with (26 * (u * B * k))%R in H0 by ring. lra.
Qed.
Print Assumptions C88_accuracy.

(** Linear interpolation in doubles need not be exact where the exact value is a double: three units over three days, after one. *)
Definition three_days : list f_knot := [(738521, of_int 0); (738524, of_int 3)].
Definition no_spline : interp_method -> list (f64 * f64) -> f64 -> f64 := fun _ _ x => x.
Definition three_curve : res f_curve := f_new_curve three_days LINEAR ACT365 738521 ERROR ERROR.
Theorem C88_exact_refuted : exists cv x, f_new_curve three_days LINEAR ACT365 738521 ERROR ERROR = Ok cv /\ f_interpolate no_spline cv 738522 None = Ok x /\ flt (of_int 1) x = true.
Proof.
  assert (E : exists cv, f_new_curve three_days LINEAR ACT365 738521 ERROR ERROR = Ok cv).
  { apply C88_built; [|intros d [<- | [<- | []]]; cbn [fst]; lia]. split; [discriminate|]. split; [split; [unfold date_ok, min_date, max_date; cbn; lia|discriminate]|]. intros d [<- | [<- | []]]; cbn [fst]; (split; [unfold date_ok, min_date, max_date; cbn; lia|discriminate]). }
  destruct E as (cv & E). exists cv. exists (ok_or (f_interpolate no_spline cv 738522 None)). split; [exact E|].
  assert (E' : (do cv <- f_new_curve three_days LINEAR ACT365 738521 ERROR ERROR; f_interpolate no_spline cv 738522 None) = f_interpolate no_spline cv 738522 None) by (rewrite E; reflexivity).
  rewrite <- E'. split; [apply ok_eq; vm_compute; reflexivity|vm_compute; reflexivity].
Qed.
Print Assumptions C88_exact_refuted.

Example C88_case : axis_ok ACT365 738521 (List.map fst three_days) /\ NoDup (List.map fst three_days) /\ neighbouring (List.map fst three_days) 738521 738524 /\
  in_range (of_int 0) /\ in_range (of_int 3) /\ apart (of_int 0) (of_int 3) /\ (exists cv, f_new_curve three_days LINEAR ACT365 738521 ERROR ERROR = Ok cv) /\
  exists cvE e, new_curve (List.map (fun kv => (fst kv, B2R (snd kv))) three_days) LINEAR ACT365 (Some 738521) ERROR ERROR = Ok cvE /\ interpolate (fun _ _ _ => 0%R) cvE 738522 None = Ok e.
Proof.
  assert (AX : axis_ok ACT365 738521 (List.map fst three_days)).
  { split; [discriminate|]. split; [split; [unfold date_ok, min_date, max_date; cbn; lia|discriminate]|]. intros d [<- | [<- | []]]; cbn [fst]; (split; [unfold date_ok, min_date, max_date; cbn; lia|discriminate]). }
  destruct (of_int_val 0 ltac:(lia)) as [F0 E0]. destruct (of_int_val 3 ltac:(lia)) as [F3 E3].
  assert (B : (bpow radix2 (-900) <= 3 <= bpow radix2 900)%R). { split; [apply Rle_trans with (bpow radix2 1); [apply bpow_le; lia|change (bpow radix2 1) with 2%R; lra]|apply Rle_trans with (bpow radix2 2); [change (bpow radix2 2) with 4%R; lra|apply bpow_le; lia]]. }
  split; [exact AX|]. split; [repeat constructor; cbn; intuition lia|]. split; [split; [left; reflexivity|]; split; [right; left; reflexivity|]; split; [lia|]; intros x [<- | [<- | []]]; cbn [fst]; lia|].
  split; [split; [exact F0|rewrite E0, Rabs_R0; lra]|]. split; [split; [exact F3|rewrite E3, Rabs_pos_eq; lra]|]. split; [right; rewrite E3, E0, Rminus_0_r, Rabs_pos_eq; lra|].
  split; [apply (C88_built three_days LINEAR ACT365 738521 ERROR ERROR AX); intros d [<- | [<- | []]]; cbn [fst]; lia|].
  eexists. eexists. split; [unfold three_days; cbn [List.map fst snd]; reflexivity|reflexivity].
Qed.
