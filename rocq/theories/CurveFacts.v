(** Facts about the curve model. *)
From Verif Require Import Base PyDate PyDateFacts DayCount DayCountFacts PyList KeyRate KeyRateFacts Curve.
From Coq Require Import Sorting.Sorted Permutation Lra Lqa.
Open Scope Z_scope.
Ltac lra := first [Lra.lra | Lqa.lra].
Ltac nra := first [Lra.nra | Lqa.nra].

Lemma mapM_Forall2 {A B} (f : A -> res B) l : forall l', mapM f l = Ok l' <-> Forall2 (fun a b => f a = Ok b) l l'.
Proof.
  induction l as [|a l IH]; intros l'; cbn.
  - split; [intros [= <-]; constructor | intros H; inversion H; auto].
  - destruct (f a) as [b|e] eqn:E; cbn.
    + destruct (mapM f l) as [bs|e] eqn:E2; cbn.
      * split; [intros [= <-]; constructor; [auto | apply IH; auto] | intros H; inversion H; subst].
        apply IH in H4. congruence.
      * split; [discriminate | intros H; inversion H; subst]. apply IH in H4. discriminate.
    + split; [discriminate | intros H; inversion H; subst; congruence].
Qed.

Lemma mapM_err {A B} (f : A -> res B) l e : mapM f l = Err e -> exists a, In a l /\ f a = Err e.
Proof.
  induction l as [|a l IH]; cbn; [discriminate|]. destruct (f a) as [b|e'] eqn:E; cbn.
  - destruct (mapM f l) as [bs|e'] eqn:E2; cbn; [discriminate|]. intros [= <-]. destruct IH as (a' & I & H); auto. exists a'; auto.
  - intros [= <-]. exists a; auto.
Qed.

Lemma mapM_ext {A B} (f g : A -> res B) l : (forall a, In a l -> f a = g a) -> mapM f l = mapM g l.
Proof. induction l as [|a l IH]; cbn; intros H; [auto|]. rewrite (H a), IH by auto. auto. Qed.

(** The points of a curve correspond to its values. *)
Definition is_point (c : dcc) (ref : date) (kv : knot_value) (p : Q * R) : Prop :=
  axis c ref (fst kv) = Ok (fst p) /\ snd p = snd kv.

Lemma make_interp1d_ok m pts pts' : make_interp1d m pts = Ok pts' -> pts' = pts.
Proof. destruct m; cbn; try (intros [= <-]; auto; fail); destruct (_ && _); intros [= <-]; auto. Qed.

Lemma combine_points c ref vals : forall xs, Forall2 (fun kv x => axis c ref (fst kv) = Ok x) vals xs ->
  Forall2 (is_point c ref) vals (combine xs (List.map snd vals)).
Proof. induction vals as [|kv vals IH]; intros xs H; inversion H; subst; cbn; constructor; [split; auto | auto]. Qed.

Lemma create_points_ok m c ref vals pts : create_points m c ref vals = Ok pts -> Forall2 (is_point c ref) vals pts.
Proof.
  unfold create_points. match goal with |- bind ?x _ = _ -> _ => destruct x as [xs|e] eqn:E end; cbn [bind]; [|discriminate].
  intros H. apply make_interp1d_ok in H. subst. apply mapM_Forall2 in E. apply combine_points, E.
Qed.

Lemma new_curve_ok vals m c oref l r cv : new_curve vals m c oref l r = Ok cv ->
  c_values cv = sort_by fst vals /\ c_method cv = m /\ c_dcc cv = c /\ c_left cv = l /\ c_right cv = r /\
  (forall ref, oref = Some ref -> c_ref cv = ref) /\
  Forall2 (is_point c (c_ref cv)) (c_values cv) (c_pts cv).
Proof.
  unfold new_curve. destruct oref as [ref|].
  - cbn. destruct (create_points m c ref _) as [pts|e] eqn:E; cbn; [|discriminate]. intros [= <-]. cbn.
    repeat split; auto; [congruence|]. eapply create_points_ok; eauto.
  - destruct (sort_by fst vals) as [|kv vs] eqn:V; cbn; [discriminate|].
    destruct (create_points m c (fst kv) _) as [pts|e] eqn:E; cbn; [|discriminate]. intros [= <-]. cbn.
    repeat split; auto; [discriminate|]. eapply create_points_ok; eauto.
Qed.

(** dates on which accruals from [ref] increase strictly *)
Definition rising (c : dcc) (ref : date) (l : list date) : Prop :=
  forall d d' t t', In d l -> In d' l -> d < d' -> axis c ref d = Ok t -> axis c ref d' = Ok t' -> (t < t')%Q.

Lemma rising_incl c ref l l' : rising c ref l -> incl l' l -> rising c ref l'.
Proof. intros H I d d' t t' A B. apply H; auto. Qed.

(** the accruals of Actual conventions always do *)
Lemma rising_clock c ok phi k ref l : has_clock c ok phi k -> ok ref -> (forall d, In d l -> ok d) -> rising c ref l.
Proof.
  intros (Hk & Ha & Hm) Hr Hok d d' t t' I I' L E E'. unfold axis in *.
  assert (A : forall x t, acc c ref x = Ok t -> ref <= x).
  { intros x u Eu. destruct (Z_le_gt_dec ref x); auto. unfold acc in Eu. rewrite compute_days_ge in Eu by lia. discriminate. }
  pose proof (A _ _ E). pose proof (A _ _ E').
  destruct (Ha ref d Hr ltac:(auto) (Hok _ I)) as (q & Eq & V). destruct (Ha ref d' Hr ltac:(auto) (Hok _ I')) as (q' & Eq' & V').
  rewrite E in Eq. rewrite E' in Eq'. injection Eq as <-. injection Eq' as <-. rewrite V, V'. specialize (Hm d d' L).
  apply Qmult_lt_l; auto. lra.
Qed.

(** ---- interpolation of sorted points ---- *)
Definition le_all (l : list (Q * R)) (x : Q) : Prop := Forall (fun p => (fst p <= x)%Q) l.
Definition next_gt (l : list (Q * R)) (x : Q) : Prop := match l with [] => True | q :: _ => (x < fst q)%Q end.

Lemma Qle_bool_false a b : Qle_bool a b = false <-> (b < a)%Q.
Proof.
  split; intros H.
  - apply Qnot_le_lt. intros C. apply Qle_bool_iff in C. congruence.
  - destruct (Qle_bool a b) eqn:E; auto. apply Qle_bool_iff in E. lra.
Qed.

Lemma scan pre : forall p0 rest p post x, p0 :: rest = pre ++ p :: post -> le_all (pre ++ [p]) x -> next_gt post x ->
  np_previous p0 rest x = snd p /\
  np_interp p0 rest x = match post with
                        | [] => snd p
                        | q :: _ => if Qeq_bool (fst p) x then snd p
                                    else ((snd q - snd p) / Q2R (fst q - fst p) * Q2R (x - fst p) + snd p)%R
                        end.
Proof.
  induction pre as [|p' pre IH]; intros p0 rest p post x E L N; cbn in E; injection E as -> ->.
  - destruct post as [|q post]; cbn; [auto|]. cbn in N. apply Qle_bool_false in N. rewrite N. auto.
  - destruct (pre ++ p :: post) as [|p1 rest'] eqn:E; [destruct pre; discriminate|].
    assert (B : Qle_bool (fst p1) x = true).
    { apply Qle_bool_iff. unfold le_all in L. rewrite Forall_forall in L. apply L. cbn.
      right. destruct pre as [|p2 pre]; cbn in E; injection E as <- _; cbn; auto. }
    cbn. rewrite B. apply (IH p1 rest' p post x); auto. unfold le_all in *. cbn in L. inversion L; auto.
Qed.

(** ---- positions of sorted values ---- *)
Lemma sorted_split (vals : list knot_value) (pre post : list knot_value) kv :
  StronglySorted Z.lt (List.map fst vals) -> vals = pre ++ kv :: post ->
  (forall x, In x pre -> fst x < fst kv) /\ (forall x, In x post -> fst kv < fst x).
Proof.
  intros S1 ->. induction pre as [|y pre IH]; cbn in S1; inversion S1 as [|? ? H1 H2]; subst.
  - split; [intros x []|]. intros x I. rewrite Forall_forall in H2. apply H2. apply in_map, I.
  - destruct (IH H1) as [A B]. split; auto. intros x [<-|I]; auto. rewrite Forall_forall in H2. apply H2.
    apply in_map, in_or_app. right; left; auto.
Qed.

Lemma sort_vals_lt (vals : list knot_value) : NoDup (List.map fst vals) -> StronglySorted Z.lt (List.map fst (sort_by fst vals)).
Proof.
  intros N. apply sorted_le_lt; [apply sort_by_sorted|].
  eapply Permutation_NoDup; [|exact N]. apply Permutation_map, Permutation_sym, sort_by_perm.
Qed.

Lemma Forall2_split {A B} (P : A -> B -> Prop) l1 a l2 l' : Forall2 P (l1 ++ a :: l2) l' ->
  exists l1' b l2', l' = l1' ++ b :: l2' /\ Forall2 P l1 l1' /\ P a b /\ Forall2 P l2 l2'.
Proof.
  intros H. apply Forall2_app_inv_l in H. destruct H as (l1' & l2' & H1 & H2 & ->). inversion H2; subst.
  exists l1', y, l'. auto.
Qed.

Lemma Forall2_in_l {A B} (P : A -> B -> Prop) l l' a : Forall2 P l l' -> In a l -> exists b, In b l' /\ P a b.
Proof. induction 1 as [|x y l l' H F IH]; cbn; intros []; subst; eauto. destruct IH as (b & I & Hb); eauto. Qed.

Lemma Forall2_in_r {A B} (P : A -> B -> Prop) l l' b : Forall2 P l l' -> In b l' -> exists a, In a l /\ P a b.
Proof. induction 1 as [|x y l l' H F IH]; cbn; intros []; subst; eauto. destruct IH as (a & I & Hb); eauto. Qed.

Lemma last_in {A} (l : list A) d : l <> [] -> In (last l d) l.
Proof. induction l as [|a l IH]; [congruence|]. intros _. destruct l as [|b l]; [left; auto|]. right. apply IH. discriminate. Qed.

Lemma last_split {A} (l : list A) a d : last (l ++ [a]) d = a.
Proof. induction l as [|b l IH]; cbn; [auto|]. destruct (l ++ [a]) eqn:E; [destruct l; discriminate|]. auto. Qed.

Lemma last_indep {A} (l : list A) d d' : l <> [] -> last l d = last l d'.
Proof. induction l as [|a l IH]; [congruence|]. intros _. destruct l as [|b l]; [auto|]. apply IH. discriminate. Qed.

Lemma last_app {A} (l l' : list A) d : l' <> [] -> last (l ++ l') d = last l' d.
Proof.
  intros H. induction l as [|b l IH]; cbn; [auto|]. destruct (l ++ l') eqn:E; [destruct l; [cbn in E; subst; congruence|discriminate]|].
  auto.
Qed.

(** A well-formed curve: as left by the constructor or a successful reset. *)
Definition wf (cv : curve) : Prop :=
  c_values cv <> [] /\ StronglySorted Z.lt (List.map fst (c_values cv)) /\
  Forall2 (is_point (c_dcc cv) (c_ref cv)) (c_values cv) (c_pts cv).

Lemma locate_before (vals : list knot_value) d kv0 : In kv0 vals -> fst kv0 <= d -> StronglySorted Z.lt (List.map fst vals) ->
  exists pre (kv : knot_value) post, vals = pre ++ kv :: post /\ fst kv <= d /\ match post with [] => True | kv' :: _ => d < fst kv' end.
Proof.
  revert kv0. induction vals as [|a vals IH]; intros kv0 I L S1; [contradiction|].
  cbn in S1. inversion S1 as [|? ? H1 H2]; subst. rewrite Forall_forall in H2.
  destruct vals as [|b vals].
  - exists [], a, []. destruct I as [->|[]]. auto.
  - destruct (Z_le_gt_dec (fst b) d).
    + destruct (IH b ltac:(left; auto) l H1) as (pre & kv & post & E & A & B). exists (a :: pre), kv, post. cbn. rewrite E. auto.
    + exists [], a, (b :: vals). repeat split; [|lia]. destruct I as [->|I]; auto. specialize (H2 (fst kv0) (in_map fst _ _ I)). lia.
Qed.

Section S.
Context (spline : interp_method -> list (Q * R) -> Q -> R).

Lemma interior cv d a t : wf cv -> (exists kv, In kv (c_values cv) /\ fst kv <= d) -> (exists kv, In kv (c_values cv) /\ d <= fst kv) ->
  axis (c_dcc cv) (c_ref cv) d = Ok t ->
  interpolate spline cv d a = do v <- interp1d spline (c_method cv) (c_pts cv) t; do x <- adj_call a (ADate d); Ok (v + x)%R.
Proof.
  intros (NE & SS & F) (k1 & I1 & L1) (k2 & I2 & L2) E. unfold interpolate. destruct (c_values cv) as [|kv vals] eqn:V; [congruence|].
  destruct kv as [fd fv]. match goal with |- context [last ?a ?b] => destruct (last a b) as [ld lv] eqn:La end.
  assert (fd <= d).
  { cbn in SS. inversion SS as [|? ? H1 H2]; subst. rewrite Forall_forall in H2. destruct I1 as [<-|I1]; [cbn in *; lia|].
    specialize (H2 (fst k1) (in_map fst _ _ I1)). lia. }
  assert (d <= ld).
  { destruct (exists_last NE) as (vs & kl & El). rewrite El, last_split in La. subst kl. rewrite El in I2, SS.
    apply in_app_or in I2. destruct I2 as [I2|[<-|[]]]; [|cbn in *; lia].
    destruct (sorted_split _ vs [] (ld, lv) SS eq_refl) as [A _]. specialize (A k2 I2). cbn in A. lia. }
  replace (d <? fd) with false by lia. replace (ld <? d) with false by lia.
  unfold date_to_interpolation_axis. rewrite E. reflexivity.
Qed.

Lemma interp1d_ok cv d t : wf cv -> (exists kv, In kv (c_values cv) /\ fst kv <= d) -> (exists kv, In kv (c_values cv) /\ d <= fst kv) ->
  axis (c_dcc cv) (c_ref cv) d = Ok t -> rising (c_dcc cv) (c_ref cv) (d :: List.map fst (c_values cv)) ->
  exists v, interp1d spline (c_method cv) (c_pts cv) t = Ok v.
Proof.
  intros (NE & SS & F) (k1 & I1 & L1) (k2 & I2 & L2) E Ri. unfold interp1d.
  destruct (c_pts cv) as [|p0 rest] eqn:P; [inversion F; congruence|].
  destruct (exists_last NE) as (vs & kl & El). rewrite El in F. pose proof F as F0. apply Forall2_split in F0.
  destruct F0 as (pl & q & pr & E2 & F1 & [A1 A2] & F2). inversion F2; subst pr. rewrite E2, last_split.
  destruct (sorted_split _ vs [] kl SS El) as [Sl _].
  destruct (c_values cv) as [|kv0 vals] eqn:V; [congruence|]. rewrite <- El in F. inversion F as [|? ? ? ? [B1 B2] F3]; subst.
  assert (C1 : Qle_bool (fst p0) t = true).
  { apply Qle_bool_iff. destruct (Z.eq_dec (fst kv0) d) as [X|X]; [rewrite X in B1; rewrite E in B1; injection B1 as ->; lra|].
    apply Qlt_le_weak. apply (Ri (fst kv0) d); auto; [right; left; auto | left; auto |].
    cbn in SS. inversion SS as [|? ? H1 H2]; subst. rewrite Forall_forall in H2. destruct I1 as [<-|I1]; [cbn in *; lia|].
    specialize (H2 (fst k1) (in_map fst _ _ I1)). lia. }
  assert (C2 : Qle_bool t (fst q) = true).
  { apply Qle_bool_iff. destruct (Z.eq_dec (fst kl) d) as [X|X]; [rewrite X in A1; rewrite E in A1; injection A1 as ->; lra|].
    apply Qlt_le_weak. apply (Ri d (fst kl)); auto; [left; auto | right; apply in_map; rewrite El; apply in_or_app; right; left; auto |].
    rewrite El in I2. apply in_app_or in I2. destruct I2 as [I2|[<-|[]]]; [specialize (Sl _ I2); lia | lia]. }
  rewrite C1, C2. cbn. eauto.
Qed.

(** the interpolated value at a date located among the knots *)
Lemma interp_located cv d t pre kv post : wf cv -> c_values cv = pre ++ kv :: post -> fst kv <= d ->
  match post with [] => d = fst kv | kv' :: _ => d < fst kv' end ->
  axis (c_dcc cv) (c_ref cv) d = Ok t -> rising (c_dcc cv) (c_ref cv) (d :: List.map fst (c_values cv)) ->
  exists t0, axis (c_dcc cv) (c_ref cv) (fst kv) = Ok t0 /\ (t0 <= t)%Q /\ (fst kv < d -> (t0 < t)%Q) /\
  (c_method cv = PREVIOUS -> interp1d spline (c_method cv) (c_pts cv) t = Ok (snd kv)) /\
  (c_method cv = LINEAR -> fst kv = d -> interp1d spline (c_method cv) (c_pts cv) t = Ok (snd kv)) /\
  (c_method cv = LINEAR -> fst kv < d -> forall kv' post', post = kv' :: post' ->
     exists t1, axis (c_dcc cv) (c_ref cv) (fst kv') = Ok t1 /\ (t < t1)%Q /\
     interp1d spline (c_method cv) (c_pts cv) t = Ok ((snd kv' - snd kv) / Q2R (t1 - t0) * Q2R (t - t0) + snd kv)%R).
Proof.
  intros W E L LP Ea Ri. destruct (interp1d_ok cv d t W) as (v & Hv); auto.
  { exists kv. rewrite E. split; auto. apply in_or_app; right; left; auto. }
  { destruct post as [|kv' post]; [exists kv | exists kv']; (split; [rewrite E; apply in_or_app; right; cbn; auto | lia]). }
  destruct W as (NE & SS & F). destruct (sorted_split _ _ _ _ SS E) as [S1 S2].
  pose proof F as F'. rewrite E in F'. apply Forall2_split in F'. destruct F' as (pp & p & pq & EP & F1 & [A1 A2] & F2).
  assert (ge : forall x u, In x (c_values cv) -> axis (c_dcc cv) (c_ref cv) (fst x) = Ok u -> fst x <= d -> (u <= t)%Q /\ (fst x < d -> (u < t)%Q)).
  { intros x u I Hu Hx. destruct (Z.eq_dec (fst x) d) as [X|X].
    - rewrite X in Hu. rewrite Ea in Hu. injection Hu as ->. split; [lra | lia].
    - assert ((u < t)%Q) by (apply (Ri (fst x) d); auto; [right; apply in_map; auto | left; auto | lia]). split; [lra | auto]. }
  assert (Ikv : In kv (c_values cv)) by (rewrite E; apply in_or_app; right; left; auto).
  destruct (ge kv (fst p) Ikv A1 L) as [G1 G2].
  assert (LA : le_all (pp ++ [p]) t).
  { apply Forall_forall. intros q I. apply in_app_or in I. destruct I as [I|[<-|[]]]; [|auto].
    destruct (Forall2_in_r _ _ _ _ F1 I) as (x & Ix & [X1 X2]). apply (ge x (fst q)); auto; [rewrite E; apply in_or_app; auto|].
    specialize (S1 x Ix). lia. }
  assert (NG : next_gt pq t).
  { destruct pq as [|q pq]; cbn; [auto|]. inversion F2 as [|kv' ? post' ? [X1 X2] F3]; subst.
    apply (Ri d (fst kv')); auto; [left; auto | right; apply in_map; rewrite E; apply in_or_app; right; right; left; auto]. }
  exists (fst p). split; [auto|]. split; [auto|]. split; [auto|].
  unfold interp1d in *. destruct (c_pts cv) as [|p0 rest] eqn:P; [destruct pp; discriminate|].
  destruct (_ || _); [discriminate|]. destruct (scan pp p0 rest p pq t EP LA NG) as [Sp Si].
  split; [intros ->; rewrite Sp, A2; auto|]. split.
  - intros -> Eq. rewrite Si. rewrite <- Eq in Ea. rewrite A1 in Ea. injection Ea as <-.
    destruct pq; [rewrite A2; auto|]. rewrite Qeq_bool_refl, A2. auto.
  - intros -> Lt kv' post' ->. inversion F2 as [|? q ? pq' [X1 X2] F3]; subst. exists (fst q). split; [auto|]. split; [exact NG|].
    rewrite Si. destruct (Qeq_bool (fst p) t) eqn:B; [apply Qeq_bool_iff in B; specialize (G2 Lt); lra|].
    rewrite A2, X2. auto.
Qed.
End S.

Lemma between_values (a b : R) (t0 t t1 : Q) : (t0 <= t)%Q -> (t < t1)%Q -> (t0 < t1)%Q ->
  (Rmin a b <= (b - a) / Q2R (t1 - t0) * Q2R (t - t0) + a <= Rmax a b)%R.
Proof.
  intros H1 H2 H3. set (w := (Q2R (t - t0) / Q2R (t1 - t0))%R).
  assert (P : (0 < Q2R (t1 - t0))%R) by (replace 0%R with (Q2R 0) by (unfold Q2R; cbn; lra); apply Qlt_Rlt; lra).
  assert (P0 : (0 <= Q2R (t - t0))%R) by (replace 0%R with (Q2R 0) by (unfold Q2R; cbn; lra); apply Qle_Rle; lra).
  assert (P1 : (Q2R (t - t0) <= Q2R (t1 - t0))%R) by (apply Qle_Rle; lra).
  assert (W0 : (0 <= w)%R) by (apply Rle_mult_inv_pos; auto).
  assert (W1 : (w <= 1)%R).
  { unfold w. apply Rmult_le_reg_r with (Q2R (t1 - t0)); auto. unfold Rdiv. rewrite Rmult_assoc, Rinv_l by lra. lra. }
  replace ((b - a) / Q2R (t1 - t0) * Q2R (t - t0) + a)%R with ((b - a) * w + a)%R by (unfold w; field; lra).
  unfold Rmin, Rmax. destruct (Rle_dec a b); split; nra.
Qed.
