(** Real analysis of the fixed rate price of a list of flows (amount, exponent): sum of amount / base^exponent. *)
From Verif Require Import Base Cashflow CashflowFacts Curve.
From Coq Require Import Reals Lra Rpower Ranalysis.
Open Scope R_scope.
Ltac lra := Lra.lra.
Ltac nra := Lra.nra.

(** Specification: flows discounted with base b. *)
Definition power_value (fl : list (R * R)) (b : R) : R := rsum (List.map (fun f => fst f / Rpower b (snd f)) fl).

Lemma pv_nil b : power_value [] b = 0. Proof. reflexivity. Qed.
Lemma pv_cons f fl b : power_value (f :: fl) b = fst f / Rpower b (snd f) + power_value fl b.
Proof. unfold power_value. cbn [List.map]. apply rsum_cons. Qed.
Lemma pv_app fl fl' b : power_value (fl ++ fl') b = power_value fl b + power_value fl' b.
Proof. unfold power_value. rewrite map_app. apply rsum_app. Qed.

Lemma pv_one fl : power_value fl 1 = rsum (List.map fst fl).
Proof.
  induction fl as [|f fl IH]; [reflexivity|]. rewrite pv_cons. cbn [List.map]. rewrite rsum_cons, IH. f_equal.
  unfold Rpower. rewrite ln_1, Rmult_0_r, exp_0. lra.
Qed.

Lemma div_Rpower a b x : a / Rpower b x = a * exp (- x * ln b).
Proof. unfold Rpower, Rdiv. rewrite <- exp_Ropp. f_equal. f_equal. ring. Qed.

Definition good_flow (f : R * R) := 0 <= fst f /\ 0 <= snd f.
Definition live_flow (f : R * R) := 0 < fst f /\ 0 < snd f.

Lemma term_decr a x b b' : 0 <= a -> 0 <= x -> 0 < b -> b < b' -> a / Rpower b' x <= a / Rpower b x.
Proof.
  intros A X B L. rewrite !div_Rpower. apply Rmult_le_compat_l; auto.
  assert (ln b < ln b') by (apply ln_increasing; auto).
  destruct X as [X|<-].
  - left. apply exp_increasing. nra.
  - right. f_equal. ring.
Qed.
Lemma term_sdecr a x b b' : 0 < a -> 0 < x -> 0 < b -> b < b' -> a / Rpower b' x < a / Rpower b x.
Proof.
  intros A X B L. rewrite !div_Rpower. apply Rmult_lt_compat_l; auto.
  assert (ln b < ln b') by (apply ln_increasing; auto). apply exp_increasing. nra.
Qed.
Lemma pv_decr fl b b' : Forall good_flow fl -> 0 < b -> b < b' -> power_value fl b' <= power_value fl b.
Proof.
  intros F B L. induction F as [|[a x] fl [A X] F IH]; [rewrite !pv_nil; lra|]. rewrite !pv_cons. cbn [fst snd] in *.
  pose proof (term_decr a x b b' A X B L). lra.
Qed.
Lemma pv_sdecr fl b b' : Forall good_flow fl -> Exists live_flow fl -> 0 < b -> b < b' -> power_value fl b' < power_value fl b.
Proof.
  intros F E B L. induction F as [|[a x] fl [A X] F IH]; [inversion E|]. rewrite !pv_cons. cbn [fst snd] in *.
  pose proof (term_decr a x b b' A X B L). inversion E as [? ? [A' X']|? ? E']; subst; cbn [fst snd] in *.
  - pose proof (term_sdecr a x b b' A' X' B L). pose proof (pv_decr fl b b' F B L). lra.
  - specialize (IH E'). lra.
Qed.

Lemma ln_le_pred t : 0 < t -> ln t <= t - 1.
Proof.
  intros T. replace (ln t) with (ln (1 + (t - 1))) by (f_equal; ring).
  destruct (Req_dec t 1) as [->|N]; [replace (1 + (1 - 1)) with 1 by ring; rewrite ln_1; lra|].
  left. apply exp_lt_inv. rewrite exp_ln by lra. apply exp_ineq1. lra.
Qed.
Lemma exp_ge y : 1 + y <= exp y.
Proof. destruct (Req_dec y 0) as [->|N]; [rewrite exp_0; lra|]. left. apply exp_ineq1. auto. Qed.

(** the tangent lies below *)
Lemma term_tangent a x m b : 0 <= a -> 0 <= x -> 0 < m -> 0 < b -> a / Rpower m x * (1 - x * ((b - m) / m)) <= a / Rpower b x.
Proof.
  intros A X M B. rewrite !div_Rpower.
  assert (Lb : ln b = ln m + ln (b / m)).
  { rewrite <- ln_mult; [f_equal; field; lra|auto|]. apply Rdiv_lt_0_compat; auto. }
  rewrite Lb. replace (- x * (ln m + ln (b / m))) with (- x * ln m + - x * ln (b / m)) by ring. rewrite exp_plus.
  assert (0 <= a * exp (- x * ln m)). { pose proof (exp_pos (- x * ln m)). nra. }
  rewrite <- Rmult_assoc. apply Rmult_le_compat_l; auto.
  pose proof (ln_le_pred (b / m) ltac:(apply Rdiv_lt_0_compat; auto)) as H1. pose proof (exp_ge (- x * ln (b / m))) as H2.
  replace ((b - m) / m) with (b / m - 1) by (field; lra). nra.
Qed.
Lemma term_convex a x b1 b2 t : 0 <= a -> 0 <= x -> 0 < b1 -> 0 < b2 -> 0 <= t <= 1 ->
  a / Rpower (t * b1 + (1 - t) * b2) x <= t * (a / Rpower b1 x) + (1 - t) * (a / Rpower b2 x).
Proof.
  intros A X B1 B2 T. set (m := t * b1 + (1 - t) * b2).
  assert (M : 0 < m) by (unfold m; nra).
  pose proof (term_tangent a x m b1 A X M B1) as H1. pose proof (term_tangent a x m b2 A X M B2) as H2.
  assert (E : t * (a / Rpower m x * (1 - x * ((b1 - m) / m))) + (1 - t) * (a / Rpower m x * (1 - x * ((b2 - m) / m))) = a / Rpower m x).
  { assert (E0 : t * ((b1 - m) / m) + (1 - t) * ((b2 - m) / m) = 0) by (unfold m in *; field; lra).
    set (k := a / Rpower m x). replace (t * (k * (1 - x * ((b1 - m) / m))) + (1 - t) * (k * (1 - x * ((b2 - m) / m))))
      with (k - k * x * (t * ((b1 - m) / m) + (1 - t) * ((b2 - m) / m))) by ring. rewrite E0. ring. }
  rewrite <- E. apply Rplus_le_compat; apply Rmult_le_compat_l; lra.
Qed.
Lemma pv_convex fl b1 b2 t : Forall good_flow fl -> 0 < b1 -> 0 < b2 -> 0 <= t <= 1 ->
  power_value fl (t * b1 + (1 - t) * b2) <= t * power_value fl b1 + (1 - t) * power_value fl b2.
Proof.
  intros F B1 B2 T. induction F as [|[a x] fl [A X] F IH]; [rewrite !pv_nil; lra|]. rewrite !pv_cons. cbn [fst snd] in *.
  pose proof (term_convex a x b1 b2 t A X B1 B2 T). lra.
Qed.

(** ---- existence ---- *)
Lemma continuity_pt_ext f g x : (forall y, f y = g y) -> continuity_pt f x -> continuity_pt g x.
Proof.
  intros E C eps H. destruct (C eps H) as (d & D & K). exists d. split; auto. intros y Hy. rewrite <- !E. apply K. auto.
Qed.
Definition log_value (fl : list (R * R)) (u : R) : R := rsum (List.map (fun f => fst f * exp (- snd f * u)) fl).
Lemma log_cons f fl u : log_value (f :: fl) u = fst f * exp (- snd f * u) + log_value fl u.
Proof. unfold log_value. cbn [List.map]. apply rsum_cons. Qed.
Lemma pv_log fl u : power_value fl (exp u) = log_value fl u.
Proof.
  induction fl as [|f fl IH]; [reflexivity|]. rewrite pv_cons, log_cons, IH. f_equal. rewrite div_Rpower, ln_exp. reflexivity.
Qed.
Lemma log_continuous fl : continuity (log_value fl).
Proof.
  induction fl as [|f fl IH].
  - apply continuity_const. intros ? ?. reflexivity.
  - intros u. apply (continuity_pt_ext (fun u => fst f * exp (- snd f * u) + log_value fl u)); [intros; symmetry; apply log_cons|].
    apply continuity_pt_plus; [|apply IH]. apply derivable_continuous_pt. reg.
Qed.
Lemma log_large fl : Forall good_flow fl -> Forall (fun f => 0 < snd f) fl -> forall p, 0 < p -> exists u0, forall u, u0 <= u -> log_value fl u < p.
Proof.
  intros F P. induction F as [|[a x] fl [A X] F IH]; intros p Pp.
  - exists 0. intros. unfold log_value. cbn [List.map]. rewrite rsum_nil. auto.
  - inversion P as [|? ? X' P']; subst. cbn [fst snd] in *. destruct (IH P' (p / 2) ltac:(lra)) as (u1 & H1).
    exists (Rmax u1 (ln ((a + 1) / (p / 2)) / x)). intros u Hu. rewrite log_cons. cbn [fst snd].
    pose proof (Rmax_l u1 (ln ((a + 1) / (p / 2)) / x)). pose proof (Rmax_r u1 (ln ((a + 1) / (p / 2)) / x)).
    specialize (H1 u ltac:(lra)).
    assert (G : ln ((a + 1) / (p / 2)) <= x * u).
    { replace (ln ((a + 1) / (p / 2))) with (x * (ln ((a + 1) / (p / 2)) / x)) by (field; lra). apply Rmult_le_compat_l; lra. }
    assert (Q : 0 < (a + 1) / (p / 2)) by (apply Rdiv_lt_0_compat; lra).
    assert (E : exp (- x * u) <= (p / 2) / (a + 1)).
    { replace ((p / 2) / (a + 1)) with (/ ((a + 1) / (p / 2))) by (field; lra). rewrite <- (exp_ln _ Q), <- exp_Ropp.
      destruct G as [G|G]; [left; apply exp_increasing; lra | right; f_equal; lra]. }
    assert (a * exp (- x * u) <= a * ((p / 2) / (a + 1))) by (apply Rmult_le_compat_l; auto).
    assert (a * ((p / 2) / (a + 1)) <= p / 2).
    { replace (p / 2) with ((a + 1) * ((p / 2) / (a + 1))) at 2 by (field; lra). apply Rmult_le_compat_r; [|lra].
      left. apply Rdiv_lt_0_compat; lra. }
    lra.
Qed.
Lemma log_nonneg fl u : Forall good_flow fl -> 0 <= log_value fl u.
Proof.
  intros F. induction F as [|[a x] fl [A X] F IH]; [unfold log_value; cbn [List.map]; rewrite rsum_nil; lra|].
  rewrite log_cons. cbn [fst snd] in *. pose proof (exp_pos (- x * u)). nra.
Qed.
Lemma log_small fl : Forall good_flow fl -> Exists live_flow fl -> forall p, 0 < p -> exists u0, forall u, u <= u0 -> p < log_value fl u.
Proof.
  intros F E p Pp. induction F as [|[a x] fl [A X] F IH]; [inversion E|]. inversion E as [? ? [A' X']|? ? E']; subst; cbn [fst snd] in *.
  - exists (- (ln ((p + 1) / a) / x)). intros u Hu. rewrite log_cons. cbn [fst snd]. pose proof (log_nonneg fl u F).
    assert (Q : 0 < (p + 1) / a) by (apply Rdiv_lt_0_compat; lra).
    assert (G : ln ((p + 1) / a) <= - x * u).
    { replace (ln ((p + 1) / a)) with (x * (ln ((p + 1) / a) / x)) by (field; lra).
      replace (- x * u) with (x * - u) by ring. apply Rmult_le_compat_l; lra. }
    assert (Ee : (p + 1) / a <= exp (- x * u)).
    { rewrite <- (exp_ln _ Q) at 1. destruct G as [G|G]; [left; apply exp_increasing; lra | right; f_equal; lra]. }
    assert (a * ((p + 1) / a) <= a * exp (- x * u)) by (apply Rmult_le_compat_l; auto).
    replace (a * ((p + 1) / a)) with (p + 1) in * by (field; lra). lra.
  - destruct (IH E') as (u0 & H). exists u0. intros u Hu. rewrite log_cons. cbn [fst snd]. specialize (H u Hu). pose proof (exp_pos (- x * u)). nra.
Qed.

Lemma pv_exists fl p : Forall good_flow fl -> Forall (fun f => 0 < snd f) fl -> Exists live_flow fl -> 0 < p ->
  exists b, 0 < b /\ power_value fl b = p.
Proof.
  intros F P E Pp. destruct (log_large fl F P p Pp) as (u1 & H1). destruct (log_small fl F E p Pp) as (u0 & H0).
  set (lo := Rmin u0 (u1 - 1)). pose proof (Rmin_l u0 (u1 - 1)). pose proof (Rmin_r u0 (u1 - 1)). fold lo in H, H2.
  specialize (H0 lo ltac:(lra)). specialize (H1 u1 ltac:(lra)).
  set (h := fun u => p - log_value fl u).
  assert (C : continuity h). { intros u. apply continuity_pt_minus; [apply continuity_pt_const; intros ? ?; reflexivity | apply log_continuous]. }
  destruct (IVT h lo u1 C ltac:(lra) ltac:(unfold h; lra) ltac:(unfold h; lra)) as (u & _ & Hu).
  exists (exp u). split; [apply exp_pos|]. rewrite pv_log. unfold h in Hu. lra.
Qed.

(** ---- derivative ---- *)
(** sum of exponent-weighted discounted flows *)
Definition weighted_value (fl : list (R * R)) (b : R) : R := rsum (List.map (fun f => snd f * (fst f / Rpower b (snd f))) fl).
Lemma wv_cons f fl b : weighted_value (f :: fl) b = snd f * (fst f / Rpower b (snd f)) + weighted_value fl b.
Proof. unfold weighted_value. cbn [List.map]. apply rsum_cons. Qed.

Lemma pv_deriv_lim fl b : 0 < b -> derivable_pt_lim (power_value fl) b (- weighted_value fl b / b).
Proof.
  intros B. induction fl as [|[a x] fl IH].
  - unfold weighted_value. cbn [List.map]. rewrite rsum_nil. replace (- 0 / b) with 0 by (field; lra).
    apply (derivable_pt_lim_const 0).
  - rewrite wv_cons. cbn [fst snd].
    replace (- (x * (a / Rpower b x) + weighted_value fl b) / b) with (a * (exp (- x * ln b) * (- x * / b)) + - weighted_value fl b / b)
      by (rewrite div_Rpower; field; lra).
    apply (derivable_pt_lim_ext (fun c => a * exp (- x * ln c) + power_value fl c)).
    { intros c. rewrite pv_cons. cbn [fst snd]. rewrite div_Rpower. reflexivity. }
    apply (derivable_pt_lim_plus (fun c => a * exp (- x * ln c)) (power_value fl)); [|apply IH].
    apply (derivable_pt_lim_scal (fun c => exp (- x * ln c)) a).
    apply (derivable_pt_lim_comp (fun c => - x * ln c) exp); [|apply derivable_pt_lim_exp].
    apply (derivable_pt_lim_scal ln (- x)). apply derivable_pt_lim_ln. auto.
Qed.
