(** Property theorems C87 (key rates in floating point). *)
From Verif Require Import Base PyDate PyDateFacts DayCount DayCountFacts PyList KeyRate KeyRateFacts P_KeyRate Float FloatDayCount FloatFacts P_FloatDayCount FloatKeyRate.
From Coq Require Import Reals Qreals Lra Lqa Sorting.Sorted.
From Flocq Require Import Core BinarySingleNaN.
Open Scope Z_scope.
Ltac lra := first [Lra.lra | Lqa.lra].
Ltac nra := Lra.nra.

(** ---- one accrual ---- *)
Lemma count_pos c s e : c <> THIRTY360 -> countable c s -> countable c e -> s < e ->
  exists q x v, acc c s e = Ok q /\ f_acc c s e = Ok x /\ val x v /\ (Rabs (v - Q2R q) <= 4 * u * Q2R q)%R /\ (1 / 133590 <= Q2R q <= 100000)%R.
Proof.
  intros NT (Os & Ys) (Oe & Ye) L. unfold acc, f_acc.
  assert (Q : exists q, compute_accrual_length (Day s) (Day e) c = Ok q).
  { destruct c; try contradiction; try (rewrite q_compute_days; destruct (Z.leb_spec s e); [eexists; reflexivity|lia]).
    destruct (compute_actact s e Os Oe (Ys eq_refl) ltac:(lia)) as (q & E & _). eauto. }
  destruct Q as (q & Q). pose proof Q as Q'. rewrite q_compute_days in Q'. destruct (Z.leb_spec s e); [|lia].
  destruct (fun_close c s e q Os Oe Q') as (x & v & X & V & (_ & B & C) & _). exists q, x, v.
  assert (Z0 : exists q0, compute_accrual_length (Day s) (Day s) c = Ok q0).
  { destruct c; try contradiction; try (rewrite q_compute_days, Z.leb_refl; eexists; reflexivity).
    destruct (compute_actact s s Os Os (Ys eq_refl) ltac:(lia)) as (q0 & E & _). eauto. }
  destruct Z0 as (q0 & E0). destruct (count_laws c s s e q0 q q NT Os Os Oe ltac:(lia) ltac:(lia) E0 Q Q) as (_ & ZZ & M).
  assert (Zq : (q0 == 0)%Q) by (apply ZZ; reflexivity). specialize (M L). rewrite Zq in M. apply Qlt_Rlt in M. replace (Q2R 0) with 0%R in M by (unfold Q2R; cbn; lra).
  rewrite (Rabs_pos_eq (Q2R q)) in B, C by lra. split; [exact Q|]. split; [rewrite f_compute_days; destruct (Z.leb_spec s e); [exact X|lia]|]. split; [exact V|]. split; [auto|].
  destruct (on_grid c s e q Q') as (n & G). split.
  - rewrite G in M |- *. pose proof (gap 0 n (grid c)) as P. replace (0 / IZR (grid c))%R with 0%R in P by (field; apply not_0_IZR; destruct c; discriminate).
    assert (Gb : 0 < grid c <= 365 * 366) by (destruct c; cbn; lia). specialize (P Gb M). lra.
  - pose proof (ok_span s e Os Oe) as [S0 S1]. apply IZR_le in S0, S1. lra.
Qed.

(** ---- one ramp: the quotient of two accruals, times the bump ---- *)
Definition tiny : R := bpow radix2 (-900).
Lemma tiny_pos : (0 < tiny)%R. Proof. apply bpow_gt_0. Qed.


Lemma rn_1 : rn 1 = 1%R.
Proof. apply rn_format. replace 1%R with (IZR 1 * bpow radix2 0)%R by (cbn; lra). apply format_dyadic; lia. Qed.

Lemma div_close (vt vT qt qT : R) : (Rabs (vt - qt) <= 4 * u * qt -> Rabs (vT - qT) <= 4 * u * qT -> 0 < qt -> 0 < qT ->
  0 < vt /\ 0 < vT /\ Rabs (vt / vT - qt / qT) <= 9 * u * (qt / qT))%R.
Proof.
  intros Ht HT Pt PT. pose proof u_small as U. apply Rabs_le_inv in Ht, HT.
  assert (A : (0 < vt)%R) by nra. assert (B : (0 < vT)%R) by nra. split; [exact A|]. split; [exact B|].
  set (q := (qt / qT)%R). assert (Eq : (qt = q * qT)%R) by (unfold q; field; lra). assert (Q : (0 < q)%R) by (apply Rdiv_lt_0_compat; assumption).
  set (w := (vt / vT)%R). assert (Ew : (vt = w * vT)%R) by (unfold w; field; lra).
  assert (K : (qT <= vT * (1 + 5 * u))%R) by nra.
  assert (M : (Rabs ((w - q) * vT) <= 9 * u * q * vT)%R).
  { replace ((w - q) * vT)%R with ((vt - qt) - q * (vT - qT))%R by (rewrite Ew, Eq; ring).
    assert (X : (8 * u * q * qT <= 9 * u * q * vT)%R).
    { assert (0 < u * q)%R by nra. assert (8 * (u * q) * qT <= 8 * (u * q) * (vT * (1 + 5 * u)))%R by (apply Rmult_le_compat_l; lra). nra. }
    assert (Y : (- (4 * u * qT) * q <= q * (vT - qT) <= 4 * u * qT * q)%R) by (split; nra).
    rewrite Eq in Ht. apply Rabs_le. rewrite Eq. lra. }
  rewrite Rabs_mult, (Rabs_pos_eq vT) in M by lra. apply Rmult_le_reg_r with vT; [exact B|]. exact M.
Qed.

(** bumps: not negative, and neither so large nor so small that the arithmetic overflows or underflows *)
Definition range (B : R) : Prop := (0 <= B <= big)%R.
Definition normal (B : R) : Prop := (B = 0 \/ tiny <= B)%R.

Lemma ramp t T fb vt vT qt qT B : val t vt -> val T vT -> val fb B -> range B ->
  (Rabs (vt - qt) <= 4 * u * qt -> Rabs (vT - qT) <= 4 * u * qT -> 1 / 133590 <= qt -> qt <= qT -> qT <= 100000 -> vt <= vT ->
  exists r v, fdiv t T = Ok r /\ val (fmul r fb) v /\ val (fmul fb r) v /\ 0 <= v <= B /\ (vt = vT -> v = B) /\
    (normal B -> Rabs (v - qt / qT * B) <= 13 * u * (qt / qT * B)))%R.
Proof.
  intros Vt VT Vb [B0 B1] Ht HT P1 P2 P3 Le. pose proof u_small as U. destruct (div_close vt vT qt qT Ht HT ltac:(lra) ltac:(lra)) as (A1 & A2 & D).
  set (q := (qt / qT)%R) in *. set (w := (vt / vT)%R) in *.
  assert (Q : (1 / 13359000000 <= q <= 1)%R).
  { unfold q. split; [apply Rmult_le_reg_r with qT; [lra|]; replace (qt / qT * qT)%R with qt by (field; lra); lra|apply Rmult_le_reg_r with qT; [lra|]; replace (qt / qT * qT)%R with qt by (field; lra); lra]. }
  apply Rabs_le_inv in D. assert (W : (1 / 20000000000 <= w <= 1)%R).
  { split; [nra|]. unfold w. apply Rmult_le_reg_r with vT; [lra|]. replace (vt / vT * vT)%R with vt by (field; lra). lra. }
  destruct (fdiv_val t T vt vT Vt VT ltac:(lra)) as (r & Er & Vr). { fold w. rewrite Rabs_pos_eq by lra. apply big_gt. apply Rle_trans with 1%R; [lra|apply IZR_le; lia]. }
  fold w in Vr. set (rr := rn w) in *. assert (R01 : (0 <= rr <= 1)%R) by (unfold rr; split; [rewrite <- rn_0|rewrite <- rn_1]; apply rn_le; lra).
  assert (Sm : (small <= bpow radix2 (-940))%R) by (unfold small; apply bpow_le; lia).
  assert (Sw : (small <= w)%R). { apply Rle_trans with (1 := Sm). apply Rle_trans with (bpow radix2 (-40)); [apply bpow_le; lia|]. change (bpow radix2 (-40)) with (/ 1099511627776)%R. lra. }
  pose proof (rn_err w ltac:(right; rewrite Rabs_pos_eq by lra; exact Sw)) as E1. fold rr in E1. rewrite (Rabs_pos_eq w) in E1 by lra. apply Rabs_le_inv in E1.
  exists r, (rn (rr * B)). split; [exact Er|]. assert (Pb : (0 <= rr * B <= B)%R) by nra. assert (Bb : (Rabs (rr * B) <= big)%R) by (rewrite Rabs_pos_eq; lra).
  split; [apply (fmul_val r fb rr B Vr Vb Bb)|]. split; [rewrite (Rmult_comm rr B); apply (fmul_val fb r B rr Vb Vr); rewrite Rmult_comm; exact Bb|].
  assert (Fb : rn B = B) by (apply (val_format fb); exact Vb).
  split; [split; [rewrite <- rn_0|rewrite <- Fb at 2]; apply rn_le; lra|].
  split. { intros E. assert (w = 1)%R by (unfold w; rewrite E; field; lra). unfold rr. rewrite H, rn_1, Rmult_1_l. exact Fb. }
  intros [-> | Nb]; [rewrite !Rmult_0_r, rn_0, Rminus_0_r, Rabs_R0; lra|].
  assert (Rl : (1 / 40000000000 <= rr)%R) by nra. pose proof tiny_pos as T0.
  assert (S2 : (small <= rr * B)%R).
  { apply Rle_trans with (1 := Sm). replace (bpow radix2 (-940)) with (bpow radix2 (-40) * tiny)%R by (unfold tiny; rewrite <- bpow_plus; reflexivity).
    change (bpow radix2 (-40)) with (/ 1099511627776)%R. apply Rmult_le_compat; lra. }
  pose proof (rn_err (rr * B) ltac:(right; rewrite Rabs_pos_eq by lra; exact S2)) as E2. rewrite (Rabs_pos_eq (rr * B)) in E2 by lra. apply Rabs_le_inv in E2.
  assert (E3 : (- (11 * u * q) <= rr - q <= 11 * u * q)%R).
  { assert (u * w <= u * (q + 9 * u * q))%R by (apply Rmult_le_compat_l; lra). assert (u * (9 * u * q) <= u * q)%R by (apply Rmult_le_compat_l; [lra|]; nra). lra. }
  assert (E4 : (- (11 * u * (q * B)) <= rr * B - q * B <= 11 * u * (q * B))%R).
  { replace (rr * B - q * B)%R with ((rr - q) * B)%R by ring. split; [replace (- (11 * u * (q * B)))%R with ((- (11 * u * q)) * B)%R by ring|replace (11 * u * (q * B))%R with ((11 * u * q) * B)%R by ring]; apply Rmult_le_compat_r; lra. }
  assert (E5 : (u * (rr * B) <= 2 * u * (q * B))%R).
  { assert (0 <= q * B)%R by (apply Rmult_le_pos; lra). assert (rr * B <= 2 * (q * B))%R by nra. replace (2 * u * (q * B))%R with (u * (2 * (q * B)))%R by ring. apply Rmult_le_compat_l; lra. }
  apply Rabs_le. lra.
Qed.

Lemma up_ramp c p d m fb B : c <> THIRTY360 -> countable c p -> countable c m -> p < d <= m -> val fb B -> range B ->
  exists t T r v q1 q2, f_acc c p d = Ok t /\ f_acc c p m = Ok T /\ fdiv t T = Ok r /\ val (fmul r fb) v /\
    (0 <= v <= B)%R /\ (d = m -> v = B) /\ acc c p d = Ok q1 /\ acc c p m = Ok q2 /\ (0 < Q2R q1 <= Q2R q2)%R /\
    (normal B -> (Rabs (v - Q2R q1 / Q2R q2 * B) <= 13 * u * (Q2R q1 / Q2R q2 * B))%R).
Proof.
  intros NT Cp Cm [L1 L2] Vb Rb. assert (Cd : countable c d) by (apply (countable_between c p m d); auto; lia).
  destruct (count_pos c p d NT Cp Cd L1) as (q1 & t & vt & A1 & F1 & V1 & E1 & G1).
  destruct (count_pos c p m NT Cp Cm ltac:(lia)) as (q2 & T & vT & A2 & F2 & V2 & E2 & G2).
  assert (Lq : (Q2R q1 <= Q2R q2)%R /\ (vt <= vT)%R).
  { destruct (Z.eq_dec d m) as [-> | NE]; [assert (q1 = q2) by congruence; assert (t = T) by congruence; subst; rewrite (val_fun _ _ _ V1 V2); lra|].
    split.
    - destruct (count_pos c d m NT Cd Cm ltac:(lia)) as (q3 & _ & _ & A3 & _).
      destruct (count_laws c p d m q1 q3 q2 NT (proj1 Cp) (proj1 Cd) (proj1 Cm) ltac:(lia) ltac:(lia) A1 A3 A2) as (_ & _ & M). specialize (M ltac:(lia)). apply Qlt_Rlt in M. lra.
    - destruct (C83_order c p d m t T NT (proj1 Cp) (proj1 Cd) (proj1 Cm) F1 F2) as (O & _). replace (d <? m) with true in O by lia. apply (flt_val _ _ _ _ V1 V2) in O. lra. }
  destruct Lq as [Lq Lv]. destruct (ramp t T fb vt vT (Q2R q1) (Q2R q2) B V1 V2 Vb Rb E1 E2 ltac:(lra) Lq ltac:(lra) Lv) as (r & v & Dr & Vm & _ & Bv & Ev & Er).
  exists t, T, r, v, q1, q2. split; [exact F1|]. split; [exact F2|]. split; [exact Dr|]. split; [exact Vm|]. split; [exact Bv|].
  split. { intros ->. apply Ev. assert (t = T) by congruence. subst. apply (val_fun _ _ _ V1 V2). }
  split; [exact A1|]. split; [exact A2|]. split; [lra|]. exact Er.
Qed.

Lemma down_ramp c m d f fb B : c <> THIRTY360 -> countable c m -> countable c f -> m <= d < f -> val fb B -> range B ->
  exists t T r v q1 q2, f_acc c d f = Ok t /\ f_acc c m f = Ok T /\ fdiv t T = Ok r /\ val (fmul r fb) v /\ val (fmul fb r) v /\
    (0 <= v <= B)%R /\ (d = m -> v = B) /\ acc c d f = Ok q1 /\ acc c m f = Ok q2 /\ (0 < Q2R q1 <= Q2R q2)%R /\
    (normal B -> (Rabs (v - Q2R q1 / Q2R q2 * B) <= 13 * u * (Q2R q1 / Q2R q2 * B))%R).
Proof.
  intros NT Cm Cf [L1 L2] Vb Rb. assert (Cd : countable c d) by (apply (countable_between c m f d); auto; lia).
  destruct (count_pos c d f NT Cd Cf L2) as (q1 & t & vt & A1 & F1 & V1 & E1 & G1).
  destruct (count_pos c m f NT Cm Cf ltac:(lia)) as (q2 & T & vT & A2 & F2 & V2 & E2 & G2).
  assert (Lq : (Q2R q1 <= Q2R q2)%R /\ (vt <= vT)%R).
  { destruct (Z.eq_dec d m) as [-> | NE]; [assert (q1 = q2) by congruence; assert (t = T) by congruence; subst; rewrite (val_fun _ _ _ V1 V2); lra|].
    split.
    - destruct (count_pos c m d NT Cm Cd ltac:(lia)) as (q3 & _ & _ & A3 & _ & _ & _ & G3).
      destruct (count_laws c m d f q3 q1 q2 NT (proj1 Cm) (proj1 Cd) (proj1 Cf) ltac:(lia) ltac:(lia) A3 A1 A2) as (S3 & _). apply Qeq_eqR in S3. rewrite Q2R_plus in S3. lra.
    - destruct (C83_order_start c m d f T t NT (proj1 Cm) (proj1 Cd) (proj1 Cf) F2 F1 ltac:(lia)) as (O & _). apply (flt_val _ _ _ _ V1 V2) in O. lra. }
  destruct Lq as [Lq Lv]. destruct (ramp t T fb vt vT (Q2R q1) (Q2R q2) B V1 V2 Vb Rb E1 E2 ltac:(lra) Lq ltac:(lra) Lv) as (r & v & Dr & Vm & Vm' & Bv & Ev & Er).
  exists t, T, r, v, q1, q2. split; [exact F1|]. split; [exact F2|]. split; [exact Dr|]. split; [exact Vm|]. split; [exact Vm'|]. split; [exact Bv|].
  split. { intros ->. apply Ev. assert (t = T) by congruence. subst. apply (val_fun _ _ _ V1 V2). }
  split; [exact A1|]. split; [exact A2|]. split; [lra|]. exact Er.
Qed.

Lemma zero_val : val (of_int 0) 0. Proof. apply of_int_val. lia. Qed.

(** ---- C87: one key rate ---- *)
(** A key rate with a neighbour whose bump is not negative (nor close to overflow): its float value is finite, between 0 and the
    bump, the bump itself at its own date, 0 from its neighbours on, and within a relative 2^-49 of the exact program's value unless
    the bump is so small that the product underflows. *)
Theorem C87_one : forall k d b v0, reachable k -> kr_dcc k <> THIRTY360 -> countable (kr_dcc k) (kr_date k) ->
  (forall p, kr_prior k = Some p -> countable (kr_dcc k) p) -> (forall f, kr_next k = Some f -> countable (kr_dcc k) f) ->
  is_finite b = true -> (0 <= B2R b <= bpow radix2 1000)%R ->
  Q2R (kr_bump k) = B2R b -> kr_call k d = Ok v0 ->
  exists x, f_kr_call b k d = Ok x /\ is_finite x = true /\ fle (of_int 0) x = true /\ fle x b = true /\
    (d = kr_date k -> feq x b = true) /\
    (forall p, kr_prior k = Some p -> d <= p -> feq x (of_int 0) = true) /\
    (forall f, kr_next k = Some f -> f <= d -> feq x (of_int 0) = true) /\
    (B2R b = 0 \/ bpow radix2 (-900) <= B2R b -> Rabs (B2R x - Q2R v0) <= / 2 ^ 49 * Q2R v0)%R.
Proof.
  intros k d b v0 R NT Cm Cp Cf Fb Rb Eb Q0. pose proof (reachable_inv k R) as [[Op On] Ca].
  rewrite Ca in Q0.
  assert (Fk : kr_fun k = (kr_prior k, kr_date k, kr_next k)).
  { destruct R as (c & d1 & p & n & ops & X1 & X2 & ->). apply (run_inv ops (new_key_rate c d1 p n)); [split; auto|reflexivity]. }
  unfold f_kr_call. rewrite Fk. set (B := B2R b) in *. set (bb := kr_bump k) in *. assert (Vb : val b B) by (split; auto). pose proof u_small as U.
  assert (S16 : (/ 2 ^ 49 = 16 * u)%R) by (replace (16 * u)%R with (u * 2 ^ 4)%R by ring; rewrite u_pow by lia; reflexivity). rewrite S16.
  assert (Pos : forall x v, val x v -> (0 <= v <= B)%R -> (d = kr_date k -> v = B) -> (forall p, kr_prior k = Some p -> d <= p -> v = 0%R) -> (forall f, kr_next k = Some f -> f <= d -> v = 0%R) ->
      (normal B -> Rabs (v - Q2R v0) <= 16 * u * Q2R v0)%R -> 
      is_finite x = true /\ fle (of_int 0) x = true /\ fle x b = true /\ (d = kr_date k -> feq x b = true) /\
      (forall p, kr_prior k = Some p -> d <= p -> feq x (of_int 0) = true) /\ (forall f, kr_next k = Some f -> f <= d -> feq x (of_int 0) = true) /\
      (B = 0 \/ bpow radix2 (-900) <= B -> Rabs (B2R x - Q2R v0) <= 16 * u * Q2R v0)%R).
  { intros x v V Bv Ev Ep En Er. split; [apply V|]. split; [apply (fle_val _ _ _ _ zero_val V); lra|]. split; [apply (fle_val _ _ _ _ V Vb); lra|].
    split; [intros E; apply (feq_val _ _ _ _ V Vb); auto|]. split; [intros p E L; apply (feq_val _ _ _ _ V zero_val); eauto|]. split; [intros f E L; apply (feq_val _ _ _ _ V zero_val); eauto|].
    intros H. destruct V as [_ ->]. apply Er. exact H. }
  assert (Zero : (Q2R 0 = 0)%R) by (unfold Q2R; cbn; lra).
  assert (Weak : forall w v, (0 <= w)%R -> (normal B -> Rabs (v - w * B) <= 13 * u * (w * B))%R -> (normal B -> Rabs (v - w * B) <= 16 * u * (w * B))%R).
  { intros w v Pw H N. specialize (H N). assert (0 <= w * B)%R by (apply Rmult_le_pos; lra). assert (0 <= u * (w * B))%R by (apply Rmult_le_pos; lra). lra. }
  assert (At : Q2R v0 = B -> (normal B -> Rabs (B - Q2R v0) <= 16 * u * Q2R v0)%R).
  { intros -> _. replace (B - B)%R with 0%R by ring. rewrite Rabs_R0. assert (0 <= u * B)%R by (apply Rmult_le_pos; lra). lra. }
  assert (Out : Q2R v0 = 0%R -> (normal B -> Rabs (0 - Q2R v0) <= 16 * u * Q2R v0)%R) by (intros -> _; rewrite Rminus_0_r, Rabs_R0; lra).
  assert (Wt : forall q1 q2, (0 < Q2R q1 <= Q2R q2)%R -> (Q2R (q1 / q2) = Q2R q1 / Q2R q2)%R /\ (0 <= Q2R q1 / Q2R q2)%R).
  { intros q1 q2 Pq. split; [rewrite Q2R_div; [reflexivity|intros E; apply Qeq_eqR in E; rewrite Zero in E; lra]|apply Rlt_le, Rdiv_lt_0_compat; lra]. }
  assert (Dv : forall q1 q2, (0 < Q2R q1 <= Q2R q2)%R -> qdiv q1 q2 = Ok (q1 / q2)%Q).
  { intros q1 q2 Pq. unfold qdiv. destruct (Qeq_bool q2 0) eqn:E; [|reflexivity]. apply Qeq_bool_iff, Qeq_eqR in E. rewrite Zero in E. lra. }
  destruct (kr_prior k) as [p|] eqn:Ep; destruct (kr_next k) as [f|] eqn:En; cbn [adjustment f_adjustment] in *.
  - specialize (Op p eq_refl). specialize (On f eq_refl). specialize (Cp p eq_refl). specialize (Cf f eq_refl).
    destruct (Z.leb_spec f d); [exists (of_int 0); cbn [orb] in *; injection Q0 as <-; split; [reflexivity|apply (Pos _ 0%R zero_val); auto; [lra|intros ->; lia]]|].
    destruct (Z.leb_spec d p); cbn [orb] in *; [exists (of_int 0); injection Q0 as <-; split; [reflexivity|apply (Pos _ 0%R zero_val); auto; [lra|intros ->; lia]]|].
    destruct (Z.leb_spec d (kr_date k)).
    + destruct (up_ramp (kr_dcc k) p d (kr_date k) b B NT Cp Cm ltac:(lia) Vb Rb) as (t & T & r & v & q1 & q2 & F1 & F2 & Dr & Vm & Bv & Ev & A1 & A2 & Pq & Er).
      rewrite F1, F2. cbn [bind]. rewrite Dr. cbn [bind]. exists (fmul r b). split; [reflexivity|]. rewrite A1, A2 in Q0. cbn [bind] in Q0. rewrite (Dv _ _ Pq) in Q0. cbn [bind] in Q0. injection Q0 as <-.
      destruct (Wt _ _ Pq) as (W1 & W2). apply (Pos _ v Vm Bv Ev); [intros p' [= <-]; lia|intros f' [= <-]; lia|]. rewrite Q2R_mult, Eb, W1. apply Weak; auto.
    + destruct (down_ramp (kr_dcc k) (kr_date k) d f b B NT Cm Cf ltac:(lia) Vb Rb) as (t & T & r & v & q1 & q2 & F1 & F2 & Dr & Vm & _ & Bv & Ev & A1 & A2 & Pq & Er).
      rewrite F1, F2. cbn [bind]. rewrite Dr. cbn [bind]. exists (fmul r b). split; [reflexivity|]. rewrite A1, A2 in Q0. cbn [bind] in Q0. rewrite (Dv _ _ Pq) in Q0. cbn [bind] in Q0. injection Q0 as <-.
      destruct (Wt _ _ Pq) as (W1 & W2). apply (Pos _ v Vm Bv Ev); [intros p' [= <-]; lia|intros f' [= <-]; lia|]. rewrite Q2R_mult, Eb, W1. apply Weak; auto.
  - specialize (Op p eq_refl). specialize (Cp p eq_refl).
    destruct (Z.leb_spec (kr_date k) d); [exists b; injection Q0 as <-; split; [reflexivity|apply (Pos _ B Vb); [lra|reflexivity|intros p' [= <-]; lia|discriminate|apply At; auto]]|].
    destruct (Z.leb_spec d p); [exists (of_int 0); injection Q0 as <-; split; [reflexivity|apply (Pos _ 0%R zero_val); auto; [lra|intros ->; lia]]|].
    destruct (up_ramp (kr_dcc k) p d (kr_date k) b B NT Cp Cm ltac:(lia) Vb Rb) as (t & T & r & v & q1 & q2 & F1 & F2 & Dr & Vm & Bv & Ev & A1 & A2 & Pq & Er).
    rewrite F1, F2. cbn [bind]. rewrite Dr. cbn [bind]. exists (fmul r b). split; [reflexivity|]. rewrite A1, A2 in Q0. cbn [bind] in Q0. rewrite (Dv _ _ Pq) in Q0. cbn [bind] in Q0. injection Q0 as <-.
    destruct (Wt _ _ Pq) as (W1 & W2). apply (Pos _ v Vm Bv Ev); [intros p' [= <-]; lia|discriminate|]. rewrite Q2R_mult, Eb, W1. apply Weak; auto.
  - specialize (On f eq_refl). specialize (Cf f eq_refl).
    destruct (Z.leb_spec d (kr_date k)); [exists b; injection Q0 as <-; split; [reflexivity|apply (Pos _ B Vb); [lra|reflexivity|discriminate|intros f' [= <-]; lia|apply At; auto]]|].
    destruct (Z.leb_spec f d); [exists (of_int 0); injection Q0 as <-; split; [reflexivity|apply (Pos _ 0%R zero_val); auto; [lra|intros ->; lia]]|].
    destruct (down_ramp (kr_dcc k) (kr_date k) d f b B NT Cm Cf ltac:(lia) Vb Rb) as (t & T & r & v & q1 & q2 & F1 & F2 & Dr & _ & Vm & Bv & Ev & A1 & A2 & Pq & Er).
    rewrite F1, F2. cbn [bind]. rewrite Dr. cbn [bind]. exists (fmul b r). split; [reflexivity|]. rewrite A1, A2 in Q0. cbn [bind] in Q0. rewrite (Dv _ _ Pq) in Q0. cbn [bind] in Q0. injection Q0 as <-.
    destruct (Wt _ _ Pq) as (W1 & W2). apply (Pos _ v Vm Bv Ev); [discriminate|intros f' [= <-]; lia|]. rewrite Q2R_mult, Eb, W1, Rmult_comm. apply Weak; auto.
  - destruct (Z.leb_spec d (kr_date k)); [|discriminate]. exists b. injection Q0 as <-. split; [reflexivity|]. apply (Pos _ B Vb); [lra|reflexivity|discriminate|discriminate|apply At; auto].
Qed.
Print Assumptions C87_one.

(** ---- the sum over a collection ---- *)
Lemma pair c m d f b B : c <> THIRTY360 -> countable c m -> countable c f -> m < d <= f -> val b B -> range B ->
  exists vx vy, (forall next, (forall g, next = Some g -> f < g) -> exists y, f_adjustment c b (Some m, f, next) d = Ok y /\ val y vy) /\
    (forall prior, (forall p, prior = Some p -> p < m) -> exists x, f_adjustment c b (prior, m, Some f) d = Ok x /\ val x vx) /\
    (0 <= vx <= B)%R /\ (0 <= vy <= B)%R /\ (d = f -> vx = 0%R /\ vy = B) /\ (normal B -> (Rabs (vx + vy - B) <= 13 * u * B)%R).
Proof.
  intros NT Cm Cf [L1 L2] Vb Rb. pose proof u_small as U.
  destruct (up_ramp c m d f b B NT Cm Cf ltac:(lia) Vb Rb) as (t & T & r & v & q1 & q2 & F1 & F2 & Dr & Vm & Bv & Ev & A1 & A2 & Pq & Er).
  assert (Y : forall next, (forall g, next = Some g -> f < g) -> exists y, f_adjustment c b (Some m, f, next) d = Ok y /\ val y v).
  { intros [g|] G; cbn [f_adjustment].
    - specialize (G g eq_refl). replace (g <=? d) with false by lia. replace (d <=? m) with false by lia. cbn [orb]. replace (d <=? f) with true by lia.
      rewrite F1, F2. cbn [bind]. rewrite Dr. cbn [bind]. eexists. split; [reflexivity|exact Vm].
    - destruct (Z.leb_spec f d); [exists b; rewrite Ev by lia; auto|]. replace (d <=? m) with false by lia.
      rewrite F1, F2. cbn [bind]. rewrite Dr. cbn [bind]. eexists. split; [reflexivity|exact Vm]. }
  destruct (Z.eq_dec d f) as [E|NE].
  - exists 0%R, v. split; [exact Y|]. split.
    { intros [p|] P; cbn [f_adjustment]; exists (of_int 0); (split; [|apply zero_val]).
      - replace (f <=? d) with true by lia. reflexivity.
      - replace (d <=? m) with false by lia. replace (f <=? d) with true by lia. reflexivity. }
    destruct Rb as [B0 B1]. split; [lra|]. split; [exact Bv|]. rewrite (Ev E). split; [auto|]. intros _. replace (0 + B - B)%R with 0%R by ring. rewrite Rabs_R0. assert (0 <= u * B)%R by (apply Rmult_le_pos; lra). lra.
  - destruct (down_ramp c m d f b B NT Cm Cf ltac:(lia) Vb Rb) as (t' & T' & r' & v' & q3 & q4 & G1 & G2 & Dr' & Vm1 & Vm2 & Bv' & _ & H1 & H2 & Pq' & Er').
    exists v', v. split; [exact Y|]. split.
    { intros [p|] P; cbn [f_adjustment].
      - specialize (P p eq_refl). replace (f <=? d) with false by lia. replace (d <=? p) with false by lia. cbn [orb]. replace (d <=? m) with false by lia.
        rewrite G1, G2. cbn [bind]. rewrite Dr'. cbn [bind]. eexists. split; [reflexivity|exact Vm1].
      - replace (d <=? m) with false by lia. replace (f <=? d) with false by lia. rewrite G1, G2. cbn [bind]. rewrite Dr'. cbn [bind]. eexists. split; [reflexivity|exact Vm2]. }
    split; [exact Bv'|]. split; [exact Bv|]. split; [contradiction|]. intros N. specialize (Er N). specialize (Er' N).
    assert (q2 = q4) by congruence. subst q4. assert (Cd : countable c d) by (apply (countable_between c m f d); auto; lia).
    destruct (count_laws c m d f q1 q3 q2 NT (proj1 Cm) (proj1 Cd) (proj1 Cf) ltac:(lia) ltac:(lia) A1 H1 A2) as (S3 & _). apply Qeq_eqR in S3. rewrite Q2R_plus in S3.
    set (w := (Q2R q1 / Q2R q2)%R) in *. set (w' := (Q2R q3 / Q2R q2)%R) in *. assert (W : (w + w' = 1)%R) by (unfold w, w'; rewrite <- S3; field; lra).
    apply Rabs_le_inv in Er, Er'. assert (Ws : (w' * B = B - w * B)%R) by (replace w' with (1 - w)%R by lra; ring). rewrite Ws in *. apply Rabs_le.
    split; [|]; nra.
Qed.

Section Sum.
  Context (h : heap) (c : dcc) (b : f64) (B : R) (NT : c <> THIRTY360) (Vb : val b B) (Rb : range B).
  Definition fine (a : addr) : Prop := kr_dcc (h a) = c /\ countable c (kr_date (h a)).
  Definition term (d : date) (a : addr) : res f64 := f_kr_call b (h a) d.

  Lemma zeros_after d : forall r p, chained h (Some p) r -> KeyRateFacts.increasing h r -> (forall a, In a r -> p < kr_date (h a)) -> d <= p ->
    mapM (term d) r = Ok (repeat (of_int 0) (List.length r)).
  Proof.
    induction r as [|a r IH]; intros p CH I Lt D; [reflexivity|]. destruct CH as [F CH]. cbn [mapM List.length repeat].
    assert (T : term d a = Ok (of_int 0)).
    { unfold term, f_kr_call. rewrite F. pose proof (Lt a ltac:(left; reflexivity)). destruct (odate h (hd_error r)) as [g|]; cbn [f_adjustment].
      - replace (d <=? p) with true by lia. rewrite orb_true_r. reflexivity.
      - replace (kr_date (h a) <=? d) with false by lia. replace (d <=? p) with true by lia. reflexivity. }
    rewrite T. cbn [bind]. unfold KeyRateFacts.increasing in I. cbn in I. apply StronglySorted_inv in I. destruct I as [I FA].
    rewrite (IH (kr_date (h a)) CH I); [reflexivity| |]; [|specialize (Lt a ltac:(left; reflexivity)); lia].
    intros x Ix. rewrite Forall_forall in FA. apply FA. apply in_map_iff. eauto.
  Qed.

  (** the terms that are not zero: the bump, or the values of two neighbours *)
  Definition core (d : date) (ds : list date) (mid : list f64) : Prop :=
    (exists x, mid = [x] /\ val x B) \/
    (exists x y vx vy, mid = [x; y] /\ val x vx /\ val y vy /\ (0 <= vx <= B)%R /\ (0 <= vy <= B)%R /\ (In d ds -> vx = 0%R /\ vy = B) /\
      (exists d1 d2, In d1 ds /\ In d2 ds /\ d1 < d <= d2) /\ (normal B -> (Rabs (vx + vy - B) <= 13 * u * B)%R)).

  Lemma terms d : forall r a prior, chained h prior (a :: r) -> KeyRateFacts.increasing h (a :: r) -> Forall fine (a :: r) -> (prior = None -> r <> []) ->
    (forall p, prior = Some p -> p < kr_date (h a)) -> kr_date (h a) < d ->
    exists n mid m, mapM (term d) (a :: r) = Ok (repeat (of_int 0) n ++ mid ++ repeat (of_int 0) m) /\ core d (dates h (a :: r)) mid.
  Proof.
    induction r as [|g r IH]; intros a prior CH I G NE Lp D.
    - destruct prior as [p|]; [|exfalso; apply NE; reflexivity]. destruct CH as [F _]. cbn [hd_error odate option_map] in F. exists 0%nat, [b], 0%nat. cbn [mapM]. unfold term at 1, f_kr_call. rewrite F. cbn [f_adjustment].
      replace (kr_date (h a) <=? d) with true by lia. split; [reflexivity|]. left. exists b. auto.
    - destruct CH as [F CH]. cbn [hd_error odate option_map] in F. inversion G as [|? ? [Ga Ca] G']; subst. inversion G' as [|? ? [Gg Cg] _]; subst.
      unfold KeyRateFacts.increasing in I. cbn in I. apply StronglySorted_inv in I. destruct I as [I FA]. pose proof I as I2. apply StronglySorted_inv in I2. destruct I2 as [I2 FB].
      assert (Lag : kr_date (h a) < kr_date (h g)) by (rewrite Forall_forall in FA; apply FA; left; reflexivity).
      destruct (Z.le_gt_cases d (kr_date (h g))) as [L|L].
      + destruct (pair c (kr_date (h a)) d (kr_date (h g)) b B NT Ca Cg ltac:(lia) Vb Rb) as (vx & vy & Y & X & Bx & By & Ex & Er).
        destruct (X prior Lp) as (x & Tx & Vx). destruct CH as [Fg CH].
        destruct (Y (odate h (hd_error r))) as (y & Ty & Vy).
        { intros z Hz. destruct r as [|z0 r0]; [discriminate|]. cbn in Hz. injection Hz as <-. rewrite Forall_forall in FB. apply FB. left. reflexivity. }
        exists 0%nat, [x; y], (List.length r). split.
        * cbn [repeat app mapM]. assert (T1 : term d a = Ok x) by (unfold term, f_kr_call; rewrite Ga, F; exact Tx). assert (T2 : term d g = Ok y) by (unfold term, f_kr_call; rewrite Gg, Fg; exact Ty). rewrite T1, T2. cbn [bind].
          assert (Zs : mapM (term d) r = Ok (repeat (of_int 0) (List.length r))).
          { apply (zeros_after d r (kr_date (h g)) CH I2); [|exact L]. intros z Hz. rewrite Forall_forall in FB. apply FB. apply in_map_iff. eauto. }
          rewrite Zs. reflexivity.
        * right. exists x, y, vx, vy. split; [reflexivity|]. split; [exact Vx|]. split; [exact Vy|]. split; [exact Bx|]. split; [exact By|]. split; [|split; [exists (kr_date (h a)), (kr_date (h g)); cbn; auto|exact Er]].
          intros Hin. apply Ex. cbn in Hin. destruct Hin as [E|[E|Hin]]; [lia|lia|]. apply in_map_iff in Hin. destruct Hin as (z & Ez & Iz). rewrite Forall_forall in FB. specialize (FB (kr_date (h z))). assert (In (kr_date (h z)) (List.map (fun a0 : addr => kr_date (h a0)) r)) by (apply in_map_iff; eauto). specialize (FB H). lia.
      + destruct (IH g (Some (kr_date (h a))) CH I G') as (n & mid & m & E & C); [discriminate|intros p [= <-]; exact Lag|exact L|].
        exists (S n), mid, m. split.
        * change (mapM (term d) (a :: g :: r)) with (do y <- term d a; do ys <- mapM (term d) (g :: r); Ok (y :: ys)). rewrite E. assert (T : term d a = Ok (of_int 0)); [|rewrite T; reflexivity].
          unfold term, f_kr_call. rewrite F. destruct prior as [p|]; cbn [f_adjustment].
          -- replace (kr_date (h g) <=? d) with true by lia. reflexivity.
          -- replace (d <=? kr_date (h a)) with false by lia. replace (kr_date (h g) <=? d) with true by lia. reflexivity.
        * destruct C as [C|(x & y & vx & vy & Em & Vx & Vy & Bx & By & Ex & (d1 & d2 & I1 & I3 & L3) & Er)]; [left; exact C|]. right. exists x, y, vx, vy. split; [exact Em|]. split; [exact Vx|]. split; [exact Vy|]. split; [exact Bx|]. split; [exact By|]. split; [|split; [exists d1, d2; split; [right; exact I1|]; split; [right; exact I3|exact L3]|exact Er]].
          intros Hin. apply Ex. cbn in Hin |- *. destruct Hin as [E0|Hin]; [lia|exact Hin].
  Qed.

  Lemma all_terms d a g r : chained h None (a :: g :: r) -> KeyRateFacts.increasing h (a :: g :: r) -> Forall fine (a :: g :: r) ->
    exists n mid m, mapM (term d) (a :: g :: r) = Ok (repeat (of_int 0) n ++ mid ++ repeat (of_int 0) m) /\ core d (dates h (a :: g :: r)) mid.
  Proof.
    intros CH I G. destruct (Z.le_gt_cases d (kr_date (h a))) as [L|L]; [|apply (terms d (g :: r) a None); auto; discriminate].
    destruct CH as [F CH]. cbn [hd_error odate option_map] in F. exists 0%nat, [b], (List.length (g :: r)). split; [|left; exists b; auto].
    unfold KeyRateFacts.increasing in I. cbn in I. apply StronglySorted_inv in I. destruct I as [I FA].
    assert (T : term d a = Ok b). { unfold term, f_kr_call. rewrite F. cbn [f_adjustment]. replace (d <=? kr_date (h a)) with true by lia. reflexivity. }
    change (mapM (term d) (a :: g :: r)) with (do y <- term d a; do ys <- mapM (term d) (g :: r); Ok (y :: ys)). rewrite T. cbn [bind].
    rewrite (zeros_after d (g :: r) (kr_date (h a)) CH I); [reflexivity| |exact L]. intros z Hz. rewrite Forall_forall in FA. apply FA. apply (in_map (fun a0 : addr => kr_date (h a0)) (g :: r) z Hz).
  Qed.
End Sum.

Definition either_sum (total : list f64 -> f64) : Prop := total = f_sum \/ total = f_sum_compensated.

Section Totals.
  Context (B : R) (RB : (0 <= B <= bpow radix2 900)%R).
  Lemma four_B : (4 * B <= big)%R.
  Proof. unfold big. apply Rle_trans with (bpow radix2 2 * bpow radix2 900)%R; [change (bpow radix2 2) with 4%R; lra|]. rewrite <- bpow_plus. apply bpow_le. lia. Qed.
  Definition mild (v : R) : Prop := (Rabs v <= 2 * B)%R.
  Lemma mild_big v w : mild v -> mild w -> (Rabs (v + w) <= big)%R /\ (Rabs (v - w) <= big)%R.
  Proof. unfold mild. intros H K. pose proof four_B. split; [pose proof (Rabs_triang v w); lra|]. pose proof (Rabs_triang v (- w)) as T. rewrite Rabs_Ropp in T. unfold Rminus. lra. Qed.
  Lemma mild_0 : mild 0. Proof. unfold mild. rewrite Rabs_R0. lra. Qed.

  Lemma add_zero x v : val x v -> mild v -> val (fadd x (of_int 0)) v.
  Proof. intros V M. pose proof (fadd_val _ _ _ _ V zero_val (proj1 (mild_big _ _ M mild_0))) as H. rewrite Rplus_0_r, (val_format _ _ V) in H. exact H. Qed.
  Lemma zero_add x v z : val z 0 -> val x v -> mild v -> val (fadd z x) v.
  Proof. intros Vz V M. pose proof (fadd_val _ _ _ _ Vz V (proj1 (mild_big _ _ mild_0 M))) as H. rewrite Rplus_0_l, (val_format _ _ V) in H. exact H. Qed.
  Lemma add_zeros n : forall x v, val x v -> mild v -> val (fold_left fadd (repeat (of_int 0) n) x) v.
  Proof. induction n as [|n IH]; intros x v V M; [exact V|]. cbn [repeat fold_left]. apply IH; [apply add_zero; assumption|exact M]. Qed.

  (** the pair (high, low) of the compensated sum *)
  Definition two (t : f64 * f64) (v l : R) : Prop := val (fst t) v /\ val (snd t) l.
  Lemma cs_same t x v w : two t v 0 -> val x w -> mild v -> mild w -> (v = 0 \/ w = 0)%R -> two (cs_add t x) (v + w) 0.
  Proof.
    destruct t as [hi lo]. intros [Vh Vl] Vx Mv Mw Z. cbn [fst snd] in *. unfold cs_add.
    assert (Vs : val (fadd hi x) (v + w)).
    { pose proof (fadd_val _ _ _ _ Vh Vx (proj1 (mild_big _ _ Mv Mw))) as H. replace (rn (v + w)) with (v + w)%R in H; [exact H|].
      destruct Z as [-> | ->]; [rewrite Rplus_0_l; symmetry; apply (val_format _ _ Vx)|rewrite Rplus_0_r; symmetry; apply (val_format _ _ Vh)]. }
    assert (Ms : mild (v + w)) by (destruct Z as [-> | ->]; [rewrite Rplus_0_l|rewrite Rplus_0_r]; assumption).
    assert (Fr : forall y a o c0, val y a -> val o c0 -> mild a -> mild c0 -> (a + c0 = v + w)%R -> (a = 0 \/ c0 = 0)%R -> val (fadd (fsub y (fadd hi x)) o) 0).
    { intros y a o c0 Vy Vo Ma Mo Sm Za. pose proof (fsub_val _ _ _ _ Vy Vs (proj2 (mild_big _ _ Ma Ms))) as V1.
      replace (a - (v + w))%R with (- c0)%R in V1 by lra. rewrite rn_opp, (val_format _ _ Vo) in V1.
      assert (Mn : mild (- c0)) by (unfold mild in *; rewrite Rabs_Ropp; exact Mo).
      pose proof (fadd_val _ _ _ _ V1 Vo (proj1 (mild_big _ _ Mn Mo))) as V2. replace (- c0 + c0)%R with 0%R in V2 by ring. rewrite rn_0 in V2. exact V2. }
    assert (Ve : val (if fle (Babs x) (Babs hi) then fadd (fsub hi (fadd hi x)) x else fadd (fsub x (fadd hi x)) hi) 0).
    { destruct (fle (Babs x) (Babs hi)); [apply (Fr hi v x w); auto|apply (Fr x w hi v); auto; [lra|tauto]]. }
    split; cbn [fst snd]; [exact Vs|]. apply zero_add; [exact Vl|exact Ve|apply mild_0].
  Qed.
  Lemma cs_zeros n : forall t v, two t v 0 -> mild v -> two (fold_left cs_add (repeat (of_int 0) n) t) v 0.
  Proof.
    induction n as [|n IH]; intros t v V M; [exact V|]. cbn [repeat fold_left]. apply IH; [|exact M].
    pose proof (cs_same t (of_int 0) v 0 V zero_val M mild_0 ltac:(auto)) as H. rewrite Rplus_0_r in H. exact H.
  Qed.
  (** adding zeros leaves a low part too *)
  Lemma cs_zeros_low n : forall t v l, two t v l -> mild v -> mild l -> two (fold_left cs_add (repeat (of_int 0) n) t) v l.
  Proof.
    induction n as [|n IH]; intros t v l V M K; [exact V|]. cbn [repeat fold_left]. apply IH; [|exact M|exact K].
    destruct t as [hi lo]. destruct V as [Vh Vl]. cbn [fst snd] in *.
    pose proof (cs_same (hi, of_int 0) (of_int 0) v 0 (conj Vh zero_val) zero_val M mild_0 ltac:(auto)) as [H1 H2]. rewrite Rplus_0_r in H1. unfold cs_add in *. cbn [fst snd] in *. split; cbn [fst snd]; [exact H1|].
    set (e := if fle (Babs (of_int 0)) (Babs hi) then _ else _) in *.
    assert (Ve : val e 0).
    { assert (Vs : val (fadd hi (of_int 0)) v) by (apply add_zero; assumption). unfold e.
      assert (A : val (fsub hi (fadd hi (of_int 0))) 0) by (pose proof (fsub_val _ _ _ _ Vh Vs (proj2 (mild_big _ _ M M))) as V1; replace (v - v)%R with 0%R in V1 by ring; rewrite rn_0 in V1; exact V1).
      assert (C : val (fsub (of_int 0) (fadd hi (of_int 0))) (- v)).
      { pose proof (fsub_val _ _ _ _ zero_val Vs (proj2 (mild_big _ _ mild_0 M))) as V1. rewrite Rminus_0_l, rn_opp, (val_format _ _ Vh) in V1. exact V1. }
      destruct (fle _ _); [apply add_zero; [exact A|apply mild_0]|]. assert (Mn : mild (- v)) by (unfold mild in *; rewrite Rabs_Ropp; exact M).
      pose proof (fadd_val _ _ _ _ C Vh (proj1 (mild_big _ _ Mn M))) as V2. replace (- v + v)%R with 0%R in V2 by ring. rewrite rn_0 in V2. exact V2. }
    pose proof (fadd_val _ _ _ _ Vl Ve (proj1 (mild_big _ _ K mild_0))) as V3. rewrite Rplus_0_r, (val_format _ _ Vl) in V3. exact V3.
  Qed.

  Definition final (t : f64 * f64) : f64 := let '(hi, lo) := t in if negb (fzero lo) && is_finite lo then fadd hi lo else hi.
  Lemma final_same t v : two t v 0 -> val (final t) v.
  Proof.
    destruct t as [hi lo]. intros [Vh [Fl El]]. cbn [fst snd] in *. unfold final. destruct (fzero lo) eqn:Z; [exact Vh|]. exfalso.
    destruct lo as [s|s| |s m e W]; try discriminate. cbn in El. unfold F2R in El. cbn in El. apply Rmult_integral in El. destruct El as [El|El].
    - apply eq_IZR in El. destruct s; discriminate.
    - pose proof (bpow_gt_0 radix2 e). cbn in H. lra.
  Qed.

  Lemma sum_exact total n m x v y : either_sum total -> val x v -> (v = 0 /\ val y B \/ v = B /\ val y 0)%R -> val (total (repeat (of_int 0) n ++ [x; y] ++ repeat (of_int 0) m)) B.
  Proof.
    assert (MB : mild B) by (unfold mild; rewrite Rabs_pos_eq; lra). intros T V C.
    assert (W : exists w, val y w /\ mild v /\ mild w /\ (v = 0 \/ w = 0)%R /\ (v + w = B)%R) by (destruct C as [[-> Y]|[-> Y]]; [exists B|exists 0%R]; repeat split; auto using mild_0; try apply Y; lra).
    destruct W as (w & Vy & Mv & Mw & Z & Sv). destruct T as [-> | ->].
    - unfold f_sum. rewrite !fold_left_app. apply add_zeros; [|exact MB]. cbn [fold_left].
      assert (V1 : val (fadd (fold_left fadd (repeat (of_int 0) n) (of_int 0)) x) v) by (apply zero_add; [apply add_zeros; [apply zero_val|apply mild_0]|exact V|exact Mv]).
      destruct Z as [-> | ->]; [rewrite Rplus_0_l in Sv; subst w; apply zero_add; assumption|]. rewrite Rplus_0_r in Sv. subst v.
      pose proof (fadd_val _ _ _ _ V1 Vy (proj1 (mild_big _ _ Mv Mw))) as H. rewrite Rplus_0_r, (val_format _ _ V) in H. exact H.
    - unfold f_sum_compensated. change (val (final (fold_left cs_add (repeat (of_int 0) n ++ [x; y] ++ repeat (of_int 0) m) (of_int 0, of_int 0))) B). apply final_same.
      rewrite !fold_left_app. apply cs_zeros; [|exact MB]. cbn [fold_left]. rewrite <- Sv. apply cs_same; auto. replace v with (0 + v)%R at 2 by ring. rewrite <- (Rplus_0_l v). apply cs_same; auto using mild_0.
      apply cs_zeros; [split; apply zero_val|apply mild_0].
  Qed.

  Lemma sum_one total n m x : either_sum total -> val x B -> val (total (repeat (of_int 0) n ++ [x] ++ repeat (of_int 0) m)) B.
  Proof.
    assert (MB : mild B) by (unfold mild; rewrite Rabs_pos_eq; lra). intros T V. destruct T as [-> | ->].
    - unfold f_sum. rewrite !fold_left_app. apply add_zeros; [|exact MB]. cbn [fold_left]. apply zero_add; [apply add_zeros; [apply zero_val|apply mild_0]|exact V|exact MB].
    - unfold f_sum_compensated. change (val (final (fold_left cs_add (repeat (of_int 0) n ++ [x] ++ repeat (of_int 0) m) (of_int 0, of_int 0))) B). apply final_same.
      rewrite !fold_left_app. apply cs_zeros; [|exact MB]. cbn [fold_left]. rewrite <- (Rplus_0_l B). apply cs_same; auto using mild_0. apply cs_zeros; [split; apply zero_val|apply mild_0].
  Qed.

  Lemma sum_near total n m x y vx vy : either_sum total -> val x vx -> val y vy -> (0 <= vx <= B)%R -> (0 <= vy <= B)%R -> (Rabs (vx + vy - B) <= 13 * u * B)%R ->
    exists v, val (total (repeat (of_int 0) n ++ [x; y] ++ repeat (of_int 0) m)) v /\ (Rabs (v - B) <= 32 * u * B)%R.
  Proof.
    intros T Vx Vy Bx By C. pose proof u_small as U. apply Rabs_le_inv in C. assert (Mx : mild vx) by (unfold mild; rewrite Rabs_pos_eq; lra). assert (My : mild vy) by (unfold mild; rewrite Rabs_pos_eq; lra).
    set (s := rn (vx + vy)). pose proof (rn_plus_err x y vx vy Vx Vy) as E1. fold s in E1. rewrite (Rabs_pos_eq (vx + vy)) in E1 by lra. apply Rabs_le_inv in E1.
    assert (uB : (0 <= u * B <= B / 1000000)%R) by (split; [apply Rmult_le_pos; lra|nra]). assert (X0 : (u * (vx + vy) <= u * B + u * B / 1000)%R).
    { assert (u * (vx + vy) <= u * (B + 13 * u * B))%R by (apply Rmult_le_compat_l; lra). assert (u * (13 * u * B) <= u * (B / 1000))%R by (apply Rmult_le_compat_l; lra). lra. }
    assert (Ms : mild s) by (unfold mild; apply Rabs_le; lra).
    assert (Zn : forall k, two (fold_left cs_add (repeat (of_int 0) k) (of_int 0, of_int 0)) 0 0) by (intros k; apply cs_zeros; [split; apply zero_val|apply mild_0]).
    destruct T as [-> | ->].
    - unfold f_sum. exists s. rewrite !fold_left_app. cbn [fold_left]. split; [|apply Rabs_le; lra]. apply add_zeros; [|exact Ms]. unfold s.
      apply fadd_val; [|exact Vy|apply (mild_big _ _ Mx My)]. apply zero_add; [apply add_zeros; [apply zero_val|apply mild_0]|exact Vx|exact Mx].
    - unfold f_sum_compensated. change (exists v, val (final (fold_left cs_add (repeat (of_int 0) n ++ [x; y] ++ repeat (of_int 0) m) (of_int 0, of_int 0))) v /\ (Rabs (v - B) <= 32 * u * B)%R).
      rewrite !fold_left_app. cbn [fold_left]. pose proof (cs_same _ x 0 vx (Zn n) Vx mild_0 Mx ltac:(auto)) as T1. rewrite Rplus_0_l in T1.
      destruct (cs_add (fold_left cs_add (repeat (of_int 0) n) (of_int 0, of_int 0)) x) as [hi lo]. destruct T1 as [Vh Vl]. cbn [fst snd] in *.
      assert (T2 : exists l, two (cs_add (hi, lo) y) s l /\ (Rabs l <= 3 * u * B)%R).
      { unfold cs_add. assert (Vs : val (fadd hi y) s) by (apply fadd_val; [exact Vh|exact Vy|apply (mild_big _ _ Mx My)]).
        assert (Fr : forall a va o vo, val a va -> val o vo -> mild va -> mild vo -> (0 <= va <= B)%R -> (0 <= vo <= B)%R -> (va + vo = vx + vy)%R ->
           exists l, val (fadd lo (fadd (fsub a (fadd hi y)) o)) l /\ (Rabs l <= 3 * u * B)%R).
        { intros a va o vo Va Vo Ma Mo Ba Bo Sv. pose proof (fsub_val _ _ _ _ Va Vs (proj2 (mild_big _ _ Ma Ms))) as V1. pose proof (rn_minus_err _ _ _ _ Va Vs) as R1. set (e1 := rn (va - s)) in *.
          assert (A1 : (Rabs (va - s) <= B + 3 * u * B)%R) by (apply Rabs_le; lra).
          assert (R2 : (Rabs (e1 - (va - s)) <= u * B + u * B / 1000)%R).
          { apply Rle_trans with (1 := R1). apply Rle_trans with (u * (B + 3 * u * B))%R; [apply Rmult_le_compat_l; lra|]. assert (u * (3 * u * B) <= u * (B / 1000))%R by (apply Rmult_le_compat_l; lra). lra. }
          apply Rabs_le_inv in R2. assert (M1 : mild e1) by (unfold mild; apply Rabs_le; lra).
          pose proof (fadd_val _ _ _ _ V1 Vo (proj1 (mild_big _ _ M1 Mo))) as V2. pose proof (rn_plus_err _ _ _ _ V1 Vo) as R3. set (e2 := rn (e1 + vo)) in *.
          assert (A2 : (Rabs (e1 + vo) <= 2 * u * B + u * B / 100)%R) by (apply Rabs_le; lra).
          assert (A3 : (Rabs e2 <= 3 * u * B)%R).
          { apply Rabs_le_inv in R3. assert (K : (u * Rabs (e1 + vo) <= 1 / 1000 * (2 * u * B + u * B / 100))%R) by (apply Rmult_le_compat; try lra; apply Rabs_pos).
            apply Rabs_le_inv in A2. apply Rabs_le. lra. }
          exists e2. split; [|exact A3]. apply zero_add; [exact Vl|exact V2|]. unfold mild. apply Rle_trans with (1 := A3). lra. }
        destruct (fle (Babs y) (Babs hi)).
        - destruct (Fr hi vx y vy Vh Vy Mx My Bx By eq_refl) as (l & V & Lb). exists l. split; [split; [exact Vs|exact V]|exact Lb].
        - destruct (Fr y vy hi vx Vy Vh My Mx By Bx ltac:(lra)) as (l & V & Lb). exists l. split; [split; [exact Vs|exact V]|exact Lb]. }
      destruct T2 as (l & T2 & Ll). assert (Ml : mild l) by (unfold mild; apply Rle_trans with (1 := Ll); lra).
      pose proof (cs_zeros_low m _ _ _ T2 Ms Ml) as T3. destruct (fold_left cs_add (repeat (of_int 0) m) (cs_add (hi, lo) y)) as [h2 l2]. destruct T3 as [V3 V4]. cbn [fst snd] in *.
      unfold final. apply Rabs_le_inv in Ll. destruct (negb (fzero l2) && is_finite l2).
      + exists (rn (s + l)). split; [apply fadd_val; [exact V3|exact V4|apply (mild_big _ _ Ms Ml)]|].
        pose proof (rn_plus_err _ _ _ _ V3 V4) as R5. assert (A5 : (Rabs (s + l) <= 2 * B)%R) by (apply Rabs_le; lra). assert (u * Rabs (s + l) <= u * (2 * B))%R by (apply Rmult_le_compat_l; lra).
        apply Rabs_le_inv in R5. apply Rabs_le. lra.
      + exists s. split; [exact V3|]. apply Rabs_le. lra.
  Qed.
End Totals.

(** A collection of two key rates or more with one bump: whichever way CPython's sum works (before or from 3.12 on), the float it
    gives at any date is within a relative 2^-48 of the bump, and is exactly the bump at the dates of the key rates, before the
    first and after the last of them. *)
Theorem C87_sum : forall total h l h' col c b d, either_sum total -> new_collection l h = (h', Ok col) -> (2 <= List.length l)%nat ->
  c <> THIRTY360 -> (forall a, In a l -> kr_dcc (h a) = c /\ countable c (kr_date (h a))) ->
  is_finite b = true -> (B2R b = 0 \/ bpow radix2 (-900) <= B2R b <= bpow radix2 900)%R ->
  exists x, f_coll_call total b h' col d = Ok x /\ is_finite x = true /\
    (Rabs (B2R x - B2R b) <= / 2 ^ 48 * B2R b)%R /\
    (In d (dates h l) \/ (forall a, In a l -> d < kr_date (h a)) \/ (forall a, In a l -> kr_date (h a) < d) -> feq x b = true).
Proof.
  intros total h l h' col c b d ES E L NT G Fb Nb. set (B := B2R b) in *. assert (Vb : val b B) by (split; auto). pose proof tiny_pos as TP. pose proof u_small as U.
  assert (RB : (0 <= B <= bpow radix2 900)%R) by (destruct Nb as [-> | Nb]; [split; [lra|apply bpow_ge_0]|unfold tiny in TP; lra]).
  assert (Rb : range B). { split; [lra|]. pose proof (four_B B RB). lra. }
  assert (Nm : normal B) by (unfold normal, tiny; lra).
  assert (NE : l <> []) by (intros ->; cbn in L; lia).
  assert (ND : NoDup (dates h l)).
  { destruct (ListDec.NoDup_dec Z.eq_dec (dates h l)) as [|N]; auto. destruct (new_collection_err l h (or_intror N)) as (x & E'). rewrite E in E'. discriminate. }
  destruct (new_collection_ok l h NE ND) as (x0 & c0 & E1 & P1 & I1 & L1). rewrite E in E1. injection E1 as <- <-.
  pose proof (linked_cores _ _ _ _ L1) as C. pose proof (linked_chained _ _ _ _ L1) as CH. cbn in CH.
  assert (In1 : forall y, In y col -> In y l) by (intros y Iy; apply (Permutation.Permutation_in y P1 Iy)).
  assert (In2 : forall y, In y l -> In y col) by (intros y Iy; apply (Permutation.Permutation_in y (Permutation.Permutation_sym P1) Iy)).
  assert (Dt : forall y, kr_date (h' y) = kr_date (h y)) by (intros y; destruct (C y) as (_ & C2 & _); congruence).
  assert (Fin : Forall (fine h' c) col).
  { apply Forall_forall. intros y Iy. destruct (G y (In1 y Iy)) as (G1 & G2). destruct (C y) as (C1 & C2 & C3). unfold fine. rewrite Dt. split; [congruence|exact G2]. }
  apply Permutation.Permutation_length in P1 as PL. destruct col as [|a [|g r]]; cbn in PL; try lia.
  assert (Inc : KeyRateFacts.increasing h' (a :: g :: r)) by (unfold KeyRateFacts.increasing; rewrite <- (same_cores_dates h h'); auto).
  destruct (all_terms h' c b B NT Vb Rb d a g r CH Inc Fin) as (n & mid & m & Tm & Co).
  unfold f_coll_call. change (fun a0 : addr => f_kr_call b (h' a0) d) with (term h' b d). rewrite Tm. cbn [bind]. eexists. split; [reflexivity|].
  assert (S32 : (/ 2 ^ 48 = 32 * u)%R) by (replace (32 * u)%R with (u * 2 ^ 5)%R by ring; rewrite u_pow by lia; reflexivity). rewrite S32.
  assert (Fin2 : forall x, val x B -> is_finite x = true /\ (Rabs (B2R x - B) <= 32 * u * B)%R /\ feq x b = true).
  { intros x V. split; [apply V|]. split; [|apply (feq_val _ _ _ _ V Vb); reflexivity]. destruct V as [_ ->]. replace (B - B)%R with 0%R by ring. rewrite Rabs_R0. assert (0 <= u * B)%R by (apply Rmult_le_pos; lra). lra. }
  destruct Co as [(x & -> & Vx)|(x & y & vx & vy & -> & Vx & Vy & Bx & By & Ex & (d1 & d2 & I3 & I4 & L3) & Er)].
  - destruct (Fin2 _ (sum_one B RB total n m x ES Vx)) as (F1 & F2 & F3). auto.
  - destruct (sum_near B RB total n m x y vx vy ES Vx Vy Bx By (Er Nm)) as (v & V & Ev). split; [apply V|]. split; [destruct V as [_ ->]; exact Ev|].
    intros [Hi|[Hb|Ha]].
    + apply in_map_iff in Hi. destruct Hi as (z & Ez & Iz). destruct Ex as [-> ->]; [apply in_map_iff; exists z; split; [rewrite Dt; exact Ez|auto]|].
      destruct (Fin2 _ (sum_exact B RB total n m x 0%R y ES Vx ltac:(auto))) as (_ & _ & F3). exact F3.
    + exfalso. apply in_map_iff in I3. destruct I3 as (z & Ez & Iz). specialize (Hb z (In1 z Iz)). rewrite Dt in Ez. lia.
    + exfalso. apply in_map_iff in I4. destruct I4 as (z & Ez & Iz). specialize (Ha z (In1 z Iz)). rewrite Dt in Ez. lia.
Qed.
Print Assumptions C87_sum.

(** Two key rates three days apart, each with a bump of one basis point, do not add up to it exactly in between. *)
Definition bp : f64 := flit 7378697629483821 (-66).
Definition two_rates : heap := fun a => new_key_rate ACT365 (match a with O => 738521 | _ => 738524 end) None None.
Definition linked_rates : heap := fst (new_collection [0%nat; 1%nat] two_rates).
Lemma linked_rates_eq : new_collection [0%nat; 1%nat] two_rates = (linked_rates, Ok [0%nat; 1%nat]).
Proof.
  assert (E : snd (new_collection [0%nat; 1%nat] two_rates) = Ok [0%nat; 1%nat]) by (vm_compute; reflexivity). unfold linked_rates. rewrite <- E. apply surjective_pairing.
Qed.
Theorem C87_exact_refuted : forall total, either_sum total -> exists h' col d x,
  new_collection [0%nat; 1%nat] two_rates = (h', Ok col) /\ f_coll_call total bp h' col d = Ok x /\ feq x bp = false.
Proof.
  intros total T. exists linked_rates, [0%nat; 1%nat], 738522.
  exists (ok_or (f_coll_call total bp linked_rates [0%nat; 1%nat] 738522)).
  split; [apply linked_rates_eq|]. destruct T as [-> | ->]; (split; [apply ok_eq; vm_compute; reflexivity|vm_compute; reflexivity]).
Qed.
Print Assumptions C87_exact_refuted.
Lemma bp_value : B2R bp = (IZR 7378697629483821 * bpow radix2 (-66))%R /\ is_finite bp = true.
Proof. destruct (flit_val 7378697629483821 (-66)) as [F V]; [lia|lia|]. split; assumption. Qed.
Example C87_case : (forall a, In a [0%nat; 1%nat] -> kr_dcc (two_rates a) = ACT365 /\ countable ACT365 (kr_date (two_rates a))) /\
  (bpow radix2 (-900) <= B2R bp <= bpow radix2 900)%R /\
  exists x, f_coll_call f_sum bp linked_rates [0%nat] 738522 = Ok x /\ flt (of_int 0) x = true /\ flt x bp = true.
Proof.
  split; [intros a [<- | [<- | []]]; (split; [reflexivity|split; [unfold date_ok, min_date, max_date; cbn; lia|discriminate]])|]. split.
  - destruct bp_value as [-> _]. split.
    + apply Rle_trans with (1 * bpow radix2 (-66))%R; [rewrite Rmult_1_l; apply bpow_le; lia|]. apply Rmult_le_compat_r; [apply bpow_ge_0|apply IZR_le; lia].
    + apply Rle_trans with (bpow radix2 100 * bpow radix2 (-66))%R; [apply Rmult_le_compat_r; [apply bpow_ge_0|change (bpow radix2 100) with (IZR (2 ^ 100)); apply IZR_le; lia]|]. rewrite <- bpow_plus. apply bpow_le. lia.
  - exists (ok_or (f_coll_call f_sum bp linked_rates [0%nat] 738522)). split; [apply ok_eq; vm_compute; reflexivity|]. split; vm_compute; reflexivity.
Qed.
