(** Macaulay durations in double precision: C116. *)
From Verif Require Import Base PyDate PyDateFacts DayCount DayCountFacts Scheduler SchedulerFacts ModFollFacts KeyRate KeyRateFacts Curve Bond BondFacts P_DayCount P_Bond P_BondYield Float FloatFacts FloatDayCount P_FloatDayCount FloatBond P_FloatBond P_FloatLoan P_FloatSwap FloatYield P_FloatYield FloatDuration.
From Coq Require Import Lra Reals Rpower Qreals.
From Flocq Require Import Core BinarySingleNaN.
Open Scope Z_scope.

(** every payment still to be received when the bond settles lies ahead of the reference date, at most T coupon periods away *)
Definition ahead (b : bond) (ref : date) (T : R) : Prop :=
  forall p q, In p (coupons b ++ redemption b) -> settlement_date b <= bp_unadjusted p -> acc (b_dcc (args b)) ref (bp_date p) = Ok q ->
    (0 <= Q2R q /\ Q2R q * IZR (per_year (freq (args b))) <= T)%R.

Definition M761 : R := bpow radix2 761.
Section Loop.
  Variables (pow : f64 -> f64 -> res f64) (b : bond) (rate : f64) (r T : R) (ref : date).
  Hypothesis Lp : libm_pow pow.
  Hypothesis Vr : val rate r.
  Let n := per_year (freq (args b)).
  Hypothesis Hr : freq (args b) <> ZERO_COUPON -> (- (2 / 5) <= r / IZR n <= 9 / 10)%R.
  Hypothesis Or : date_ok ref.
  Hypothesis HT : (0 <= T <= 500)%R.
  Let K1 : R := (14 * T + 20)%R.
  Lemma K1_range : (20 <= K1 <= 7020)%R. Proof. unfold K1. lra. Qed.

  Lemma loop_pvta : forall l fl, Forall2 pays fl l -> (forall p q, In p l -> settlement_date b <= bp_unadjusted p -> acc (b_dcc (args b)) ref (bp_date p) = Ok q -> (0 <= Q2R q /\ Q2R q * IZR n <= T)%R) ->
    forall (m : nat) s sf s', (m + List.length l <= 1010)%nat -> val sf s' -> near (K1 + 2 * INR m) s s' -> (0 <= s <= INR m * M761)%R ->
    match add_pv_times_accrual b r ref l s with
    | Err er => f_add_pv_times_accrual pow (args b) (settlement_date b) rate ref fl sf = Err er
    | Ok v => exists z w, f_add_pv_times_accrual pow (args b) (settlement_date b) rate ref fl sf = Ok z /\ val z w /\ near (K1 + 2 * INR (m + List.length l)) v w /\ (0 <= v <= INR (m + List.length l) * M761)%R
    end.
  Proof.
    pose proof K1_range as KR. assert (MP : (0 < M761)%R) by apply bpow_gt_0. induction 1 as [|[[d un] x] p fl l Pp Rest IH]; intros Ht m s sf s' Lm Vs Ns Bs; cbn [add_pv_times_accrual f_add_pv_times_accrual].
    - exists sf, s'. rewrite Nat.add_0_r. auto.
    - destruct Pp as (D1 & D2 & Od & A0 & Sa & v & Vx & Nx). cbn [fst snd] in D1, D2, Vx. subst d un. cbn [List.length] in Lm.
      assert (IH' := IH (fun p0 q0 I => Ht p0 q0 (or_intror I))). clear IH. specialize (Ht p).
      unfold is_payment_received. cbn [bind]. destruct (settlement_date b <=? bp_unadjusted p) eqn:Rc.
      + apply Z.leb_le in Rc. destruct (acc (b_dcc (args b)) ref (bp_date p)) as [q|er] eqn:A; cbn [bind]; [|rewrite (acc_err _ _ _ _ A); reflexivity].
        destruct (acc_near _ _ _ _ Or Od A) as (a & av & Fa & Va & Na & Sq). rewrite Fa. cbn [bind]. specialize (Ht q (or_introl eq_refl) Rc eq_refl). destruct Ht as [Q0 Ht]. fold n.
        assert (Hn : n = 0 \/ 1 <= n <= 12) by (unfold n; destruct (freq (args b)); cbn; lia). destruct Hn as [Z0|Hn].
        { rewrite Z0. unfold fixed_df, f_fixed_df. cbn [Z.eqb bind]. rewrite fdiv_zero; [reflexivity|]. apply (of_int_val 0 ltac:(lia)). }
        assert (Nzc : freq (args b) <> ZERO_COUPON) by (intros Z0; unfold n in Hn; rewrite Z0 in Hn; cbn in Hn; lia). specialize (Hr Nzc).
        assert (Er0 : (Rabs (r - r) <= 0 * u * IZR n)%R) by (rewrite Rminus_diag_eq, Rabs_R0 by reflexivity; lra).
        assert (N0 : (0 <= IZR n)%R) by (apply IZR_le; lia). assert (Qn : (0 <= Q2R q * IZR n)%R) by (apply Rmult_le_pos; assumption).
        destruct (df_near pow n rate r r a av q 0 Lp Hn Vr ltac:(lra) Er0 Hr Va Na Sq ltac:(rewrite Rabs_pos_eq by exact Qn; lra)) as (df & dv & Fdf & Vdf & Edf & Ndf & Sdf & Pdf). rewrite Edf, Fdf. cbn [bind].
        set (D := (1 / Rpower (1 + r / IZR n) (Q2R q * IZR n))%R) in *.
        assert (Kq : ((2 * 0 + 14) * Rabs (Q2R q * IZR n) + 6 <= K1 - 14)%R) by (rewrite Rabs_pos_eq by exact Qn; unfold K1; lra).
        apply (near_weak _ _ _ _ Kq) in Ndf. pose proof (rel_mul (K1 - 14) 4 _ _ _ _ ltac:(lra) ltac:(lra) Ndf Nx) as Nm.
        pose proof (sized_mul _ _ _ _ Sdf Sa) as Sm. destruct (rel_round (K1 - 14 + 4 + 1) _ _ ltac:(lra) (sized_mid (500 + 211) _ ltac:(lia) Sm) Nm) as [Bm Nr].
        pose proof (fmul_val _ _ _ _ Vdf Vx Bm) as Vm. replace (K1 - 14 + 4 + 1 + 2)%R with (K1 - 7)%R in Nr by ring.
        pose proof (rel_mul (K1 - 7) 4 _ _ _ _ ltac:(lra) ltac:(lra) Nr Na) as Nm2. pose proof (sized_mul _ _ _ _ Sm Sq) as Sm2.
        destruct (rel_round (K1 - 7 + 4 + 1) _ _ ltac:(lra) (sized_mid (500 + 211 + 50) _ ltac:(lia) Sm2) Nm2) as [Bm2 Nr2].
        pose proof (fmul_val _ _ _ _ Vm Va Bm2) as Vm2. replace (K1 - 7 + 4 + 1 + 2)%R with K1 in Nr2 by ring.
        set (f := rn (rn (dv * v) * av)) in *. set (term := (D * bp_amount p * Q2R q)%R) in *.
        assert (T0 : (0 <= term <= M761)%R).
        { assert (P : (0 <= term)%R) by (unfold term; apply Rmult_le_pos; [apply Rmult_le_pos; lra|exact Q0]). split; [exact P|]. destruct Sm2 as [-> | [_ Sm2]]; [lra|]. rewrite Rabs_pos_eq in Sm2 by exact P. apply Rle_trans with (1 := Sm2). apply bpow_le. lia. }
        assert (Im : (0 <= INR m <= 1010)%R) by (split; [apply pos_INR|rewrite INR_IZR_INZ; apply IZR_le; lia]).
        assert (Nr' : near (K1 + 2 * INR m) term f) by (apply near_weak with (2 := Nr2); lra).
        pose proof (rel_add (K1 + 2 * INR m) _ _ _ _ (proj1 Bs) (proj1 T0) ltac:(lra) Ns Nr') as Na2.
        assert (Ss : (0 <= s + term <= INR (S m) * M761)%R) by (rewrite S_INR; lra).
        destruct (rel_pos (K1 + 2 * INR m) _ _ ltac:(lra) (proj1 Ss) Na2) as [P1 P2].
        assert (Bg : (Rabs (s' + f) <= big)%R).
        { rewrite Rabs_pos_eq by exact P1. apply Rle_trans with (1 := P2). apply Rle_trans with (bpow radix2 12 * M761)%R; [|unfold M761; rewrite <- bpow_plus; apply bpow_le; lia].
          change (bpow radix2 12) with 4096%R. assert (INR (S m) * M761 <= 1011 * M761)%R by (apply Rmult_le_compat_r; [lra|rewrite S_INR; lra]). lra. }
        pose proof (fadd_val _ _ _ _ Vs Vm2 Bg) as Va2. pose proof (rn_plus_err _ _ _ _ Vs Vm2) as Ea.
        assert (N1 : near 1 (s' + f) (rn (s' + f))) by (apply near_of_abs; [lra|]; rewrite Rmult_1_l; exact Ea).
        pose proof (rel_trans (K1 + 2 * INR m) 1 _ _ _ ltac:(lra) ltac:(lra) Na2 N1) as Nf. replace (K1 + 2 * INR m + 1 + 1)%R with (K1 + 2 * INR (S m))%R in Nf by (rewrite S_INR; ring).
        specialize (IH' (S m) _ _ _ ltac:(lia) Va2 Nf Ss). replace (m + List.length (p :: l))%nat with (S m + List.length l)%nat by (cbn [List.length]; lia). exact IH'.
      + assert (W : (INR m <= INR (m + 1))%R) by (apply le_INR; lia).
        assert (Ns' : near (K1 + 2 * INR (S m)) s s') by (apply near_weak with (2 := Ns); rewrite S_INR; lra). assert (Bs' : (0 <= s <= INR (S m) * M761)%R) by (rewrite S_INR; lra).
        specialize (IH' (S m) _ _ _ ltac:(lia) Vs Ns' Bs'). replace (m + List.length (p :: l))%nat with (S m + List.length l)%nat by (cbn [List.length]; lia). exact IH'.
  Qed.
End Loop.

(** C116: the Macaulay duration. *)
Theorem C116_macaulay : forall pow a b rate ref T, libm_pow pow -> plain_bond a -> new_bond (fb_terms a) = Ok b -> (0 <= coupon_rate (fb_terms a))%R ->
  is_finite rate = true -> (freq (fb_terms a) <> ZERO_COUPON -> - (2 / 5) <= B2R rate / IZR (per_year (freq (fb_terms a))) <= 9 / 10)%R ->
  date_ok (valued (fb_terms a) ref) -> (0 <= T <= 500)%R -> ahead b (valued (fb_terms a) ref) T ->
  (0 < principal (fb_terms a))%R -> (/ 2 ^ 100 <= price (fb_terms a) <= full_price b)%R ->
  exists fb, f_new_bond a = Ok fb /\
  (forall er, f_macaulay_duration pow a fb rate ref = Err er <-> macaulay_duration b (B2R rate) ref = Err er) /\
  (forall D, macaulay_duration b (B2R rate) ref = Ok D -> exists x, f_macaulay_duration pow a fb rate ref = Ok x /\ is_finite x = true /\ (0 <= B2R x)%R /\
     (Rabs (B2R x - D) <= (14 * T + 2 * INR (List.length (coupons b)) + 51) * / 2 ^ 53 * D + / 2 ^ 1000)%R).
Proof.
  intros pow a b rate ref T Lp Pl B C0 Fr Hr Or HT Wt P0 Hp. destruct (C108_accuracy a b Pl B) as (fb & F & Cl). exists fb. split; [exact F|].
  destruct (pays_of a b fb Pl B F ltac:(lra) C0) as [Pc (pr & Epr & Pp)]. destruct (new_bond_inv _ _ B) as (Ar & _ & _ & Ecs & _).
  destruct Cl as (_ & Es & _ & _ & _ & _ & Ff & _ & _ & Ep). rewrite u_value in *. rewrite Ar in Ep.
  unfold f_macaulay_duration, macaulay_duration. rewrite Epr, Es. cbn [bind]. rewrite Ar. change (match ref with Some d => d | None => purchase_date (fb_terms a) end) with (valued (fb_terms a) ref).
  assert (Hr' : freq (args b) <> ZERO_COUPON -> (- (2 / 5) <= B2R rate / IZR (per_year (freq (args b))) <= 9 / 10)%R) by (rewrite Ar; exact Hr).
  pose proof (coupons_few _ _ _ Ecs) as Few. pose proof (of_int_val 0 ltac:(lia)) as V0. change (IZR 0) with 0%R in V0.
  assert (Lr : List.length (redemption b) = 1%nat) by (destruct (redemption_is _ _ B) as (d & _ & ->); reflexivity).
  assert (Ht1 : forall p q, In p (coupons b) -> settlement_date b <= bp_unadjusted p -> acc (b_dcc (args b)) (valued (fb_terms a) ref) (bp_date p) = Ok q -> (0 <= Q2R q /\ Q2R q * IZR (per_year (freq (args b))) <= T)%R) by (intros p q I; apply Wt; apply in_or_app; left; exact I).
  assert (Ht2 : forall p q, In p (redemption b) -> settlement_date b <= bp_unadjusted p -> acc (b_dcc (args b)) (valued (fb_terms a) ref) (bp_date p) = Ok q -> (0 <= Q2R q /\ Q2R q * IZR (per_year (freq (args b))) <= T)%R) by (intros p q I; apply Wt; apply in_or_app; right; exact I).
  pose proof (K1_range T HT) as KR.
  (* the denominator *)
  pose proof Pl as ((_ & _ & Bq) & _ & (Fp & Vp & Sp) & _). set (P := principal (fb_terms a)) in *. set (q := price (fb_terms a)) in *. set (fp := full_price b) in *. set (ff := B2R (fb_full_price fb)) in *.
  pose proof u_tiny as Us. assert (E100 : (/ 2 ^ 100 = bpow radix2 (-100))%R) by apply (two_pow 100). rewrite E100 in Hp. pose proof (bpow_gt_0 radix2 (-100)) as P100.
  pose proof (full_bounded a b Pl B) as Hb. fold q fp in Hb. rewrite (Rabs_pos_eq q), (Rabs_pos_eq (fp - q)) in * by lra. replace (q + (fp - q))%R with fp in * by ring.
  assert (PS : (bpow radix2 (-100) <= P <= bpow radix2 100)%R). { destruct Sp as [Z0|S1]; [lra|]. rewrite Rabs_pos_eq in S1 by lra. exact S1. }
  destruct (target_near (fb_full_price fb) (fb_principal a) ff P fp fp (conj Ff eq_refl) (conj Fp Vp) PS ltac:(lra) ltac:(rewrite Rabs_pos_eq by lra; lra) Ep) as (zd & wd & Ezd & Vzd & Nzd & _ & Bhi).
  rewrite Ezd. 
  set (den := (fp * P / 100)%R) in *. assert (Ed : (P / 100 * fp = den)%R) by (unfold den; field). rewrite Ed in *.
  assert (Dlo : (bpow radix2 (-207) <= den)%R).
  { assert (bpow radix2 (-100) * bpow radix2 (-100) <= fp * P)%R by (apply Rmult_le_compat; lra). rewrite <- bpow_plus in H. assert (E : bpow radix2 (-100 + -100) = (128 * bpow radix2 (-207))%R) by (change (-100 + -100) with (7 + -207); rewrite bpow_plus; reflexivity).
    pose proof (bpow_gt_0 radix2 (-207)). unfold den. lra. }
  assert (D0 : (0 < den)%R) by (pose proof (bpow_gt_0 radix2 (-207)); lra). assert (Nd : near 25 den wd) by (apply near_of_abs; [lra|]; rewrite (Rabs_pos_eq den) by lra; exact Nzd).
  (* the numerator *)
  pose proof (loop_pvta pow b rate (B2R rate) T (valued (fb_terms a) ref) Lp (conj Fr eq_refl) Hr' Or HT (coupons b) (fb_coupons fb) Pc Ht1 0%nat 0%R (of_int 0) 0%R ltac:(lia) V0) as L1.
  rewrite Ar in L1. specialize (L1 ltac:(apply near_weak with (2 := near_refl 0%R); cbn [INR]; lra) ltac:(cbn [INR]; lra)).
  destruct (add_pv_times_accrual b (B2R rate) (valued (fb_terms a) ref) (coupons b) 0) as [s|er]; cbn [bind]; [|rewrite L1; cbn [bind]; split; [intros er'; split; intros [= ->]; reflexivity|discriminate]]. destruct L1 as (z & w & E1 & V1 & N1 & B1). rewrite E1. cbn [bind].
  pose proof (loop_pvta pow b rate (B2R rate) T (valued (fb_terms a) ref) Lp (conj Fr eq_refl) Hr' Or HT (redemption b) pr Pp Ht2 (0 + List.length (coupons b))%nat s z w ltac:(lia) V1 N1 B1) as L2. rewrite Ar in L2.
  destruct (add_pv_times_accrual b (B2R rate) (valued (fb_terms a) ref) (redemption b) s) as [v|er]; cbn [bind]; [|rewrite L2; cbn [bind]; split; [intros er'; split; intros [= ->]; reflexivity|discriminate]]. destruct L2 as (z2 & w2 & E2 & V2 & N2 & B2). rewrite E2. cbn [bind].
  rewrite Lr, Nat.add_0_l in N2, B2. rewrite plus_INR in N2. cbn [INR] in N2.
  assert (N15 : (0 <= INR (List.length (coupons b)) <= 1001)%R). { split; [apply pos_INR|]. apply le_INR in Few. replace (INR 1001) with 1001%R in Few by (rewrite INR_IZR_INZ; reflexivity). exact Few. }
  set (N := INR (List.length (coupons b))) in *. set (K := (14 * T + 2 * N + 22)%R). assert (HK : (22 <= K <= 10000)%R) by (unfold K; lra).
  assert (N3 : near K v w2) by (apply near_weak with (2 := N2); unfold K; lra).
  assert (Bv : (v <= bpow radix2 772)%R). { apply Rle_trans with (1 := proj2 B2). apply Rle_trans with (bpow radix2 11 * M761)%R; [|unfold M761; rewrite <- bpow_plus; apply bpow_le; lia]. apply Rmult_le_compat_r; [apply bpow_ge_0|]. change (bpow radix2 11) with (IZR 2048). rewrite INR_IZR_INZ. apply IZR_le. lia. }
  destruct (Req_EM_T den 0) as [|_]; [lra|].
  pose proof (rel_inv 25 den wd ltac:(lra) ltac:(lra) Nd) as N4. pose proof (rel_mul K (25 + 1) _ _ _ _ ltac:(lra) ltac:(lra) N3 N4) as N5. fold (v / den)%R in N5. fold (w2 / wd)%R in N5.
  assert (I0 : (0 < / den)%R) by (apply Rinv_0_lt_compat; exact D0). assert (Q0 : (0 <= v / den)%R) by (apply Rmult_le_pos; lra).
  assert (Qb : (v / den <= bpow radix2 979)%R). { unfold Rdiv. change 979 with (772 + 207). rewrite bpow_plus. apply Rmult_le_compat; try lra. replace (bpow radix2 207) with (/ bpow radix2 (-207))%R by (rewrite <- bpow_opp; reflexivity). apply Rinv_le_contravar; [apply bpow_gt_0|exact Dlo]. }
  destruct (rel_pos (K + (25 + 1) + 1) _ _ ltac:(lra) Q0 N5) as [P1 P2].
  assert (Wd : (0 < wd)%R). { apply Rabs_le_inv in Nzd. assert (25 * u * den <= 1 / 2 * den)%R by (apply Rmult_le_compat_r; lra). lra. }
  assert (Bg : (Rabs (w2 / wd) <= big)%R). { rewrite Rabs_pos_eq by exact P1. apply Rle_trans with (bpow radix2 1 * bpow radix2 979)%R; [change (bpow radix2 1) with 2%R; lra|]. rewrite <- bpow_plus. apply pow_big. lia. }
  destruct (fdiv_val _ _ _ _ V2 Vzd ltac:(lra) Bg) as (x & Ex & [Fx Vx]). rewrite Ex. split; [intros er; split; discriminate|]. intros D [= <-]. exists x. split; [reflexivity|]. split; [exact Fx|]. rewrite Vx.
  split; [rewrite <- rn_0; apply rn_le; exact P1|].
  pose proof (rn_abs (w2 / wd)) as Er. pose proof tiny_1000 as T3. pose proof (near_abs _ _ _ N5) as Ea. rewrite (Rabs_pos_eq (v / den)) in Ea by exact Q0. rewrite (Rabs_pos_eq (w2 / wd)) in Er by exact P1.
  assert (Eu : (u * (w2 / wd) <= u * (2 * (v / den)))%R) by (apply Rmult_le_compat_l; lra).
  replace (rn (w2 / wd) - v / den)%R with ((rn (w2 / wd) - w2 / wd) + (w2 / wd - v / den))%R by ring. apply Rle_trans with (1 := Rabs_triang _ _).
  replace ((14 * T + 2 * N + 51) * u * (v / den))%R with ((K + (25 + 1) + 1) * u * (v / den) + u * (2 * (v / den)))%R by (unfold K; ring). lra.
Qed.
Print Assumptions C116_macaulay.

(** the accruals are not negative except under 30/360, so that there it is enough to bound the distances *)
Lemma acc_not_negative c s e q : c <> THIRTY360 -> date_ok s -> date_ok e -> acc c s e = Ok q -> (0 <= q)%Q.
Proof.
  intros Nc Os Oe E. assert (L : s <= e). { unfold acc in E. rewrite q_compute_days in E. destruct (Z.leb_spec s e) as [L|L]; [exact L|discriminate]. }
  assert (Act : forall K, In (c, K) actual_over -> (0 < K)%Q -> (0 <= q)%Q).
  { intros K I Pk. destruct (C01_actual_exact c K s e I L) as (q' & E' & V). assert (q' = q) by (unfold acc in E; congruence). subst q'. rewrite V. apply Qle_shift_div_l; [exact Pk|]. rewrite Qmult_0_l. change 0%Q with (inject_Z 0). rewrite <- Zle_Qle. lia. }
  destruct (Z.eq_dec s e) as [->|Ne]. { apply acc_same in E. apply Rle_Qle. rewrite E. unfold Q2R; cbn; lra. }
  destruct c.
  all: try (refine (Act _ ltac:(cbn; auto) _); reflexivity).
  - destruct (Z.le_gt_cases 2 (year s)) as [Y|Y]; [|exfalso; destruct (C02_actual_actual_defined s e Os Oe ltac:(lia)) as [_ D]; unfold acc in E; rewrite D in E; [discriminate|]; apply date_ok_year in Os; lia].
    destruct (accrual_pos ACTACT s e) as (q' & E' & P); [split; assumption|split; [assumption|pose proof (year_mono s e ltac:(lia)); lia]|lia|left; discriminate|]. assert (q' = q) by congruence. subst q'. apply Qlt_le_weak. exact P.
  - contradiction.
Qed.
Theorem C116_ahead : forall a b ref T, plain_bond a -> new_bond (fb_terms a) = Ok b -> b_dcc (fb_terms a) <> THIRTY360 -> date_ok ref -> within b ref T -> ahead b ref T.
Proof.
  intros a b ref T Pl B Nc Or W p q I _ A. destruct (new_bond_inv _ _ B) as (Ar & _ & Edd & Ecs & _). pose proof Pl as (_ & _ & _ & Om & Op). destruct (new_dates_ok _ _ _ Om Edd Ecs) as [_ Oc].
  assert (Od : date_ok (bp_date p)).
  { apply in_app_or in I. destruct I as [I|I].
    - pose proof (coupons_spec _ _ _ Ecs) as S0. destruct (coupon_step (freq (fb_terms a))) as [[m|]|]; [|rewrite S0 in I; destruct I|contradiction]. destruct S0 as (l & _ & _ & _ & _ & S0). apply (adjust_isbd _ _ _ (Oc p I) (proj1 (S0 p I))).
    - destruct (redemption_is _ _ B) as (d & Aj & E). rewrite E in I. destruct I as [<-|[]]. cbn [bp_date]. apply (adjust_isbd _ _ _ Om Aj). }
  pose proof (W p q I A) as H. rewrite Ar in A. pose proof (acc_not_negative _ _ _ _ Nc Or Od A) as Q0. apply Qle_Rle in Q0. replace (Q2R 0) with 0%R in Q0 by (unfold Q2R; cbn; lra). split; [exact Q0|].
  apply Rle_trans with (2 := H). apply Rle_abs.
Qed.
Print Assumptions C116_ahead.

(** Which payments count is decided by the settlement of the purchase, not by the reference date: with a reference date after a
    payment that was still due at settlement, the method raises, where the price at that date leaves the payment out. *)
Lemma late_raises pow t settled rate ref : forall l s, (exists x, In x l /\ settled <= snd (fst x) /\ fst (fst x) < ref) -> exists er, f_add_pv_times_accrual pow t settled rate ref l s = Err er.
Proof.
  induction l as [|[[d un] x] l IH]; intros s (y & I & L1 & L2); [destruct I|]. cbn [f_add_pv_times_accrual]. destruct I as [<-|I].
  - cbn [fst snd] in *. destruct (Z.leb_spec settled un); [|lia]. rewrite f_compute_days. destruct (Z.leb_spec ref d); [lia|]. cbn [bind]. eauto.
  - assert (E : exists y, In y l /\ settled <= snd (fst y) /\ fst (fst y) < ref) by eauto. destruct (settled <=? un); [|apply IH, E].
    destruct (f_compute_accrual_length _ _ _) as [a|er]; cbn [bind]; [|eauto]. destruct (f_fixed_df _ _ _ _) as [df|er]; cbn [bind]; [|eauto]. apply IH, E.
Qed.
Theorem C116_past_payment : forall pow a b fb rate ref p, plain_bond a -> new_bond (fb_terms a) = Ok b -> f_new_bond a = Ok fb -> In p (coupons b) -> settlement_date b <= bp_unadjusted p -> bp_date p < ref ->
  exists er, f_macaulay_duration pow a fb rate (Some ref) = Err er.
Proof.
  intros pow a b fb rate ref p Pl B F I L1 L2. destruct (C108_accuracy a b Pl B) as (fb' & F' & Cl). assert (fb' = fb) by congruence. subst fb'. destruct Cl as (_ & Es & Em & _).
  unfold f_macaulay_duration. destruct (f_redemption a) as [pr|er]; cbn [bind]; [|eauto].
  assert (I2 : In (bp_date p, bp_unadjusted p) (List.map (fun c => fst c) (fb_coupons fb))) by (rewrite Em; apply (in_map (fun p => (bp_date p, bp_unadjusted p))), I).
  apply in_map_iff in I2. destruct I2 as (x & Ex & Ix). destruct (late_raises pow (fb_terms a) (fb_settled fb) rate ref (fb_coupons fb) (of_int 0)) as (er & E).
  { exists x. split; [exact Ix|]. destruct x as [[d un] v0]. cbn [fst snd] in *. injection Ex as -> ->. rewrite Es. auto. }
  rewrite E. cbn [bind]. eauto.
Qed.
Print Assumptions C116_past_payment.

(** Non-vacuity: the 2 year note of C112 meets the hypotheses at 3.90625%; a reference date in June 2024 lies after its coupon of
    15 February 2024, and the price at that date is defined. *)
Lemma note_february b : new_bond (fb_terms f_note) = Ok b -> existsb (fun p => (settlement_date b <=? bp_unadjusted p) && (bp_date p <? 739064)) (coupons b) = true.
Proof.
  intros B'. assert (H : exists b, new_bond (fb_terms f_note) = Ok b /\ existsb (fun p => (settlement_date b <=? bp_unadjusted p) && (bp_date p <? 739064)) (coupons b) = true).
  { eexists. split; [unfold f_note; cbn [fb_terms]; build_bond|]. cbn [coupons settlement_date]. vm_compute. reflexivity. }
  destruct H as (b' & B & H). rewrite B in B'. injection B' as <-. exact H.
Qed.
Local Opaque f_new_bond new_bond.
Example C116_case : libm_pow rounded_pow /\ plain_bond f_note /\ exists b (ytm : f64) D p v, new_bond (fb_terms f_note) = Ok b /\ List.length (coupons b) = 4%nat /\ is_finite ytm = true /\ B2R ytm = (5 / 128)%R /\
  (0 <= coupon_rate (fb_terms f_note))%R /\ (0 < principal (fb_terms f_note))%R /\ (- (2 / 5) <= B2R ytm / IZR (per_year (freq (fb_terms f_note))) <= 9 / 10)%R /\ b_dcc (fb_terms f_note) <> THIRTY360 /\
  date_ok (valued (fb_terms f_note) None) /\ within b (valued (fb_terms f_note) None) 4 /\ ahead b (valued (fb_terms f_note) None) 4 /\
  (/ 2 ^ 100 <= price (fb_terms f_note) <= full_price b)%R /\ macaulay_duration b (B2R ytm) None = Ok D /\
  In p (coupons b) /\ settlement_date b <= bp_unadjusted p /\ bp_date p < 739064 /\ discount_cashflows_by_fixed_rate b (B2R ytm) (Some 739064) = Ok v.
Proof.
  destruct C112_case as (Lp & Pl & b & ytm & v0 & R0 & d0 & D0 & B & Lc & Fy & Y & Hy & Nz & Od & W & Hp & _).
  split; [exact Lp|]. split; [exact Pl|]. 
  destruct C39_case as (mat & purch & b' & Em & Epu & Or & Fp & S & _). assert (mat = 739297) by (vm_compute in Em; congruence). assert (purch = 738764) by (vm_compute in Epu; congruence). subst mat purch.
  pose proof Or as (B' & _). change (fb_terms f_note) with (note UsTreasury 739297 738764 2) in *. assert (b' = b) by congruence. subst b'.
  set (a := note UsTreasury 739297 738764 2) in *. change (per_year (freq a)) with 2 in *. rewrite Y in *.
  destruct (C62_macaulay_defined a b (5 / 128)%R _ Or eq_refl ltac:(change (per_year (freq a)) with 2; lra) Fp S) as (D & ED).
  assert (S2 : add_business_days 739064 1 (b_cal a) = Ok 739065) by (vm_compute; reflexivity).
  assert (Or2 : ordinary a b 739064).
  { destruct Or as (O1 & O2 & O3 & O4 & O5 & O6 & O7 & O8). split; [exact O1|]. split; [exact O2|]. split; [exact O3|]. split; [exact O4|]. split; [exact O5|]. split; [split; [vm_compute; split; discriminate | vm_compute; discriminate]|].
    split; [intros; left; discriminate|]. intros sd H. rewrite S2 in H. injection H as <-. vm_compute. discriminate. }
  destruct (C39_defined a b 739064 _ (5 / 128)%R Or2 S2 ltac:(change (per_year (freq a)) with 2; lra)) as (v & Ev).
  pose proof (note_february b B) as Ex. apply existsb_exists in Ex. destruct Ex as (p & Ip & Hpp). apply andb_prop in Hpp. destruct Hpp as [P1 P2]. apply Z.leb_le in P1. apply Z.ltb_lt in P2.
  exists b, ytm, D, p, v. split; [exact B|]. split; [exact Lc|]. split; [exact Fy|]. rewrite Y. split; [reflexivity|]. split; [cbn; lra|]. split; [cbn; lra|]. split; [lra|]. split; [discriminate|]. split; [exact Od|]. split; [exact W|].
  split; [refine (C116_ahead f_note b _ 4 Pl B _ Od W); discriminate|]. split; [exact Hp|]. split; [exact ED|]. auto.
Qed.
