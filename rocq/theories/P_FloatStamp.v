(** Property theorems C85: day counts between timestamps as the program computes them, in binary64. *)
From Verif Require Import Base PyDate PyDateFacts DayCount DayCountFacts Float FloatDayCount FloatFacts P_FloatDayCount.
From Coq Require Import Reals Qreals Lra Lia.
From Flocq Require Import Core BinarySingleNaN.
Open Scope Z_scope.

Lemma rn_abs x : (Rabs (rn x - x) <= u * Rabs x + u / 1000)%R.
Proof.
  pose proof u_small as U. pose proof (Rabs_pos x). destruct (Rle_or_lt small (Rabs x)) as [H0|H0].
  - pose proof (rn_err x (or_intror H0)). lra.
  - pose proof (rn_nearest x (of_int 0)) as N. assert (Z : B2R (of_int 0) = 0%R) by (apply (of_int_val 0); lia). rewrite Z in N.
    replace (0 - x)%R with (- x)%R in N by ring. rewrite Rabs_Ropp in N.
    assert (small <= u / 1000)%R.
    { unfold small, u. apply Rle_trans with (bpow radix2 (-53) * bpow radix2 (-10))%R; [rewrite <- bpow_plus; apply bpow_le; lia|].
      unfold Rdiv. apply Rmult_le_compat_l; [apply bpow_ge_0|]. cbn. lra. }
    nra.
Qed.

Lemma wrapper_core W I O vI vO A B a b Wd t sg d p r : (3 <= W -> Rabs (vI - I) <= 4 * u * W -> Rabs (vO - O) <= 4 * u * W -> Rabs I <= W -> Rabs O <= W ->
  0 <= A -> 0 <= B -> 0 < Wd -> A + B <= Wd -> Rabs (a - A) <= u * A -> Rabs (b - B) <= u * B ->
  Rabs (t - (a + b)) <= u * Rabs (a + b) -> Rabs (sg - t / Wd) <= u * Rabs (t / Wd) + u / 1000 ->
  Rabs (d - (vO - vI)) <= u * Rabs (vO - vI) -> Rabs (p - d * sg) <= u * Rabs (d * sg) + u / 1000 ->
  Rabs (r - (vI + p)) <= u * Rabs (vI + p) ->
  Rabs sg <= 2 /\ Rabs d <= 3 * W /\ Rabs p <= 6 * W /\ Rabs (r - (I + (O - I) * ((A + B) / Wd))) <= 64 * u * W)%R.
Proof.
  intros PW HI HO BI BO PA PB PWd AB Ha Hb Ht Hs Hd Hp Hr. pose proof u_small as [U0 U1].
  assert (UW : (0 < u * W <= W / 1000000)%R) by nra.
  assert (Small : forall x y k, (Rabs (x - y) <= k -> - k <= x - y <= k)%R) by (intros; apply Rabs_le_inv; assumption).
  (* the share of the day *)
  set (S := (A + B)%R) in *. assert (PS : (0 <= S)%R) by (unfold S; lra).
  assert (US : (0 <= u * S <= S / 1000000)%R) by (split; [apply Rmult_le_pos; lra|unfold Rdiv; rewrite Rmult_comm; apply Rmult_le_compat_l; lra]).
  assert (E1 : (Rabs (a + b - S) <= u * S)%R) by (unfold S; replace (a + b - (A + B))%R with ((a - A) + (b - B))%R by ring; pose proof (Rabs_triang (a - A) (b - B)); lra).
  assert (E2 : (Rabs (a + b) <= 2 * S)%R) by (apply Small in E1; apply Rabs_le; lra).
  assert (E3 : (Rabs (t - S) <= 3 * (u * S))%R).
  { replace (t - S)%R with ((t - (a + b)) + (a + b - S))%R by ring. pose proof (Rabs_triang (t - (a + b)) (a + b - S)).
    assert (u * Rabs (a + b) <= u * (2 * S))%R by (apply Rmult_le_compat_l; lra). lra. }
  set (se := (S / Wd)%R). assert (IW : (0 < / Wd)%R) by (apply Rinv_0_lt_compat; exact PWd).
  assert (Pse : (0 <= se <= 1)%R).
  { unfold se, Rdiv. split; [apply Rmult_le_pos; lra|]. apply Rmult_le_reg_r with Wd; [exact PWd|]. rewrite Rmult_assoc, Rinv_l; lra. }
  assert (E4 : (Rabs (t / Wd - se) <= 3 * u)%R).
  { replace (t / Wd - se)%R with ((t - S) * / Wd)%R by (unfold se; field; lra). rewrite Rabs_mult, (Rabs_pos_eq (/ Wd)) by lra.
    apply Rle_trans with (3 * (u * S) * / Wd)%R; [apply Rmult_le_compat_r; lra|]. replace (3 * (u * S) * / Wd)%R with (3 * u * se)%R by (unfold se; field; lra). nra. }
  assert (E5 : (Rabs (t / Wd) <= 2)%R) by (apply Small in E4; apply Rabs_le; lra).
  assert (E6 : (Rabs (sg - se) <= 6 * u)%R).
  { replace (sg - se)%R with ((sg - t / Wd) + (t / Wd - se))%R by ring. pose proof (Rabs_triang (sg - t / Wd) (t / Wd - se)).
    assert (u * Rabs (t / Wd) <= u * 2)%R by (apply Rmult_le_compat_l; lra). lra. }
  assert (B1 : (Rabs sg <= 2)%R) by (apply Small in E6; apply Rabs_le; lra).
  (* the difference of the day counts *)
  set (D := (O - I)%R). assert (BD : (Rabs D <= 2 * W)%R) by (unfold D; replace (O - I)%R with (O + - I)%R by ring; pose proof (Rabs_triang O (- I)); rewrite Rabs_Ropp in *; lra).
  assert (E7 : (Rabs ((vO - vI) - D) <= 8 * (u * W))%R).
  { unfold D. replace (vO - vI - (O - I))%R with ((vO - O) + - (vI - I))%R by ring. pose proof (Rabs_triang (vO - O) (- (vI - I))). rewrite Rabs_Ropp in *. lra. }
  assert (E8 : (Rabs (vO - vI) <= 3 * W)%R).
  { replace (vO - vI)%R with ((vO - vI - D) + D)%R by ring. pose proof (Rabs_triang (vO - vI - D) D). lra. }
  assert (E9 : (Rabs (d - D) <= 11 * (u * W))%R).
  { replace (d - D)%R with ((d - (vO - vI)) + (vO - vI - D))%R by ring. pose proof (Rabs_triang (d - (vO - vI)) (vO - vI - D)).
    assert (u * Rabs (vO - vI) <= u * (3 * W))%R by (apply Rmult_le_compat_l; lra). lra. }
  assert (B2 : (Rabs d <= 3 * W)%R).
  { replace d with ((d - D) + D)%R by ring. pose proof (Rabs_triang (d - D) D). lra. }
  (* the product *)
  assert (E10 : (Rabs (d * sg - D * se) <= 34 * (u * W))%R).
  { replace (d * sg - D * se)%R with ((d - D) * sg + D * (sg - se))%R by ring. pose proof (Rabs_triang ((d - D) * sg) (D * (sg - se))) as T. rewrite !Rabs_mult in T.
    assert (Rabs (d - D) * Rabs sg <= (11 * (u * W)) * 2)%R by (apply Rmult_le_compat; try apply Rabs_pos; lra).
    assert (Rabs D * Rabs (sg - se) <= (2 * W) * (6 * u))%R by (apply Rmult_le_compat; try apply Rabs_pos; lra). lra. }
  assert (E11 : (Rabs (d * sg) <= 6 * W)%R).
  { rewrite Rabs_mult. apply Rle_trans with (3 * W * 2)%R; [apply Rmult_le_compat; try apply Rabs_pos; lra|lra]. }
  assert (U3 : (u / 1000 <= u * W / 1000)%R) by nra.
  assert (E12 : (Rabs (p - D * se) <= 41 * (u * W))%R).
  { replace (p - D * se)%R with ((p - d * sg) + (d * sg - D * se))%R by ring. pose proof (Rabs_triang (p - d * sg) (d * sg - D * se)).
    assert (u * Rabs (d * sg) <= u * (6 * W))%R by (apply Rmult_le_compat_l; lra). lra. }
  assert (Bd : (Rabs (D * se) <= 2 * W)%R) by (rewrite Rabs_mult, (Rabs_pos_eq se) by lra; apply Rle_trans with (Rabs D * 1)%R; [apply Rmult_le_compat_l; [apply Rabs_pos|lra]|lra]).
  assert (B3 : (Rabs p <= 3 * W)%R).
  { replace p with ((p - D * se) + D * se)%R by ring. pose proof (Rabs_triang (p - D * se) (D * se)). lra. }
  assert (B4 : (Rabs (vI + p) <= 5 * W)%R).
  { replace (vI + p)%R with ((vI - I) + I + p)%R by ring. pose proof (Rabs_triang (vI - I + I) p). pose proof (Rabs_triang (vI - I) I). lra. }
  split; [exact B1|]. split; [exact B2|]. split; [lra|].
  fold D. change ((A + B) / Wd)%R with se. replace (r - (I + D * se))%R with ((r - (vI + p)) + (vI - I) + (p - D * se))%R by ring.
  pose proof (Rabs_triang (r - (vI + p) + (vI - I)) (p - D * se)). pose proof (Rabs_triang (r - (vI + p)) (vI - I)).
  assert (u * Rabs (vI + p) <= u * (5 * W))%R by (apply Rmult_le_compat_l; lra). lra.
Qed.

Definition day_of (m : moment) : date := match m with Day d => d | Stamp t => dt_date t end.
Lemma day_of_ok m : moment_ok m -> date_ok (day_of m).
Proof. destruct m; cbn; [auto|]. intros [H _]. exact H. Qed.
Lemma year_next d : year d <= year (d + 1) <= year d + 1.
Proof.
  split; [apply year_mono; lia|]. destruct (year_yday_spec d) as [E B]. destruct (Z.le_gt_cases (year (d + 1)) (year d + 1)) as [L|L]; [exact L|exfalso].
  destruct (year_yday_spec (d + 1)) as [E' B']. pose proof (dby_mono (year d + 1) (year (d + 1)) L). pose proof (dby_succ (year d)). pose proof (yearlen_bounds (year d + 1)). lia.
Qed.
Lemma seconds_R us : Q2R (seconds us) = (IZR us / 1000000)%R.
Proof. unfold seconds. apply Q2R_quot. lia. Qed.
Lemma seconds_val us : Z.abs us <= us_per_day -> exists x, f_seconds us = Ok x /\ val x (rn (IZR us / 1000000)) /\ (Rabs (rn (IZR us / 1000000) - IZR us / 1000000) <= u * Rabs (IZR us / 1000000))%R.
Proof.
  intros H. unfold us_per_day in H. destruct (int_div_val us 1000000) as (x & X & V); [lia|lia|]. exists x. split; [exact X|]. split; [exact V|].
  apply rn_err. apply (quot_range us 1000000); lia.
Qed.
Lemma width_val n : n = 0 \/ n = 1 -> exists x, f_seconds (n * us_per_day) = Ok x /\ val x (IZR (n * 86400)).
Proof.
  intros N. assert (B : Z.abs (n * us_per_day) <= us_per_day) by (unfold us_per_day; lia). destruct (seconds_val _ B) as (x & X & V & _). exists x. split; [exact X|].
  replace (IZR (n * us_per_day) / 1000000)%R with (IZR (n * 86400)) in V by (rewrite !mult_IZR; unfold us_per_day; lra).
  rewrite (val_format (of_int (n * 86400))) in V by (apply of_int_val; lia). exact V.
Qed.

Lemma close_wider s e q v k : close s e q v -> span s e <= k -> (Rabs (v - Q2R q) <= 4 * u * (2 * IZR k + 3))%R /\ (Rabs (Q2R q) <= 2 * IZR k + 3)%R.
Proof.
  intros (A & B & _) K. apply IZR_le in K. pose proof u_small. split; [|lra]. apply Rle_trans with (1 := A). apply Rmult_le_compat_l; lra.
Qed.

Lemma wrapper_close c s e q : moment_ok s -> moment_ok e -> 0 <= elapsed s e -> include_datetimes (q_fun c) s e = Ok q ->
  exists x v, f_include_datetimes (f_fun c) s e = Ok x /\ val x v /\ (Rabs (v - Q2R q) <= 64 * u * (2 * IZR (span (day_of s) (day_of e)) + 5))%R.
Proof.
  intros Os Oe El H. set (k := span (day_of s) (day_of e)). pose proof (ok_span _ _ (day_of_ok s Os) (day_of_ok e Oe)) as [K0 K1]. fold k in K0, K1.
  assert (Kr : (0 <= IZR k <= 9998)%R) by (split; apply IZR_le; lia). pose proof u_small as U.
  assert (Plain : (exists ds de, s = Day ds /\ e = Day de) \/ exists so si eo ei us1 us2 n1 n2,
    include_datetimes (q_fun c) s e = (do inner <- q_fun c si ei; do outer <- q_fun c so eo; Ok (inner + (outer - inner) * ((seconds us1 + seconds us2) / (seconds (n1 * us_per_day) + seconds (n2 * us_per_day))))%Q) /\
    f_include_datetimes (f_fun c) s e = (do inner <- f_fun c si ei; do outer <- f_fun c so eo; do a <- f_seconds us1; do w1 <- f_seconds (n1 * us_per_day); do b <- f_seconds us2; do w2 <- f_seconds (n2 * us_per_day); do sc <- fdiv (fadd a b) (fadd w1 w2); Ok (fadd inner (fmul (fsub outer inner) sc))) /\
    date_ok so /\ date_ok si /\ date_ok eo /\ date_ok ei /\ span si ei <= k + 1 /\ span so eo <= k + 1 /\ (n1 = 0 \/ n1 = 1) /\ (n2 = 0 \/ n2 = 1) /\ 1 <= n1 + n2 /\
    0 <= us1 <= n1 * us_per_day /\ 0 <= us2 <= n2 * us_per_day).
  { pose proof (day_of_ok s Os) as Ds. pose proof (day_of_ok e Oe) as De.
    destruct s as [s|[s us]], e as [e|[e ue]]; [left; eauto| | |]; right; unfold k, span; cbn [day_of dt_date moment_ok datetime_ok dt_us] in *; cbn [include_datetimes f_include_datetimes dt_date] in *; unfold datetime_ok in *; cbn [dt_date dt_us] in *.
    - destruct (add_days e 1) as [e1|] eqn:A; [|discriminate]. cbn [bind] in *. apply add_days_ok in A. destruct A as [-> O1]. pose proof (year_next e).
      exists s, s, (e + 1), e, (dt_abs (DT s 0) - dt_abs (to_datetime (Day s))), (dt_abs (to_datetime (Stamp (DT e ue))) - dt_abs (DT e 0)), (s - s), (e + 1 - e).
      split; [reflexivity|]. split; [reflexivity|]. unfold dt_abs. cbn [to_datetime dt_date dt_us]. unfold us_per_day in *. repeat split; try assumption; try lia; try (apply O1); try (apply Ds); try (apply De).
    - destruct (add_days s 1) as [s1|] eqn:A; [|discriminate]. cbn [bind] in *. apply add_days_ok in A. destruct A as [-> O1]. pose proof (year_next s).
      exists s, (s + 1), e, e, (dt_abs (DT (s + 1) 0) - dt_abs (to_datetime (Stamp (DT s us)))), (dt_abs (to_datetime (Day e)) - dt_abs (DT e 0)), (s + 1 - s), (e - e).
      split; [reflexivity|]. split; [reflexivity|]. unfold dt_abs. cbn [to_datetime dt_date dt_us]. unfold us_per_day in *. repeat split; try assumption; try lia; try (apply O1); try (apply Ds); try (apply De).
    - destruct (add_days e 1) as [e1|] eqn:Ae; [|discriminate]. cbn [bind] in *. destruct (add_days s 1) as [s1|] eqn:A; [|discriminate]. cbn [bind] in *.
      apply add_days_ok in A, Ae. destruct A as [-> O1]. destruct Ae as [-> O2]. pose proof (year_next s). pose proof (year_next e).
      exists s, (s + 1), (e + 1), e, (dt_abs (DT (s + 1) 0) - dt_abs (to_datetime (Stamp (DT s us)))), (dt_abs (to_datetime (Stamp (DT e ue))) - dt_abs (DT e 0)), (s + 1 - s), (e + 1 - e).
      split; [reflexivity|]. split; [reflexivity|]. unfold dt_abs. cbn [to_datetime dt_date dt_us]. unfold us_per_day in *. repeat split; try assumption; try lia; try (apply O1); try (apply O2); try (apply Ds); try (apply De). }
  destruct Plain as [(ds & de & -> & ->)|(so & si & eo & ei & us1 & us2 & n1 & n2 & Eq & Ef & Oso & Osi & Oeo & Oei & Sp1 & Sp2 & N1 & N2 & N12 & B1 & B2)].
  - cbn [include_datetimes f_include_datetimes day_of moment_ok] in *. destruct (fun_close c ds de q Os Oe H) as (x & v & X & V & (C & _) & _). exists x, v. split; [exact X|]. split; [exact V|].
    apply Rle_trans with (1 := C). fold k. nra.
  - rewrite Eq in H. rewrite Ef. clear Eq Ef.
    destruct (q_fun c si ei) as [qi|] eqn:Qi; [|discriminate]. cbn [bind] in H. destruct (q_fun c so eo) as [qo|] eqn:Qo; [|discriminate]. cbn [bind] in H.
    destruct (fun_close c si ei qi Osi Oei Qi) as (xi & vi & Xi & Vi & Ci & _). destruct (fun_close c so eo qo Oso Oeo Qo) as (xo & vo & Xo & Vo & Co & _).
    destruct (close_wider _ _ _ _ (k + 1) Ci Sp1) as [Ci1 Ci2]. destruct (close_wider _ _ _ _ (k + 1) Co Sp2) as [Co1 Co2].
    replace (2 * IZR (k + 1) + 3)%R with (2 * IZR k + 5)%R in * by (rewrite plus_IZR; lra). set (W := (2 * IZR k + 5)%R) in *.
    assert (Dd : us_per_day = 86400000000) by reflexivity.
    destruct (seconds_val us1) as (xa & Xa & Va & Ea); [lia|]. destruct (seconds_val us2) as (xb & Xb & Vb & Eb); [lia|].
    destruct (width_val n1 N1) as (w1 & W1 & Vw1). destruct (width_val n2 N2) as (w2 & W2 & Vw2).
    rewrite Xi, Xo, Xa, Xb, W1, W2. cbn [bind].
    set (A := (IZR us1 / 1000000)%R) in *. set (B := (IZR us2 / 1000000)%R) in *.
    assert (R1 : (0 <= IZR us1 <= IZR (n1 * us_per_day))%R) by (split; apply IZR_le; lia). assert (R2 : (0 <= IZR us2 <= IZR (n2 * us_per_day))%R) by (split; apply IZR_le; lia).
    rewrite mult_IZR in R1, R2. rewrite Dd in R1, R2.
    assert (Nr1 : (0 <= IZR n1 <= 1)%R) by (split; apply IZR_le; lia). assert (Nr2 : (0 <= IZR n2 <= 1)%R) by (split; apply IZR_le; lia). assert (Nr : (1 <= IZR n1 + IZR n2)%R) by (rewrite <- plus_IZR; apply IZR_le; lia).
    assert (PA : (0 <= A <= 86400 * IZR n1)%R) by (unfold A; lra). assert (PB : (0 <= B <= 86400 * IZR n2)%R) by (unfold B; lra).
    rewrite (Rabs_pos_eq A) in Ea by lra. rewrite (Rabs_pos_eq B) in Eb by lra.
    set (Wd := (86400 * (IZR n1 + IZR n2))%R). assert (PWd : (86400 <= Wd <= 172800)%R) by (unfold Wd; lra).
    assert (VW : val (fadd w1 w2) Wd).
    { assert (T : val (fadd w1 w2) (rn (IZR (n1 * 86400) + IZR (n2 * 86400)))).
      { apply fadd_val; auto. apply big_gt. rewrite <- plus_IZR, <- abs_IZR. apply IZR_le. lia. }
      rewrite <- plus_IZR, (val_format (of_int _)) in T by (apply of_int_val; lia). unfold Wd. replace (86400 * (IZR n1 + IZR n2))%R with (IZR (n1 * 86400 + n2 * 86400)) by (rewrite plus_IZR, !mult_IZR; ring). exact T. }
    destruct (Rabs_le_inv _ _ Ea) as [Ea1 Ea2]. destruct (Rabs_le_inv _ _ Eb) as [Eb1 Eb2].
    assert (Ba : (0 <= rn A <= 200000)%R) by (clear -U PA Ea1 Ea2 Nr1; nra). assert (Bb : (0 <= rn B <= 200000)%R) by (clear -U PB Eb1 Eb2 Nr2; nra).
    assert (Vt : val (fadd xa xb) (rn (rn A + rn B))).
    { apply fadd_val; auto. apply big_gt. rewrite Rabs_pos_eq by lra. apply Rle_trans with 400000%R; [lra|apply IZR_le; lia]. }
    pose proof (rn_plus_err _ _ _ _ Va Vb) as Et. set (t := rn (rn A + rn B)) in *.
    assert (Bt : (Rabs t <= 900000)%R). { replace t with ((t - (rn A + rn B)) + (rn A + rn B))%R by ring. pose proof (Rabs_triang (t - (rn A + rn B)) (rn A + rn B)). rewrite (Rabs_pos_eq (rn A + rn B)) in * by lra. nra. }
    destruct (fdiv_val (fadd xa xb) (fadd w1 w2) t Wd Vt VW ltac:(lra)) as (sc & Xs & Vs).
    { apply big_gt. unfold Rdiv. rewrite Rabs_mult, (Rabs_pos_eq (/ Wd)) by (apply Rlt_le, Rinv_0_lt_compat; lra).
      apply Rle_trans with (900000 * 1)%R; [|rewrite Rmult_1_r; apply IZR_le; lia]. apply Rmult_le_compat; try apply Rabs_pos; [apply Rlt_le, Rinv_0_lt_compat; lra|exact Bt|].
      rewrite <- Rinv_1. apply Rinv_le; lra. }
    rewrite Xs. cbn [bind]. pose proof (rn_abs (t / Wd)) as Es. set (sg := rn (t / Wd)) in *.
    assert (BW : (5 <= W <= 20001)%R) by (unfold W; lra).
    pose proof (rn_minus_err _ _ _ _ Vo Vi) as Ed.
    assert (Bo : (Rabs (vo - vi) <= 100000)%R).
    { replace (vo - vi)%R with ((vo - Q2R qo) + Q2R qo + - (vi - Q2R qi) + - Q2R qi)%R by ring.
      pose proof (Rabs_triang (vo - Q2R qo + Q2R qo + - (vi - Q2R qi)) (- Q2R qi)). pose proof (Rabs_triang (vo - Q2R qo + Q2R qo) (- (vi - Q2R qi))). pose proof (Rabs_triang (vo - Q2R qo) (Q2R qo)). rewrite !Rabs_Ropp in *. nra. }
    assert (Vd : val (fsub xo xi) (rn (vo - vi))) by (apply fsub_val; auto; apply big_gt; apply Rle_trans with 100000%R; [exact Bo|apply IZR_le; lia]). set (d := rn (vo - vi)) in *.
    pose proof (rn_abs (d * sg)) as Ep.
    assert (Q : forall p r, (Rabs (p - d * sg) <= u * Rabs (d * sg) + u / 1000 -> Rabs (r - (vi + p)) <= u * Rabs (vi + p) ->
       Rabs sg <= 2 /\ Rabs d <= 3 * W /\ Rabs p <= 6 * W /\ Rabs (r - (Q2R qi + (Q2R qo - Q2R qi) * ((A + B) / Wd))) <= 64 * u * W)%R).
    { intros p r Hp Hr. apply (wrapper_core W (Q2R qi) (Q2R qo) vi vo A B (rn A) (rn B) Wd t sg d p r); try assumption; try lra. unfold Wd. lra. }
    assert (Bds : (Rabs sg <= 2 /\ Rabs d <= 3 * W /\ Rabs (rn (d * sg)) <= 6 * W)%R).
    { destruct (Q (rn (d * sg)) (vi + rn (d * sg))%R) as (X1 & X2 & X3 & _); auto. rewrite Rminus_diag_eq, Rabs_R0 by reflexivity. apply Rmult_le_pos; [lra|apply Rabs_pos]. }
    destruct Bds as (Bs & Bd & Bp).
    assert (Vp : val (fmul (fsub xo xi) sc) (rn (d * sg))).
    { apply fmul_val; auto. apply big_gt. rewrite Rabs_mult. apply Rle_trans with (3 * W * 2)%R; [apply Rmult_le_compat; try apply Rabs_pos; assumption|]. apply Rle_trans with 200000%R; [lra|apply IZR_le; lia]. }
    pose proof (rn_plus_err _ _ _ _ Vi Vp) as Er.
    assert (Bi : (Rabs vi <= 50000)%R) by (replace vi with ((vi - Q2R qi) + Q2R qi)%R by ring; pose proof (Rabs_triang (vi - Q2R qi) (Q2R qi)); nra).
    assert (Vr : val (fadd xi (fmul (fsub xo xi) sc)) (rn (vi + rn (d * sg)))).
    { apply fadd_val; auto. apply big_gt. apply Rle_trans with 200000%R; [pose proof (Rabs_triang vi (rn (d * sg))); lra|apply IZR_le; lia]. }
    exists (fadd xi (fmul (fsub xo xi) sc)), (rn (vi + rn (d * sg))). split; [reflexivity|]. split; [exact Vr|].
    destruct (Q (rn (d * sg)) (rn (vi + rn (d * sg))) Ep Er) as (_ & _ & _ & F).
    assert (QR : Q2R q = (Q2R qi + (Q2R qo - Q2R qi) * ((A + B) / Wd))%R).
    { injection H as <-. rewrite Q2R_plus, Q2R_mult, Q2R_minus.
      assert (SW : Q2R (seconds (n1 * us_per_day) + seconds (n2 * us_per_day)) = Wd).
      { rewrite Q2R_plus, !seconds_R, !mult_IZR, Dd. unfold Wd. lra. }
      rewrite Q2R_div, SW, Q2R_plus, !seconds_R; [reflexivity|].
      intros Z. apply Qeq_eqR in Z. rewrite SW in Z. unfold Q2R in Z. cbn in Z. lra. }
    rewrite QR. exact F.
Qed.

Lemma check_elapsed s e : check_dates s e = (0 <=? elapsed s e).
Proof. unfold check_dates, elapsed. destruct (Z.leb_spec (dt_abs (to_datetime s)) (dt_abs (to_datetime e))), (Z.leb_spec 0 (dt_abs (to_datetime e) - dt_abs (to_datetime s))); try reflexivity; lia. Qed.
Lemma q_compute s e c : compute_accrual_length s e c = if 0 <=? elapsed s e then include_datetimes (q_fun c) s e else Err ValueError.
Proof. unfold compute_accrual_length. rewrite check_elapsed. destruct (0 <=? elapsed s e); [|reflexivity]. destruct c; reflexivity. Qed.
Lemma f_compute s e c : f_compute_accrual_length s e c = if 0 <=? elapsed s e then f_include_datetimes (f_fun c) s e else Err ValueError.
Proof. unfold f_compute_accrual_length. rewrite check_elapsed. destruct (0 <=? elapsed s e); [|reflexivity]. destruct c; reflexivity. Qed.

(** ---- C85: timestamps ---- *)
(** Wherever the exact computation succeeds the program does, with an error of at most 2^-46 years per calendar year
    spanned (plus three): 15 microseconds over thirty years. *)
Theorem C85_accuracy : forall c s e q, moment_ok s -> moment_ok e -> compute_accrual_length s e c = Ok q ->
  exists x, f_compute_accrual_length s e c = Ok x /\ is_finite x = true /\
    (Rabs (B2R x - Q2R q) <= / 2 ^ 46 * (IZR (Z.abs (year (day_of e) - year (day_of s))) + 3))%R.
Proof.
  intros c s e q Os Oe H. rewrite q_compute in H. rewrite f_compute. destruct (Z.leb_spec 0 (elapsed s e)) as [L|L]; [|discriminate].
  destruct (wrapper_close c s e q Os Oe L H) as (x & v & X & [F V] & E). exists x. split; [exact X|]. split; [exact F|]. rewrite V.
  replace (/ 2 ^ 46)%R with (128 * u)%R by (replace (128 * u)%R with (u * 2 ^ 7)%R by ring; rewrite u_pow by lia; reflexivity).
  fold (span (day_of s) (day_of e)). pose proof (ok_span _ _ (day_of_ok s Os) (day_of_ok e Oe)) as [K0 _]. apply IZR_le in K0. pose proof u_small. apply Rle_trans with (1 := E). nra.
Qed.
Print Assumptions C85_accuracy.

(** The program raises exactly where the exact computation does, and the same exception. *)
Theorem C85_errors : forall c s e err, moment_ok s -> moment_ok e ->
  (f_compute_accrual_length s e c = Err err <-> compute_accrual_length s e c = Err err).
Proof.
  intros c s e err Os Oe. destruct (compute_accrual_length s e c) as [q|er] eqn:Q.
  - destruct (C85_accuracy c s e q Os Oe Q) as (x & X & _). rewrite X. split; discriminate.
  - assert (f_compute_accrual_length s e c = Err er) as ->; [|split; congruence].
    rewrite q_compute in Q. rewrite f_compute. destruct (0 <=? elapsed s e); [|congruence].
    assert (T : forall si ei so eo (g : QArith_base.Q -> QArith_base.Q -> QArith_base.Q) (h : f64 -> f64 -> res f64), (do inner <- q_fun c si ei; do outer <- q_fun c so eo; Ok (g inner outer)) = Err er ->
      (do inner <- f_fun c si ei; do outer <- f_fun c so eo; h inner outer) = Err er).
    { intros si ei so eo g h. destruct (q_fun c si ei) as [a|e1] eqn:E1; cbn [bind].
      - destruct (f_fun c si ei) as [xa|e1'] eqn:F1; [|apply fun_errs in F1; congruence]. cbn [bind]. destruct (q_fun c so eo) as [b|e2] eqn:E2; cbn [bind]; [discriminate|].
        apply fun_errs in E2. rewrite E2. intros Z; injection Z as ->. reflexivity.
      - apply fun_errs in E1. rewrite E1. intros Z; injection Z as ->. reflexivity. }
    destruct s as [s|[s us]], e as [e|[e ue]]; cbn [include_datetimes f_include_datetimes dt_date] in *; [apply fun_errs; exact Q| | |].
    + destruct (add_days e 1) as [e1|]; cbn [bind] in *; [|injection Q as ->; reflexivity]. eapply T. exact Q.
    + destruct (add_days s 1) as [s1|]; cbn [bind] in *; [|injection Q as ->; reflexivity]. eapply T. exact Q.
    + destruct (add_days e 1) as [e1|]; cbn [bind] in *; [|injection Q as ->; reflexivity]. destruct (add_days s 1) as [s1|]; cbn [bind] in *; [|injection Q as ->; reflexivity]. eapply T. exact Q.
Qed.
Print Assumptions C85_errors.

(** Over up to five hundred years, two ends a millisecond apart are told apart by the conventions that count actual days
    over a constant. *)
Theorem C85_resolution : forall c s e1 e2 x1 x2, c <> THIRTY360 -> c <> ACTACT -> moment_ok s -> moment_ok e1 -> moment_ok e2 -> not_last s -> not_last e1 -> not_last e2 ->
  f_compute_accrual_length s e1 c = Ok x1 -> f_compute_accrual_length s e2 c = Ok x2 ->
  year (day_of e1) - year (day_of s) <= 500 -> year (day_of e2) - year (day_of s) <= 500 -> 1000 <= elapsed e1 e2 -> flt x1 x2 = true.
Proof.
  intros c s e1 e2 x1 x2 N1 N2 Os O1 O2 Ns Nl1 Nl2 F1 F2 Y1 Y2 D.
  assert (Q : forall e x, moment_ok e -> f_compute_accrual_length s e c = Ok x -> 0 <= elapsed s e /\ exists q, compute_accrual_length s e c = Ok q).
  { intros e x Oe F. split; [rewrite f_compute in F; destruct (Z.leb_spec 0 (elapsed s e)); [assumption|discriminate]|].
    destruct (compute_accrual_length s e c) as [q|er] eqn:E; [eauto|]. apply C85_errors in E; auto. congruence. }
  destruct (Q e1 x1 O1 F1) as (L1 & q1 & Q1). destruct (Q e2 x2 O2 F2) as (L2 & q2 & Q2).
  assert (M : exists n, act_basis c = Some n /\ (Q2R n <= 366)%R /\ (0 < n)%Q).
  { destruct c; try contradiction; eexists; (split; [reflexivity|]); (split; [unfold Q2R; cbn; lra|reflexivity]). }
  destruct M as (n & Bn & Ln & Pn).
  destruct (stamp_act_exact c n s e1 Bn Os O1 Ns Nl1 L1) as (p1 & P1 & V1). destruct (stamp_act_exact c n s e2 Bn Os O2 Ns Nl2 L2) as (p2 & P2 & V2).
  assert (p1 = q1) by congruence. assert (p2 = q2) by congruence. subst p1 p2. apply Qeq_eqR in V1, V2.
  assert (Pr : (0 < Q2R n)%R) by (apply Qlt_Rlt in Pn; unfold Q2R in Pn at 1; cbn in Pn; lra).
  assert (V : forall e, Q2R (seconds (elapsed s e) / (86400 * n)) = (IZR (elapsed s e) * / (86400000000 * Q2R n))%R).
  { intros e. assert (Nz : ~ (86400 * n == 0)%Q) by (intros Z; apply Qeq_eqR in Z; rewrite Q2R_mult in Z; unfold Q2R in Z at 1 3; cbn in Z; nra).
    rewrite Q2R_div, seconds_R, Q2R_mult by exact Nz. replace (Q2R 86400) with 86400%R by (unfold Q2R; cbn; lra). field. lra. }
  rewrite V in V1, V2.
  destruct (C85_accuracy c s e1 q1 Os O1 Q1) as (y1 & Z1 & Fi1 & E1). assert (y1 = x1) by congruence. subst y1.
  destruct (C85_accuracy c s e2 q2 Os O2 Q2) as (y2 & Z2 & Fi2 & E2). assert (y2 = x2) by congruence. subst y2.
  apply (flt_val x1 x2 (B2R x1) (B2R x2)); [split; auto|split; auto|].
  assert (Yr : forall e, moment_ok e -> 0 <= elapsed s e -> year (day_of e) - year (day_of s) <= 500 -> (IZR (Z.abs (year (day_of e) - year (day_of s))) + 3 <= 503)%R).
  { intros e Oe L Y. assert (year (day_of s) <= year (day_of e)).
    { apply year_mono. unfold elapsed, dt_abs, us_per_day in L. destruct s as [s|[s us]], e as [e|[e ue]]; cbn in *; unfold datetime_ok, us_per_day in *; cbn in *; lia. }
    rewrite <- plus_IZR. apply IZR_le. lia. }
  pose proof (Yr e1 O1 L1 Y1). pose proof (Yr e2 O2 L2 Y2).
  assert (K : (/ 2 ^ 46 = / 70368744177664)%R) by (f_equal; rewrite pow_IZR; reflexivity). rewrite K in E1, E2.
  assert (Ed : (IZR (elapsed s e1) + 1000 <= IZR (elapsed s e2))%R) by (rewrite <- plus_IZR; apply IZR_le; unfold elapsed in *; lia).
  set (I := (/ (86400000000 * Q2R n))%R) in *. assert (BI : (/ (86400000000 * 366) <= I)%R) by (apply Rinv_le; lra).
  destruct (Rabs_le_inv _ _ E1), (Rabs_le_inv _ _ E2). rewrite V1, V2 in *.
  assert (G : (IZR (elapsed s e1) * I + 1000 * (/ (86400000000 * 366)) <= IZR (elapsed s e2) * I)%R).
  { apply Rle_trans with ((IZR (elapsed s e1) + 1000) * I)%R; [lra|]. apply Rmult_le_compat_r; lra. }
  lra.
Qed.
Print Assumptions C85_resolution.

(** Two midnights need not give the same number as the two dates. *)
Theorem C85_midnight_refuted : exists s e x y, f_compute_accrual_length (Stamp (DT s 0)) (Stamp (DT e 0)) ACT360 = Ok x /\ f_compute_accrual_length (Day s) (Day e) ACT360 = Ok y /\ feq x y = false.
Proof.
  exists 730125, 745346. exists (ok_or (f_compute_accrual_length (Stamp (DT 730125 0)) (Stamp (DT 745346 0)) ACT360)), (ok_or (f_compute_accrual_length (Day 730125) (Day 745346) ACT360)).
  split; [apply ok_eq; vm_compute; reflexivity|]. split; [apply ok_eq; vm_compute; reflexivity|]. vm_compute. reflexivity.
Qed.
Print Assumptions C85_midnight_refuted.
Example C85_case : exists x, f_compute_accrual_length (Stamp (DT 738521 5)) (Stamp (DT 738990 7)) ACT365 = Ok x /\ flt (of_int 1) x = true /\ 1000 <= elapsed (Stamp (DT 738990 7)) (Stamp (DT 738990 1007)).
Proof. exists (ok_or (f_compute_accrual_length (Stamp (DT 738521 5)) (Stamp (DT 738990 7)) ACT365)). split; [apply ok_eq; vm_compute; reflexivity|]. split; [vm_compute; reflexivity|unfold elapsed, dt_abs; cbn; lia]. Qed.
