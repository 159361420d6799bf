(** Bond amounts in double precision: C108. *)
From Verif Require Import Base PyDate PyDateFacts DayCount DayCountFacts Scheduler SchedulerFacts ModFollFacts KeyRate KeyRateFacts Curve Cashflow CashflowFacts Bond BondFacts P_DayCount P_Bond P_BondYield Float FloatFacts FloatDayCount P_FloatDayCount FloatBond.
From Coq Require Import Lra Reals Permutation.
From Flocq Require Import Core BinarySingleNaN.
Open Scope Z_scope.

(** ---- relative errors, in units of 2^-53 ---- *)
Definition near (k x y : R) : Prop := exists d, (Rabs d <= k * u)%R /\ y = (x * (1 + d))%R.
Lemma near_refl x : near 0 x x. Proof. exists 0%R. rewrite Rabs_R0. split; lra. Qed.
Lemma near_weak j k x y : (j <= k)%R -> near j x y -> near k x y.
Proof. intros L (d & D & E). exists d. split; [|exact E]. pose proof u_small. apply Rle_trans with (1 := D). apply Rmult_le_compat_r; lra. Qed.
Lemma near_abs k x y : near k x y -> (Rabs (y - x) <= k * u * Rabs x)%R.
Proof.
  intros (d & D & ->). replace (x * (1 + d) - x)%R with (d * x)%R by ring. rewrite Rabs_mult. apply Rmult_le_compat_r; [apply Rabs_pos|exact D].
Qed.
Lemma near_of_abs k x y : (0 <= k)%R -> (Rabs (y - x) <= k * u * Rabs x)%R -> near k x y.
Proof.
  intros K H. pose proof u_small as Us. destruct (Req_dec x 0) as [-> | N].
  - rewrite Rabs_R0, Rmult_0_r in H. exists 0%R. rewrite Rabs_R0. split; [apply Rmult_le_pos; lra|]. assert (Rabs (y - 0) = 0)%R by (pose proof (Rabs_pos (y - 0)); lra).
    destruct (Req_dec (y - 0) 0) as [E|E]; [lra|]. apply Rabs_no_R0 in E. contradiction.
  - exists ((y - x) / x)%R. split; [|field; exact N]. unfold Rdiv. rewrite Rabs_mult, Rabs_inv. apply Rmult_le_reg_r with (Rabs x); [apply Rabs_pos_lt; exact N|].
    rewrite Rmult_assoc, Rinv_l, Rmult_1_r by (apply Rabs_no_R0; exact N). exact H.
Qed.
Lemma one_plus j k d e : (0 <= j <= 100 -> 0 <= k <= 100 -> Rabs d <= j * u -> Rabs e <= k * u -> exists f, Rabs f <= (j + k + 1 / 4) * u /\ (1 + d) * (1 + e) = 1 + f)%R.
Proof.
  intros J K D E. exists (d + e + d * e)%R. split; [|ring]. pose proof u_small as Us. pose proof (Rabs_pos d) as D0. pose proof (Rabs_pos e) as E0.
  apply Rle_trans with (1 := Rabs_triang _ _). rewrite Rabs_mult. pose proof (Rabs_triang d e) as T.
  assert (j * u <= 100 * u)%R by (apply Rmult_le_compat_r; lra). assert (k * u <= 100 * u)%R by (apply Rmult_le_compat_r; lra).
  assert (M : (Rabs d * Rabs e <= 100 * u * (100 * u))%R) by (apply Rmult_le_compat; lra).
  assert (100 * u * (100 * u) <= 1 / 4 * u)%R. { replace (100 * u * (100 * u))%R with (10000 * u * u)%R by ring. apply Rmult_le_compat_r; lra. }
  lra.
Qed.
Lemma one_over k e : (0 <= k <= 100 -> Rabs e <= k * u -> exists f, Rabs f <= (k + 1 / 4) * u /\ / (1 + e) = 1 + f)%R.
Proof.
  intros K E. pose proof u_small as Us. assert (k * u <= 100 * u)%R by (apply Rmult_le_compat_r; lra). pose proof E as E'. apply Rabs_le_inv in E'.
  exists (- e / (1 + e))%R. split; [|field; lra]. unfold Rdiv. rewrite Rabs_mult, Rabs_Ropp, Rabs_inv, (Rabs_pos_eq (1 + e)) by lra.
  apply Rmult_le_reg_r with (1 + e)%R; [lra|]. rewrite Rmult_assoc, Rinv_l, Rmult_1_r by lra. apply Rle_trans with (1 := E).
  assert (0 <= k * u)%R by (apply Rmult_le_pos; lra). assert (k * u * (100 * u) <= 1 / 4 * u * (1 / 2))%R.
  { apply Rle_trans with (100 * u * (100 * u))%R; [apply Rmult_le_compat_r; lra|]. replace (100 * u * (100 * u))%R with (10000 * u * u)%R by ring. replace (1 / 4 * u * (1 / 2))%R with (1 / 8 * u)%R by field. apply Rmult_le_compat_r; lra. }
  assert (k * u * e >= - (k * u * (100 * u)))%R. { apply Rle_ge. replace (- (k * u * (100 * u)))%R with (k * u * (- (100 * u)))%R by ring. apply Rmult_le_compat_l; lra. }
  assert (1 / 4 * u * (1 / 2) <= 1 / 4 * u * (1 + e))%R by (apply Rmult_le_compat_l; lra). replace ((k + 1 / 4) * u * (1 + e))%R with (k * u + k * u * e + 1 / 4 * u * (1 + e))%R by ring. lra.
Qed.
(** a product or quotient that is 0 or neither huge nor tiny *)
Definition mid (x : R) : Prop := x = 0%R \/ (bpow radix2 (-900) <= Rabs x <= bpow radix2 900)%R.
Lemma mid_range x f : mid x -> (Rabs f <= 1 / 2)%R -> ((x * (1 + f) = 0 \/ small <= Rabs (x * (1 + f))) /\ Rabs (x * (1 + f)) <= big)%R.
Proof.
  intros M F. apply Rabs_le_inv in F. rewrite Rabs_mult, (Rabs_pos_eq (1 + f)) by lra. destruct M as [-> | [L H]].
  - rewrite Rabs_R0, !Rmult_0_l. split; [left; reflexivity|]. apply bpow_ge_0.
  - pose proof (Rabs_pos x). split.
    + right. apply Rle_trans with (Rabs x * (1 / 2))%R; [|apply Rmult_le_compat_l; lra]. apply Rle_trans with (bpow radix2 (-900) * (1 / 2))%R; [|lra].
      unfold small. apply Rle_trans with (bpow radix2 (-901)); [apply bpow_le; lia|]. replace (-901)%Z with (-900 + -1)%Z by lia. rewrite bpow_plus. change (bpow radix2 (-1)) with (/ 2)%R. lra.
    + apply Rle_trans with (Rabs x * 2)%R; [apply Rmult_le_compat_l; lra|]. apply Rle_trans with (bpow radix2 900 * 2)%R; [lra|]. change 2%R with (bpow radix2 1). rewrite <- bpow_plus. apply bpow_le. lia.
Qed.
Lemma near_round k x y : (0 <= k <= 210)%R -> mid x -> near k x y -> (Rabs y <= big)%R /\ near (k + 3 / 2) x (rn y).
Proof.
  intros K M (d & D & ->). pose proof u_small as Us. assert (k * u <= 210 * u)%R by (apply Rmult_le_compat_r; lra). destruct (mid_range x d M ltac:(lra)) as [Sm Bg]. split; [exact Bg|].
  assert (Er : (Rabs (rn (x * (1 + d)) - x * (1 + d)) <= 1 * u * Rabs (x * (1 + d)))%R) by (rewrite Rmult_1_l; apply rn_err, Sm).
  destruct (near_of_abs 1 _ _ ltac:(lra) Er) as (e & E & Eq). rewrite Eq.
  exists (d + e + d * e)%R. split; [|ring]. apply Rle_trans with (1 := Rabs_triang _ _). rewrite Rabs_mult. pose proof (Rabs_triang d e). pose proof (Rabs_pos d). pose proof (Rabs_pos e).
  assert (Rabs d * Rabs e <= 210 * u * (1 * u))%R by (apply Rmult_le_compat; lra). assert (210 * u * (1 * u) <= 1 / 2 * u)%R. { replace (210 * u * (1 * u))%R with (210 * u * u)%R by ring. apply Rmult_le_compat_r; lra. } lra.
Qed.
Lemma near_mul x y a a' b b' j k : (0 <= j <= 100)%R -> (0 <= k <= 100)%R -> near j a a' -> near k b b' -> val x a' -> val y b' -> mid (a * b) ->
  exists v, val (fmul x y) v /\ near (j + k + 2) (a * b) v.
Proof.
  intros J K (d & D & ->) (e & E & ->) Vx Vy M. destruct (one_plus j k d e J K D E) as (f & F & Eq).
  assert (N : near (j + k + 1 / 4) (a * b) (a * (1 + d) * (b * (1 + e)))) by (exists f; split; [exact F|rewrite <- Eq; ring]).
  destruct (near_round (j + k + 1 / 4) _ _ ltac:(lra) M N) as [Bg Nr]. exists (rn (a * (1 + d) * (b * (1 + e)))). split; [apply fmul_val; assumption|]. apply near_weak with (2 := Nr). lra.
Qed.
Lemma near_div x y a a' b b' j k : (0 <= j <= 90)%R -> (0 <= k <= 90)%R -> near j a a' -> near k b b' -> val x a' -> val y b' -> b <> 0%R -> mid (a / b) ->
  exists z v, fdiv x y = Ok z /\ val z v /\ near (j + k + 2) (a / b) v.
Proof.
  intros J K (d & D & ->) (e & E & ->) Vx Vy B M. pose proof u_small as Us. assert (k * u <= 90 * u)%R by (apply Rmult_le_compat_r; lra). pose proof E as E'. apply Rabs_le_inv in E'.
  destruct (one_over k e ltac:(lra) E) as (g & G & Eg). destruct (one_plus j (k + 1 / 4) d g ltac:(lra) ltac:(lra) D G) as (f & F & Eq).
  assert (N : near (j + (k + 1 / 4) + 1 / 4) (a / b) (a * (1 + d) / (b * (1 + e)))).
  { exists f. split; [exact F|]. rewrite <- Eq, <- Eg. field. lra. }
  destruct (near_round (j + (k + 1 / 4) + 1 / 4) _ _ ltac:(lra) M N) as [Bg Nr].
  assert (Nz : (b * (1 + e) <> 0)%R) by (apply Rmult_integral_contrapositive_currified; lra).
  destruct (fdiv_val x y _ _ Vx Vy Nz Bg) as (z & Z & V). exists z, (rn (a * (1 + d) / (b * (1 + e)))). split; [exact Z|]. split; [exact V|]. apply near_weak with (2 := Nr). lra.
Qed.
Lemma near_zero k x y : near k x y -> (0 <= k <= 100)%R -> (x = 0 <-> y = 0)%R.
Proof.
  intros (d & D & ->) K. pose proof u_small as Us. assert (k * u <= 100 * u)%R by (apply Rmult_le_compat_r; lra). apply Rabs_le_inv in D. split; [intros ->; ring|].
  intros H0. apply Rmult_integral in H0. destruct H0; lra.
Qed.
(** 0, or between 2^-j and 2^j in size *)
Definition sized (j : Z) (x : R) : Prop := x = 0%R \/ (bpow radix2 (- j) <= Rabs x <= bpow radix2 j)%R.
Lemma sized_mid j x : j <= 900 -> sized j x -> mid x.
Proof. intros J [-> | [A B]]; [left; reflexivity|right]. split; [apply Rle_trans with (2 := A); apply bpow_le; lia|apply Rle_trans with (1 := B); apply bpow_le; lia]. Qed.
Lemma sized_mul j k x y : sized j x -> sized k y -> sized (j + k) (x * y).
Proof.
  intros [-> | [A B]]; [left; ring|]. intros [-> | [C D]]; [left; ring|]. right. rewrite Rabs_mult, Z.opp_add_distr, !bpow_plus. pose proof (bpow_ge_0 radix2 (- j)). pose proof (bpow_ge_0 radix2 (- k)).
  split; apply Rmult_le_compat; try lra; apply Rabs_pos.
Qed.
Lemma sized_inv j x : x <> 0%R -> sized j x -> sized j (/ x).
Proof.
  intros N [-> | [A B]]; [contradiction|]. right. rewrite Rabs_inv. pose proof (bpow_gt_0 radix2 (- j)). pose proof (bpow_gt_0 radix2 j). assert (0 < Rabs x)%R by (apply Rabs_pos_lt; exact N).
  assert (E : forall i, bpow radix2 (- i) = (/ bpow radix2 i)%R) by (intros i; apply bpow_opp).
  split; [rewrite E; apply Rinv_le; lra|]. replace j with (- - j)%Z by lia. rewrite (E (- j)%Z). apply Rinv_le; lra.
Qed.
Lemma sized_div j k x y : y <> 0%R -> sized j x -> sized k y -> sized (j + k) (x / y).
Proof. intros N A B. apply sized_mul; [exact A|]. apply sized_inv; auto. Qed.
Lemma sized_int n j : 0 <= j -> Z.abs n <= 2 ^ j -> sized j (IZR n).
Proof.
  intros J L. destruct (Z.eq_dec n 0) as [-> | N]; [left; reflexivity|]. right. rewrite <- abs_IZR. split.
  - apply Rle_trans with 1%R; [change 1%R with (bpow radix2 0); apply bpow_le; lia|]. apply IZR_le. lia.
  - rewrite <- IZR_Zpower by lia. apply IZR_le. exact L.
Qed.

(** ---- specification ---- *)
(** The arguments of a bond: finite doubles, with [fb_terms] the same bond over exact numbers; principal and coupon rate are 0
    or between 2^-100 and 2^100 in size, the price is at most 2^100 in size. *)
Definition plain_bond (a : f_bond_args) : Prop :=
  (is_finite (fb_price a) = true /\ B2R (fb_price a) = price (fb_terms a) /\ Rabs (price (fb_terms a)) <= bpow radix2 100)%R /\
  (is_finite (fb_coupon_rate a) = true /\ B2R (fb_coupon_rate a) = coupon_rate (fb_terms a) /\ sized 100 (coupon_rate (fb_terms a))) /\
  (is_finite (fb_principal a) = true /\ B2R (fb_principal a) = principal (fb_terms a) /\ sized 100 (principal (fb_terms a))) /\
  date_ok (maturity_date (fb_terms a)) /\ date_ok (purchase_date (fb_terms a)).

Lemma acc_near c s e q : date_ok s -> date_ok e -> acc c s e = Ok q ->
  exists x v, f_compute_accrual_length (Day s) (Day e) c = Ok x /\ val x v /\ near 4 (Q2R q) v /\ sized 50 (Q2R q).
Proof.
  intros Os Oe H. unfold acc in H. pose proof H as H'. rewrite q_compute_days in H'. rewrite f_compute_days. destruct (Z.leb_spec s e) as [L|L]; [|discriminate].
  destruct (fun_close c s e q Os Oe H') as (x & v & F & V & (_ & B & C) & _). exists x, v. split; [exact F|]. split; [exact V|]. split; [apply near_of_abs; [lra|apply C, L]|].
  destruct (on_grid _ _ _ _ H') as [n E]. rewrite E in *. pose proof (ok_span s e Os Oe) as [S0 S1]. apply IZR_le in S1.
  assert (D : 0 < grid c <= 133590) by (destruct c; cbn; lia). assert (DR : (0 < IZR (grid c) <= 133590)%R) by (split; [apply IZR_lt; lia|apply IZR_le; lia]).
  assert (Nb : Z.abs n <= 2 ^ 32).
  { apply le_IZR. rewrite abs_IZR. unfold Rdiv in B. rewrite Rabs_mult, Rabs_inv, (Rabs_pos_eq (IZR (grid c))) in B by lra.
    replace (Rabs (IZR n)) with (Rabs (IZR n) * / IZR (grid c) * IZR (grid c))%R by (field; lra).
    apply Rle_trans with (20000 * 133590)%R; [apply Rmult_le_compat; try lra; apply Rmult_le_pos; [apply Rabs_pos|apply Rlt_le, Rinv_0_lt_compat; lra]|]. change (2 ^ 32) with 4294967296. lra. }
  apply (sized_div 32 18); [lra|apply sized_int; lia|apply sized_int; lia].
Qed.
Lemma acc_err c s e er : acc c s e = Err er -> f_compute_accrual_length (Day s) (Day e) c = Err er.
Proof. intros H. apply C82_errors. exact H. Qed.
Lemma fdiv_zero x y : val y 0%R -> fdiv x y = Err ZeroDivisionError.
Proof. intros [F V]. unfold fdiv. destruct y as [s| | |s m e0 Hb]; try discriminate; [reflexivity|]. exfalso. cbn [B2R] in V. apply eq_0_F2R in V. destruct s; discriminate. Qed.

Lemma coupon_near a : plain_bond a -> exists x v, f_calculate_coupon_payment a = Ok x /\ val x v /\ near 4 (calculate_coupon_payment (fb_terms a)) v /\ sized 211 (calculate_coupon_payment (fb_terms a)).
Proof.
  intros (_ & (Fc & Vc & Sc) & (Fp & Vp & Sp) & _). unfold f_calculate_coupon_payment, calculate_coupon_payment.
  assert (Z0 : exists x v, (Ok (of_int 0) : res f64) = Ok x /\ val x v /\ near 4 0 v /\ sized 211 0%R).
  { exists (of_int 0), 0%R. split; [reflexivity|]. split; [apply (of_int_val 0); lia|]. split; [apply near_weak with (2 := near_refl 0); lra|left; reflexivity]. }
  assert (G : forall n, 1 <= n <= 12 -> exists x v, fdiv (fmul (fb_principal a) (fb_coupon_rate a)) (of_int (100 * n)) = Ok x /\ val x v /\
    near 4 (principal (fb_terms a) * coupon_rate (fb_terms a) / (100 * IZR n)) v /\ sized 211 (principal (fb_terms a) * coupon_rate (fb_terms a) / (100 * IZR n))%R).
  { intros n N. assert (E100 : (100 * IZR n)%R = IZR (100 * n)) by (rewrite mult_IZR; reflexivity). rewrite E100.
    assert (Nz : IZR (100 * n) <> 0%R) by (apply Rgt_not_eq, IZR_lt; lia). pose proof (sized_mul _ _ _ _ Sp Sc) as S1. pose proof (sized_div _ 11 _ _ Nz S1 (sized_int (100 * n) 11 ltac:(lia) ltac:(lia))) as S2.
    destruct (near_mul (fb_principal a) (fb_coupon_rate a) _ _ _ _ 0 0 ltac:(lra) ltac:(lra) (near_refl (principal (fb_terms a))) (near_refl (coupon_rate (fb_terms a))) (conj Fp Vp) (conj Fc Vc) (sized_mid (100 + 100) _ ltac:(lia) S1)) as (v & V & Nv).
    destruct (near_div _ _ _ _ _ _ (0 + 0 + 2) 0 ltac:(lra) ltac:(lra) Nv (near_refl _) V (of_int_val (100 * n) ltac:(lia)) Nz (sized_mid (100 + 100 + 11) _ ltac:(lia) S2)) as (z & w & E & W & Nw).
    exists z, w. split; [exact E|]. split; [exact W|]. split; [apply near_weak with (2 := Nw); lra|exact S2]. }
  destruct (freq (fb_terms a)); cbn [per_year]; [exact Z0|apply G; lia..].
Qed.

Lemma nth_unadjusted_in cs i d : nth_unadjusted cs i = Ok d -> exists p, In p cs /\ bp_unadjusted p = d.
Proof.
  unfold nth_unadjusted. destruct (py_index cs i) as [n|]; cbn [bind]; [|discriminate]. destruct (nth_error cs n) as [p|] eqn:E; [|discriminate]. intros [= <-]. exists p. split; [eapply nth_error_In; exact E|reflexivity].
Qed.
Lemma accrued_near a cp v coupon dated cs sd : date_ok dated -> date_ok sd -> (forall p, In p cs -> date_ok (bp_unadjusted p)) -> val cp v -> near 4 coupon v -> sized 211 coupon ->
  match calculate_accrued_interest (fb_terms a) coupon dated cs sd None with
  | Err e => f_calculate_accrued_interest a cp dated cs sd = Err e
  | Ok ai => exists x w, f_calculate_accrued_interest a cp dated cs sd = Ok x /\ val x w /\ near 16 ai w /\ sized 311 ai
  end.
Proof.
  intros Od Os Oc Vc Nc Sc. unfold calculate_accrued_interest, f_calculate_accrued_interest. set (t := fb_terms a).
  assert (Main : match (if sd <? dated then Err ValueError else
      do first <- nth_unadjusted cs 0;
      do period <- (if sd <=? first then Ok (dated, first) else let i := bisect_right (List.map bp_date cs) (purchase_date t) in do p <- nth_unadjusted cs (i - 1); do f <- nth_unadjusted cs i; Ok (p, f));
      do num <- acc (b_dcc t) (fst period) sd; do den <- acc (b_dcc t) (fst period) (snd period); do frac <- qdiv num den; Ok (Q2R frac * coupon)%R) with
    | Err e => (if sd <? dated then Err ValueError else
      do first <- nth_unadjusted cs 0;
      do period <- (if sd <=? first then Ok (dated, first) else let i := bisect_right (List.map bp_date cs) (purchase_date t) in do p <- nth_unadjusted cs (i - 1); do f <- nth_unadjusted cs i; Ok (p, f));
      do num <- f_compute_accrual_length (Day (fst period)) (Day sd) (b_dcc t); do den <- f_compute_accrual_length (Day (fst period)) (Day (snd period)) (b_dcc t); do frac <- fdiv num den; Ok (fmul frac cp)) = Err e
    | Ok ai => exists x w, (if sd <? dated then Err ValueError else
      do first <- nth_unadjusted cs 0;
      do period <- (if sd <=? first then Ok (dated, first) else let i := bisect_right (List.map bp_date cs) (purchase_date t) in do p <- nth_unadjusted cs (i - 1); do f <- nth_unadjusted cs i; Ok (p, f));
      do num <- f_compute_accrual_length (Day (fst period)) (Day sd) (b_dcc t); do den <- f_compute_accrual_length (Day (fst period)) (Day (snd period)) (b_dcc t); do frac <- fdiv num den; Ok (fmul frac cp)) = Ok x /\ val x w /\ near 16 ai w /\ sized 311 ai
    end).
  { destruct (sd <? dated); [reflexivity|]. destruct (nth_unadjusted cs 0) as [first|] eqn:Ef; cbn [bind]; [|reflexivity].
    assert (Of : date_ok first) by (destruct (nth_unadjusted_in _ _ _ Ef) as (p & I & <-); apply Oc, I).
    assert (Per : match (if sd <=? first then Ok (dated, first) else let i := bisect_right (List.map bp_date cs) (purchase_date t) in do p <- nth_unadjusted cs (i - 1); do f <- nth_unadjusted cs i; Ok (p, f)) with Ok p => date_ok (fst p) /\ date_ok (snd p) | Err _ => True end).
    { destruct (sd <=? first); [split; assumption|]. cbv zeta. set (i := bisect_right _ _). destruct (nth_unadjusted cs (i - 1)) as [p|] eqn:E1; cbn [bind]; [|exact I]. destruct (nth_unadjusted cs i) as [f|] eqn:E2; cbn [bind]; [|exact I].
      destruct (nth_unadjusted_in _ _ _ E1) as (q1 & I1 & <-). destruct (nth_unadjusted_in _ _ _ E2) as (q2 & I2 & <-). split; apply Oc; assumption. }
    destruct (if sd <=? first then _ else _) as [[s e]|]; cbn [bind fst snd] in *; [|reflexivity]. destruct Per as [Ps Pe].
    destruct (acc (b_dcc t) s sd) as [num|] eqn:E1; cbn [bind]; [|rewrite (acc_err _ _ _ _ E1); reflexivity]. destruct (acc_near _ _ _ _ Ps Os E1) as (xn & vn & Fn & Vn & Nn & Sn). rewrite Fn. cbn [bind].
    destruct (acc (b_dcc t) s e) as [den|] eqn:E2; cbn [bind]; [|rewrite (acc_err _ _ _ _ E2); reflexivity]. destruct (acc_near _ _ _ _ Ps Pe E2) as (xd & vd & Fd & Vd & Nd & Sd). rewrite Fd. cbn [bind].
    unfold qdiv. destruct (Qeq_bool den 0) eqn:Z0; cbn [bind].
    - apply Qeq_bool_eq in Z0. apply Qeq_eqR in Z0. assert (Q0 : Q2R 0 = 0%R) by (unfold Q2R; cbn; lra). rewrite Q0 in Z0. apply (near_zero _ _ _ Nd ltac:(lra)) in Z0. subst vd. rewrite (fdiv_zero xn xd Vd). reflexivity.
    - apply Qeq_bool_neq in Z0. assert (Nz : Q2R den <> 0%R). { intros H0. apply Z0. apply eqR_Qeq. rewrite H0. unfold Q2R. cbn. lra. }
      assert (Ed : Q2R (num / den) = (Q2R num / Q2R den)%R) by (unfold Qdiv, Rdiv; rewrite Q2R_mult, Q2R_inv by exact Z0; reflexivity).
      pose proof (sized_div _ _ _ _ Nz Sn Sd) as S1. destruct (near_div _ _ _ _ _ _ 4 4 ltac:(lra) ltac:(lra) Nn Nd Vn Vd Nz (sized_mid (50 + 50) _ ltac:(lia) S1)) as (z & w & E & W & Nw). rewrite E. cbn [bind]. rewrite Ed.
      pose proof (sized_mul _ _ _ _ S1 Sc) as S2. destruct (near_mul _ _ _ _ _ _ (4 + 4 + 2) 4 ltac:(lra) ltac:(lra) Nw Nc W Vc (sized_mid (50 + 50 + 211) _ ltac:(lia) S2)) as (w2 & V2 & N2).
      exists (fmul z cp), w2. split; [reflexivity|]. split; [exact V2|]. split; [apply near_weak with (2 := N2); lra|exact S2]. }
  destruct (freq t); [|exact Main..]. exists (of_int 0), 0%R. split; [reflexivity|]. split; [apply (of_int_val 0); lia|]. split; [apply near_weak with (2 := near_refl 0); lra|left; reflexivity].
Qed.

Lemma price_near a ai x w : plain_bond a -> val x w -> near 16 ai w -> sized 311 ai ->
  match get_full_price (fb_terms a) ai with
  | Err e => f_get_full_price a x = Err e
  | Ok fp => exists y z, f_get_full_price a x = Ok y /\ val y z /\ (Rabs (z - fp) <= 22 * u * (Rabs (price (fb_terms a)) + Rabs (ai / principal (fb_terms a) * 100)))%R
  end.
Proof.
  intros ((Fq & Vq & Sq) & _ & (Fp & Vp & Sp) & _) V N S1. unfold get_full_price, f_get_full_price. set (P := principal (fb_terms a)) in *. set (q := price (fb_terms a)) in *.
  destruct (Req_EM_T P 0) as [Z0|Nz].
  - rewrite fdiv_zero; [reflexivity|]. split; [exact Fp|congruence].
  - pose proof (sized_div _ _ _ _ Nz S1 Sp) as S2. destruct (near_div _ _ _ _ _ _ 16 0 ltac:(lra) ltac:(lra) N (near_refl P) V (conj Fp Vp) Nz (sized_mid (311 + 100) _ ltac:(lia) S2)) as (z & w2 & E & W & N2).
    rewrite E. cbn [bind]. pose proof (sized_mul _ _ _ _ S2 (sized_int 100 7 ltac:(lia) ltac:(lia))) as S3.
    destruct (near_mul _ _ _ _ _ _ (16 + 0 + 2) 0 ltac:(lra) ltac:(lra) N2 (near_refl 100%R) W (of_int_val 100 ltac:(lia)) (sized_mid (311 + 100 + 7) _ ltac:(lia) S3)) as (w3 & V3 & N3).
    set (t := (ai / P * 100)%R) in *. pose proof u_small as Us. pose proof (near_abs _ _ _ N3) as E3. pose proof (Rabs_pos t) as T0. pose proof (Rabs_pos q) as Q0.
    assert (T1 : (Rabs t <= bpow radix2 418)%R) by (destruct S3 as [-> | [_ X]]; [rewrite Rabs_R0; apply bpow_ge_0|exact X]).
    assert (A3 : (Rabs w3 <= 2 * Rabs t)%R). { replace w3 with (t + (w3 - t))%R by ring. apply Rle_trans with (1 := Rabs_triang _ _). assert ((16 + 0 + 2 + 0 + 2) * u * Rabs t <= 1 * Rabs t)%R by (apply Rmult_le_compat_r; lra). lra. }
    assert (Bg : (Rabs (q + w3) <= big)%R).
    { apply Rle_trans with (1 := Rabs_triang _ _). assert (B1 : (bpow radix2 100 <= bpow radix2 418)%R) by (apply bpow_le; lia). apply Rle_trans with (4 * bpow radix2 418)%R; [lra|]. change 4%R with (bpow radix2 2). rewrite <- bpow_plus. apply bpow_le. lia. }
    exists (fadd (fb_price a) (fmul z (of_int 100))), (rn (q + w3)). split; [reflexivity|]. split; [apply fadd_val; [split; assumption|exact V3|exact Bg]|].
    pose proof (rn_plus_err _ _ _ _ (conj Fq Vq) V3) as E4. replace (rn (q + w3) - (q + t))%R with (rn (q + w3) - (q + w3) + (w3 - t))%R by ring.
    apply Rle_trans with (1 := Rabs_triang _ _). assert (u * Rabs (q + w3) <= u * (Rabs q + 2 * Rabs t))%R by (apply Rmult_le_compat_l; [lra|]; apply Rle_trans with (1 := Rabs_triang _ _); lra).
    assert (0 <= u * Rabs q)%R by (apply Rmult_le_pos; lra). lra.
Qed.

Lemma new_dates_ok t dd cs : date_ok (maturity_date t) -> calculate_dated_date t = Ok dd -> create_coupon_payments_cashflow t dd = Ok cs ->
  date_ok dd /\ forall p, In p cs -> date_ok (bp_unadjusted p).
Proof.
  intros Om Ed Ec. split.
  - unfold calculate_dated_date in Ed. destruct (b_tenor t); [| |discriminate]; apply add_months_parts in Ed; apply Ed.
  - intros p I. apply coupons_spec in Ec. destruct (coupon_step (freq t)) as [[m|]|]; [|rewrite Ec in I; contradiction|contradiction].
    destruct Ec as (l & G & _ & P & _). unfold generate_dates_by_increments in G. destruct (positive_increment _ _) as [up|]; cbn [bind] in G; [|discriminate].
    apply grid_dates_ok in G; auto. rewrite Forall_forall in G. apply G. apply (Permutation_in _ P). apply in_map. exact I.
Qed.

(** what a float bond is compared with *)
Definition close_bond (a : f_bond_args) (b : bond) (fb : f_bond) : Prop :=
  fb_dated fb = dated_date b /\ fb_settled fb = settlement_date b /\ List.map (fun c => fst c) (fb_coupons fb) = List.map (fun p => (bp_date p, bp_unadjusted p)) (coupons b) /\
  (forall c, In c (fb_coupons fb) -> snd c = fb_coupon_payment fb) /\
  is_finite (fb_coupon_payment fb) = true /\ is_finite (fb_accrued fb) = true /\ is_finite (fb_full_price fb) = true /\
  (Rabs (B2R (fb_coupon_payment fb) - coupon_payment b) <= 4 * / 2 ^ 53 * Rabs (coupon_payment b))%R /\
  (Rabs (B2R (fb_accrued fb) - accrued_interest b) <= 16 * / 2 ^ 53 * Rabs (accrued_interest b))%R /\
  (Rabs (B2R (fb_full_price fb) - full_price b) <= 22 * / 2 ^ 53 * (Rabs (price (args b)) + Rabs (full_price b - price (args b))))%R.
Lemma u_value : (/ 2 ^ 53 = u)%R.
Proof. rewrite <- (Rmult_1_r u). change 1%R with (2 ^ 0)%R at 1. rewrite u_pow by lia. reflexivity. Qed.

Lemma bond_match a : plain_bond a ->
  match new_bond (fb_terms a) with Err e => f_new_bond a = Err e | Ok b => exists fb, f_new_bond a = Ok fb /\ close_bond a b fb end.
Proof.
  intros Pl. destruct (coupon_near a Pl) as (cp & vc & Ec & Vc & Nc & Sc). pose proof Pl as (_ & _ & _ & Om & Op). unfold new_bond, f_new_bond. rewrite Ec. cbn [bind]. set (t := fb_terms a) in *.
  destruct (calculate_dated_date t) as [dd|] eqn:E1; cbn [bind]; [|reflexivity].
  destruct (create_coupon_payments_cashflow t dd) as [cs|] eqn:E2; cbn [bind]; [|reflexivity].
  destruct (create_principal_repayment_cashflow t) as [pr|] eqn:E3; cbn [bind]; [|reflexivity].
  destruct (calculate_settlement_date _ _ _) as [sd|] eqn:E4; cbn [bind]; [|reflexivity].
  destruct (new_dates_ok t dd cs Om E1 E2) as [Od Oc]. assert (Os : date_ok sd) by apply (settle_isbd _ _ _ _ Op E4).
  pose proof (accrued_near a cp vc _ dd cs sd Od Os Oc Vc Nc Sc) as Ac. fold t in Ac.
  destruct (calculate_accrued_interest t _ dd cs sd None) as [ai|]; cbn [bind]; [|rewrite Ac; reflexivity]. destruct Ac as (x & w & Ex & Vx & Nx & Sx). rewrite Ex. cbn [bind].
  pose proof (price_near a ai x w Pl Vx Nx Sx) as Pr. fold t in Pr. unfold get_full_price in *. destruct (Req_EM_T (principal t) 0) as [Z0|Nz]; cbn [bind]; [rewrite Pr; reflexivity|].
  destruct Pr as (y & z & Ey & Vy & Ny). rewrite Ey. cbn [bind]. eexists. split; [reflexivity|]. unfold close_bond. cbn [fb_dated dated_date fb_settled settlement_date fb_coupons coupons fb_coupon_payment coupon_payment fb_accrued accrued_interest fb_full_price full_price args].
  rewrite u_value. split; [reflexivity|]. split; [reflexivity|]. split; [rewrite map_map; reflexivity|]. split; [intros c I; apply in_map_iff in I; destruct I as (p & <- & _); reflexivity|].
  split; [apply Vc|]. split; [apply Vx|]. split; [apply Vy|]. rewrite (proj2 Vc), (proj2 Vx), (proj2 Vy).
  split; [apply near_abs, Nc|]. split; [apply near_abs, Nx|]. replace (price t + ai / principal t * 100 - price t)%R with (ai / principal t * 100)%R by ring. exact Ny.
Qed.

(** C108: the program builds exactly the bonds the exact model builds, with the same dates; the coupon is within 4 units of 2^-53,
    the accrued interest within 16 and the full price within 22, relative to the exact amounts. *)
Theorem C108_accuracy : forall a b, plain_bond a -> new_bond (fb_terms a) = Ok b -> exists fb, f_new_bond a = Ok fb /\ close_bond a b fb.
Proof. intros a b Pl E. pose proof (bond_match a Pl) as M. rewrite E in M. exact M. Qed.
Print Assumptions C108_accuracy.
Theorem C108_errors : forall a e, plain_bond a -> (f_new_bond a = Err e <-> new_bond (fb_terms a) = Err e).
Proof.
  intros a e Pl. pose proof (bond_match a Pl) as M. destruct (new_bond (fb_terms a)) as [b|e'].
  - destruct M as (fb & E & _). rewrite E. split; discriminate.
  - rewrite M. split; intros [= ->]; reflexivity.
Qed.
Print Assumptions C108_errors.

(** exactly, without rounding: no coupons, no accrued interest, and the full price is the quoted price *)
Theorem C108_zero_coupon : forall a fb, plain_bond a -> f_new_bond a = Ok fb -> freq (fb_terms a) = ZERO_COUPON ->
  fb_coupons fb = [] /\ B2R (fb_coupon_payment fb) = 0%R /\ B2R (fb_accrued fb) = 0%R /\ B2R (fb_full_price fb) = B2R (fb_price a).
Proof.
  intros a fb Pl F Zc. pose proof (bond_match a Pl) as M. destruct (new_bond (fb_terms a)) as [b|e] eqn:B; [|congruence]. destruct M as (fb' & F' & Cl). assert (fb' = fb) by congruence. subst fb'.
  unfold f_new_bond, f_calculate_coupon_payment, f_calculate_accrued_interest in F. rewrite Zc in F. cbn [bind] in F.
  destruct (calculate_dated_date _) as [dd|]; cbn [bind] in F; [|discriminate]. destruct (create_coupon_payments_cashflow _ dd) as [cs|] eqn:E2; cbn [bind] in F; [|discriminate].
  destruct (create_principal_repayment_cashflow _); cbn [bind] in F; [|discriminate]. destruct (calculate_settlement_date _ _ _) as [sd|]; cbn [bind] in F; [|discriminate].
  destruct (f_get_full_price a (of_int 0)) as [fp|] eqn:Ep; cbn [bind] in F; [|discriminate]. injection F as <-. cbn [fb_coupons fb_coupon_payment fb_accrued fb_full_price].
  apply coupons_spec in E2. rewrite Zc in E2. cbn in E2. subst cs. split; [reflexivity|]. pose proof (of_int_val 0 ltac:(lia)) as V0. split; [apply V0|]. split; [apply V0|].
  unfold f_get_full_price in Ep. destruct (fdiv (of_int 0) (fb_principal a)) as [n|] eqn:En; cbn [bind] in Ep; [|discriminate]. injection Ep as <-.
  destruct Pl as ((Fq & Eq & Bq) & _ & (Fp & Vp & Sp) & _). assert (Nz : principal (fb_terms a) <> 0%R). { intros H0. rewrite fdiv_zero in En; [discriminate|]. split; [exact Fp|congruence]. }
  destruct (fdiv_val _ _ _ _ V0 (conj Fp Vp) Nz) as (z & Ez & Vz); [unfold Rdiv; rewrite Rmult_0_l, Rabs_R0; apply bpow_ge_0|]. assert (z = n) by congruence. subst z.
  assert (Z1 : rn (0 / principal (fb_terms a)) = 0%R) by (unfold Rdiv; rewrite Rmult_0_l; apply rn_0). rewrite Z1 in Vz.
  pose proof (fmul_val _ _ _ _ Vz (of_int_val 100 ltac:(lia)) ltac:(rewrite Rmult_0_l, Rabs_R0; apply bpow_ge_0)) as V1. rewrite Rmult_0_l, rn_0 in V1.
  assert (Vq : val (fb_price a) (B2R (fb_price a))) by (split; auto).
  assert (Bg : (Rabs (B2R (fb_price a) + 0) <= big)%R) by (rewrite Rplus_0_r, Eq; apply Rle_trans with (1 := Bq); apply bpow_le; lia).
  pose proof (fadd_val _ _ _ _ Vq V1 Bg) as [_ Vs]. rewrite Rplus_0_r, rn_B2R in Vs. exact Vs.
Qed.
Print Assumptions C108_zero_coupon.

Lemma rn_1 : rn 1 = 1%R.
Proof. apply (val_format (of_int 1) 1), (of_int_val 1). lia. Qed.
Lemma coupon_pos t : (0 <= principal t)%R -> (0 <= coupon_rate t)%R -> (0 <= calculate_coupon_payment t)%R.
Proof.
  intros P C. unfold calculate_coupon_payment. destruct (freq t) eqn:E; try lra. all: cbn [per_year]; apply Rmult_le_pos; [apply Rmult_le_pos; assumption|apply Rlt_le, Rinv_0_lt_compat; lra].
Qed.
Lemma acc_same c s q : acc c s s = Ok q -> Q2R q = 0%R.
Proof.
  unfold acc. rewrite q_compute_days, Z.leb_refl. intros H. assert (E : (q == 0)%Q); [|rewrite (Qreals.Qeq_eqR _ _ E); unfold Q2R; cbn; lra].
  assert (T : days_30_360 s s = 0).
  { unfold days_30_360. destruct (month s =? 2); destruct (day s =? 28); destruct (day s =? 31) eqn:C; cbn -[Z.mul Z.add Z.sub year month day]; try rewrite C; cbn -[Z.mul Z.add Z.sub year month day]; try rewrite C; lia. }
  destruct c; cbn [q_fun] in H.
  all: try (unfold dcc_act_over_360, dcc_act_over_365, dcc_act_over_365_25, dcc_30_over_360 in H; injection H as <-; try rewrite T; try rewrite Z.sub_diag; reflexivity).
  unfold dcc_act_over_act in H. destruct (mk_date (year s) 12 31) as [y1|]; cbn [bind] in H; [|discriminate]. destruct (mk_date (year s - 1) 12 31) as [y0|]; cbn [bind] in H; [|discriminate].
  rewrite Z.eqb_refl in H. injection H as <-. rewrite Z.sub_diag. unfold Qdiv. apply Qmult_0_l.
Qed.
Lemma acc_same_ok c s e q er : acc c s e = Ok q -> compute_accrual_length (Day s) (Day s) c = Err er -> False.
Proof.
  unfold acc. rewrite !q_compute_days, Z.leb_refl. intros H. destruct (s <=? e); [|discriminate]. destruct c; cbn [q_fun] in *; try discriminate.
  unfold dcc_act_over_act in *. destruct (mk_date (year s) 12 31) as [y1|]; cbn [bind] in *; [|discriminate]. destruct (mk_date (year s - 1) 12 31) as [y0|]; cbn [bind] in *; [|discriminate].
  rewrite Z.eqb_refl. discriminate.
Qed.
(** within a coupon period, without rounding: nothing at its start, the coupon to the last bit at its end, and between the two
    otherwise *)
Theorem C108_within : forall a fb, plain_bond a -> f_new_bond a = Ok fb -> freq (fb_terms a) <> ZERO_COUPON ->
  exists s e, ((exists c, nth_error (fb_coupons fb) 0 = Some c /\ fb_settled fb <= snd (fst c) /\ s = fb_dated fb /\ e = snd (fst c)) \/
               (exists c c' c0, nth_error (fb_coupons fb) 0 = Some c0 /\ snd (fst c0) < fb_settled fb /\ In c (fb_coupons fb) /\ In c' (fb_coupons fb) /\ s = snd (fst c) /\ e = snd (fst c'))) /\ s <= fb_settled fb /\
    (fb_settled fb = s -> B2R (fb_accrued fb) = 0%R) /\ (fb_settled fb = e -> B2R (fb_accrued fb) = B2R (fb_coupon_payment fb)) /\
    (fb_settled fb <= e -> b_dcc (fb_terms a) <> THIRTY360 -> (0 <= B2R (fb_principal a))%R -> (0 <= B2R (fb_coupon_rate a))%R -> (0 <= B2R (fb_accrued fb) <= B2R (fb_coupon_payment fb))%R).
Proof.
  intros a fb Pl F Zc. pose proof (bond_match a Pl) as M. destruct (new_bond (fb_terms a)) as [b|er] eqn:B; [|congruence]. clear M B b.
  destruct (coupon_near a Pl) as (cp & vc & Ec & Vc & Nc & Sc). pose proof Pl as (_ & (_ & Er & _) & (_ & Ep & _) & Om & Op).
  unfold f_new_bond in F. rewrite Ec in F. cbn [bind] in F. set (t := fb_terms a) in *.
  destruct (calculate_dated_date t) as [dd|] eqn:E1; cbn [bind] in F; [|discriminate]. destruct (create_coupon_payments_cashflow t dd) as [cs|] eqn:E2; cbn [bind] in F; [|discriminate].
  destruct (create_principal_repayment_cashflow t) as [pr|]; cbn [bind] in F; [|discriminate]. destruct (calculate_settlement_date _ _ _) as [sd|] eqn:E4; cbn [bind] in F; [|discriminate].
  destruct (f_calculate_accrued_interest a cp dd cs sd) as [ai|] eqn:E5; cbn [bind] in F; [|discriminate]. destruct (f_get_full_price a ai) as [fp|]; cbn [bind] in F; [|discriminate]. injection F as <-.
  destruct (new_dates_ok t dd cs Om E1 E2) as [Od Oc]. assert (Os : date_ok sd) by apply (settle_isbd _ _ _ _ Op E4).
  cbn [fb_coupons fb_settled fb_dated fb_accrued fb_coupon_payment].
  unfold f_calculate_accrued_interest in E5. fold t in E5.
  assert (E6 : (if sd <? dd then Err ValueError else
      do first <- nth_unadjusted cs 0;
      do period <- (if sd <=? first then Ok (dd, first) else let i := bisect_right (List.map bp_date cs) (purchase_date t) in do p <- nth_unadjusted cs (i - 1); do f <- nth_unadjusted cs i; Ok (p, f));
      do num <- f_compute_accrual_length (Day (fst period)) (Day sd) (b_dcc t); do den <- f_compute_accrual_length (Day (fst period)) (Day (snd period)) (b_dcc t); do frac <- fdiv num den; Ok (fmul frac cp)) = Ok ai) by (destruct (freq t); [contradiction|exact E5..]).
  clear E5. destruct (sd <? dd); [discriminate|]. destruct (nth_unadjusted cs 0) as [first|] eqn:Ef; cbn [bind] in E6; [|discriminate].
  assert (Hd : exists p0, nth_error cs 0 = Some p0 /\ bp_unadjusted p0 = first).
  { unfold nth_unadjusted in Ef. destruct cs as [|p0 cs']; [discriminate|]. exists p0. cbn in Ef. split; [reflexivity|congruence]. }
  destruct Hd as (p0 & N0 & U0). set (mk := fun p : bond_payment => (bp_date p, bp_unadjusted p, cp)) in *.
  destruct (if sd <=? first then _ else _) as [[s e]|] eqn:Per; cbn [bind fst snd] in E6; [|discriminate].
  destruct (f_compute_accrual_length (Day s) (Day sd) (b_dcc t)) as [num|] eqn:En; cbn [bind] in E6; [|discriminate].
  destruct (f_compute_accrual_length (Day s) (Day e) (b_dcc t)) as [den|] eqn:Ed; cbn [bind] in E6; [|discriminate].
  destruct (fdiv num den) as [fr|] eqn:Edv; cbn [bind] in E6; [|discriminate]. injection E6 as <-.
  assert (Where : ((exists c, nth_error (List.map mk cs) 0 = Some c /\ sd <= snd (fst c) /\ s = dd /\ e = snd (fst c)) \/
    (exists c c' c0, nth_error (List.map mk cs) 0 = Some c0 /\ snd (fst c0) < sd /\ In c (List.map mk cs) /\ In c' (List.map mk cs) /\ s = snd (fst c) /\ e = snd (fst c'))) /\ date_ok s /\ date_ok e).
  { destruct (Z.leb_spec sd first) as [L|L].
    - injection Per as -> ->. split; [|split; [exact Od|rewrite <- U0; apply Oc; eapply nth_error_In; exact N0]]. left. exists (mk p0). rewrite nth_error_map, N0. cbn. rewrite U0. auto.
    - cbv zeta in Per. set (i := bisect_right _ _) in Per. destruct (nth_unadjusted cs (i - 1)) as [p|] eqn:X1; cbn [bind] in Per; [|discriminate]. destruct (nth_unadjusted cs i) as [f|] eqn:X2; cbn [bind] in Per; [|discriminate].
      injection Per as -> ->. destruct (nth_unadjusted_in _ _ _ X1) as (q1 & I1 & <-). destruct (nth_unadjusted_in _ _ _ X2) as (q2 & I2 & <-). split; [|split; apply Oc; assumption].
      right. exists (mk q1), (mk q2), (mk p0). rewrite nth_error_map, N0. cbn. rewrite U0. split; [reflexivity|]. split; [exact L|]. split; [apply (in_map mk _ _ I1)|]. split; [apply (in_map mk _ _ I2)|]. auto. }
  destruct Where as (Where & Oss & Ose). exists s, e. split; [exact Where|]. clear Where Per.
  destruct (f_defined _ _ _ _ En) as (Ls & qn & Qn). destruct (f_defined _ _ _ _ Ed) as (Le & qd & Qd). split; [exact Ls|].
  destruct (acc_near _ _ _ _ Oss Os Qn) as (xn & vn & Fn & Vn & Nn & Sn). assert (xn = num) by congruence. subst xn.
  destruct (acc_near _ _ _ _ Oss Ose Qd) as (xd & vd & Fd & Vd & Nd & Sd). assert (xd = den) by congruence. subst xd.
  assert (Nz : vd <> 0%R). { intros ->. rewrite (fdiv_zero num den Vd) in Edv. discriminate. }
  assert (Nq : Q2R qd <> 0%R) by (intros H0; apply Nz, (near_zero _ _ _ Nd ltac:(lra)); exact H0).
  destruct (near_div _ _ _ _ _ _ 4 4 ltac:(lra) ltac:(lra) Nn Nd Vn Vd Nq (sized_mid (50 + 50) _ ltac:(lia) (sized_div _ _ _ _ Nq Sn Sd))) as (z & w & Ez & Vz & Nzw). assert (z = fr) by congruence. subst z.
  destruct (near_mul _ _ _ _ _ _ (4 + 4 + 2) 4 ltac:(lra) ltac:(lra) Nzw Nc Vz Vc (sized_mid (50 + 50 + 211) _ ltac:(lia) (sized_mul _ _ _ _ (sized_div _ _ _ _ Nq Sn Sd) Sc))) as (w2 & V2 & Nw2).
  assert (Bd : forall r, (0 <= r <= 1)%R -> (Rabs (r * vc) <= big)%R).
  { intros r Hr. rewrite Rabs_mult, (Rabs_pos_eq r) by lra. apply Rle_trans with (1 * Rabs vc)%R; [apply Rmult_le_compat_r; [apply Rabs_pos|lra]|]. rewrite Rmult_1_l.
    destruct Nc as (d & Dd & ->). apply (mid_range _ d (sized_mid 211 _ ltac:(lia) Sc)). pose proof u_small. lra. }
  rewrite (proj2 Vc). split; [|split].
  - intros ->. assert (Eq0 : Q2R qn = 0%R) by (apply (acc_same (b_dcc t) s), Qn).
    assert (W0 : (Q2R qn / Q2R qd * calculate_coupon_payment t)%R = 0%R) by (rewrite Eq0; unfold Rdiv; ring).
    rewrite (proj2 V2). apply (near_zero _ _ _ Nw2 ltac:(lra)). exact W0.
  - intros ->. assert (num = den) by congruence. subst num. assert (vn = vd) by (destruct Vn, Vd; congruence). subst vn.
    destruct (fdiv_val _ _ _ _ Vd Vd Nz) as (z & Ez' & Vz'); [unfold Rdiv; rewrite Rinv_r, Rabs_R1 by exact Nz; change 1%R with (bpow radix2 0); apply bpow_le; lia|].
    assert (z = fr) by congruence. subst z. assert (R1 : rn (vd / vd) = 1%R) by (unfold Rdiv; rewrite Rinv_r by exact Nz; apply rn_1). rewrite R1 in Vz'.
    pose proof (fmul_val _ _ _ _ Vz' Vc (Bd 1%R ltac:(lra))) as [_ Vm]. rewrite Vm, Rmult_1_l. apply (val_format cp), Vc.
  - intros Lse Nt Hp Hr. assert (Pc : (0 <= vc)%R).
    { destruct Nc as (d & Dd & ->). apply Rmult_le_pos; [|pose proof u_small; apply Rabs_le_inv in Dd; lra]. rewrite Er in Hr. rewrite Ep in Hp. apply coupon_pos; assumption. }
    assert (P0 : (0 <= vn)%R).
    { destruct (f_compute_accrual_length (Day s) (Day s) (b_dcc t)) as [z0|er] eqn:Ess.
      - destruct (f_defined _ _ _ _ Ess) as (_ & q0 & Q0). destruct (acc_near _ _ _ _ Oss Oss Q0) as (x0 & v0 & F0 & V0 & N0' & _). assert (x0 = z0) by congruence. subst x0.
        assert (v0 = 0%R) by (apply (near_zero _ _ _ N0' ltac:(lra)), (acc_same (b_dcc t) s), Q0). subst v0. destruct (C83_order _ _ _ _ _ _ Nt Oss Os Oss En Ess) as [Lt _].
        destruct (Rle_or_lt 0 vn) as [G|G]; [exact G|]. apply (flt_val _ _ _ _ Vn V0) in G. rewrite G in Lt. symmetry in Lt. apply Z.ltb_lt in Lt. lia.
      - exfalso. apply C82_errors in Ess. exact (acc_same_ok _ _ _ _ _ Qn Ess). }
    assert (Pnd : (vn <= vd)%R).
    { destruct (C83_order _ _ _ _ _ _ Nt Oss Ose Os Ed En) as [Lt _]. destruct (Rle_or_lt vn vd) as [G|G]; [exact G|]. apply (flt_val _ _ _ _ Vd Vn) in G. rewrite G in Lt. symmetry in Lt. apply Z.ltb_lt in Lt. lia. }
    assert (Pd : (0 < vd)%R) by lra. assert (Rg : (0 <= vn / vd <= 1)%R).
    { split; [apply Rmult_le_pos; [exact P0|apply Rlt_le, Rinv_0_lt_compat, Pd]|]. apply Rmult_le_reg_r with vd; [exact Pd|]. unfold Rdiv. rewrite Rmult_assoc, Rinv_l by lra. lra. }
    destruct (fdiv_val _ _ _ _ Vn Vd Nz) as (z & Ez' & Vz'); [rewrite Rabs_pos_eq by lra; apply Rle_trans with 1%R; [lra|]; change 1%R with (bpow radix2 0); apply bpow_le; lia|].
    assert (z = fr) by congruence. subst z. assert (Rr : (0 <= rn (vn / vd) <= 1)%R) by (split; [rewrite <- rn_0; apply rn_le; lra|rewrite <- rn_1; apply rn_le; lra]).
    pose proof (fmul_val _ _ _ _ Vz' Vc (Bd _ Rr)) as [_ Vm]. rewrite Vm. pose proof (val_format cp vc Vc) as Fc. split.
    + rewrite <- rn_0. apply rn_le. apply Rmult_le_pos; lra.
    + rewrite <- Fc at 2. apply rn_le. apply Rle_trans with (1 * vc)%R; [apply Rmult_le_compat_r; lra|lra].
Qed.
Print Assumptions C108_within.

(** Non-vacuity: a 2 year note at 99 with a 5% coupon on 100, bought on 1 September 2023. *)
Definition f_note : f_bond_args := FBondArgs (note UsTreasury 739297 738764 2) (of_int 99) (of_int 5) (of_int 100).
Lemma f_note_plain : plain_bond f_note.
Proof.
  pose proof (of_int_val 99 ltac:(lia)) as [F1 V1]. pose proof (of_int_val 5 ltac:(lia)) as [F2 V2]. pose proof (of_int_val 100 ltac:(lia)) as [F3 V3]. unfold plain_bond, f_note. cbn [fb_terms fb_price fb_coupon_rate fb_principal note price coupon_rate principal maturity_date purchase_date].
    split; [split; [exact F1|split; [exact V1|]]|]. { rewrite Rabs_pos_eq by lra. rewrite <- (IZR_Zpower radix2 100) by lia. apply IZR_le. vm_compute. discriminate. }
    split; [split; [exact F2|split; [exact V2|]]|]. { apply sized_int; [lia|vm_compute; discriminate]. }
    split; [split; [exact F3|split; [exact V3|]]|]. { apply sized_int; [lia|vm_compute; discriminate]. }
    split; vm_compute; split; discriminate.
Qed.
Lemma f_note_exact : exists b, new_bond (fb_terms f_note) = Ok b /\ List.length (coupons b) = 4%nat.
Proof. eexists. split; [unfold f_note; cbn [fb_terms]; build_bond|reflexivity]. Qed.
Lemma f_note_coupon : match f_new_bond f_note with Ok fb => feq (fb_coupon_payment fb) (flit 5 (-1)) | _ => false end = true.
Proof. vm_compute. reflexivity. Qed.
Lemma f_note_accrued : match f_new_bond f_note with Ok fb => flt (of_int 0) (fb_accrued fb) && flt (fb_accrued fb) (of_int 2) | _ => false end = true.
Proof. vm_compute. reflexivity. Qed.
Local Opaque f_new_bond new_bond.
Example C108_case : plain_bond f_note /\ (exists b, new_bond (fb_terms f_note) = Ok b) /\ mk_date 2025 2 15 = Ok 739297 /\ mk_date 2023 9 1 = Ok 738764 /\
  exists fb, f_new_bond f_note = Ok fb /\ B2R (fb_coupon_payment fb) = (5 / 2)%R /\ (0 < B2R (fb_accrued fb) < 5 / 2)%R /\ List.length (fb_coupons fb) = 4%nat.
Proof.
  destruct f_note_exact as (b & B & Lc). split; [exact f_note_plain|]. split; [eauto|]. split; [vm_compute; reflexivity|]. split; [vm_compute; reflexivity|].
  destruct (C108_accuracy f_note b f_note_plain B) as (fb & F & Cl). exists fb. split; [exact F|]. destruct Cl as (_ & _ & Dt & _ & Fc & Fa & _ & _ & _ & _).
  assert (Vl : val (flit 5 (-1)) (5 / 2)%R).
  { replace (5 / 2)%R with (5 * bpow radix2 (-1))%R by (change (bpow radix2 (-1)) with (/ 2)%R; lra). apply flit_val; lia. }
  pose proof f_note_coupon as G0. pose proof f_note_accrued as G. rewrite F in G0, G.
  assert (Vx : val (fb_coupon_payment fb) (B2R (fb_coupon_payment fb))) by (split; auto). apply (feq_val _ _ _ _ Vx Vl) in G0. split; [exact G0|].
  apply andb_prop in G. destruct G as [G1 G2]. assert (Va : val (fb_accrued fb) (B2R (fb_accrued fb))) by (split; auto).
  apply (flt_val _ _ _ _ (of_int_val 0 ltac:(lia)) Va) in G1. apply (flt_val _ _ _ _ Va (of_int_val 2 ltac:(lia))) in G2. split; [lra|]. rewrite <- Lc. rewrite <- (map_length (fun c => fst c)), Dt, map_length. reflexivity.
Qed.
