(** Loan schedules in double precision follow the exact ones: C111. *)
From Verif Require Import Base PyDate PyDateFacts DayCount DayCountFacts Scheduler SchedulerFacts ModFollFacts KeyRate KeyRateFacts Curve Cashflow CashflowFacts Bond BondFacts P_DayCount Loan LoanFacts P_Loan Float FloatFacts FloatDayCount P_FloatDayCount FloatLoan P_FloatLoan P_FloatBond P_FloatSwap.
From Coq Require Import Lra Reals.
From Flocq Require Import Core BinarySingleNaN.
Open Scope Z_scope.

(** ---- specification ---- *)
(** the loan with the same terms, its doubles read as real numbers *)
Definition exact_loan (l : f_loan) : loan :=
  let t := fl_terms l in Loan (B2R (fl_principal l)) (B2R (fl_rate l)) (l_origination t) (l_term t) (l_dcc t) (l_freq t) (l_time t) (l_end t).
Definition exact_extra (x : f_extra) : extra :=
  match x with FNoExtra => NoExtra | FFloatExtra v => FloatExtra (B2R v) | FListExtra vs => ListExtra (List.map B2R vs) end.
(** the accrual of a period in years *)
Definition years (l : loan) (s e : date) : R := match acc (l_dcc l) s e with Ok q => Q2R q | Err _ => 0%R end.
(** what 1 grows to over the first k periods between these dates at the loan's rate *)
Fixpoint grown (l : loan) (ds : list date) (k : nat) : R :=
  match k with O => 1%R | S j => (grown l ds j * (1 + l_rate l * years l (nth j ds 0%Z) (nth (S j) ds 0%Z)))%R end.

(** ---- the same dates and the same failures ---- *)
Lemma acc_fails c s e : forall er, acc c s e = Err er <-> f_compute_accrual_length (Day s) (Day e) c = Err er.
Proof. intros er. unfold acc. symmetry. apply C82_errors. Qed.
Definition conv (p : f64 * (date * date)) : R * (date * date) := (B2R (fst p), snd p).
Definition shape (l : f_loan) (per : list (f64 * (date * date))) (fr : res (list f_loan_payment)) (er : res (list loan_payment)) : Prop :=
  (exists er0, fr = Err er0 /\ er = Err er0) \/ (exists ps qs, fr = Ok ps /\ er = Ok qs /\ List.map flp_date ps = List.map (fun p => snd (snd p)) per /\ List.map lp_date qs = List.map (fun p => snd (snd p)) per).
Lemma same_run l per : forall p r p' r', shape l per (f_amortize l per p r) (amortize (exact_loan l) (List.map conv per) p' r').
Proof.
  induction per as [|[x [s e]] rest IH]; intros p r p' r'; cbn [f_amortize amortize List.map conv fst snd]; [right; exists [], []; auto|].
  unfold f_calculate_interest_payment, calculate_interest_payment. change (l_dcc (exact_loan l)) with (l_dcc (fl_terms l)).
  destruct (acc (l_dcc (fl_terms l)) s e) as [q|er] eqn:A.
  2: { apply acc_fails in A. rewrite A. left. exists er. auto. }
  destruct (f_compute_accrual_length (Day s) (Day e) (l_dcc (fl_terms l))) as [a|er] eqn:F; [|apply acc_fails in F; congruence]. cbn [bind].
  assert (St : forall p r p' r' row row', flp_date row = e -> lp_date row' = e -> shape l ((x, (s, e)) :: rest) (do t <- f_amortize l rest p r; Ok (row :: t)) (do t <- amortize (exact_loan l) (List.map conv rest) p' r'; Ok (row' :: t))).
  { intros p0 r0 p1 r1 row row' D D'. destruct (IH p0 r0 p1 r1) as [(er & E1 & E2)|(ps & qs & E1 & E2 & M1 & M2)]; rewrite E1, E2; cbn [bind]; [left; eauto|].
    right. exists (row :: ps), (row' :: qs). cbn [List.map snd]. rewrite D, D', M1, M2. auto. }
  destruct (fle r _); destruct (Rle_dec r' _); apply St; reflexivity.
Qed.
Lemma unpack_same x n : unpack_extra (exact_extra x) n = Ok (List.map B2R (f_unpack_extra x n)).
Proof.
  assert (Rp : forall (y : f64) n, List.map B2R (repeat y n) = repeat (B2R y) n) by (intros y m; induction m; cbn; [reflexivity|f_equal; assumption]).
  assert (Z0 : B2R (of_int 0) = 0%R) by apply (of_int_val 0 ltac:(lia)).
  destruct x as [|y|li]; cbn [unpack_extra exact_extra f_unpack_extra]; rewrite ?Rp; [rewrite Z0; reflexivity|reflexivity|].
  rewrite map_length. change (@List.length (binary_float 53 1024) li) with (@List.length f64 li). destruct (Nat.leb (List.length li) n); [rewrite map_app, Rp, Z0; reflexivity|rewrite firstn_map; reflexivity].
Qed.
Lemma combine_conv (xs : list f64) (ps : list (date * date)) : combine (List.map B2R xs) ps = List.map conv (combine xs ps).
Proof. revert ps. induction xs as [|x xs IH]; intros [|p ps]; cbn; [reflexivity|reflexivity|reflexivity|]. unfold conv at 1. cbn. f_equal. apply IH. Qed.
Lemma same_schedule l pay x : shape l [] (f_generate_payment_schedule l pay x) (generate_payment_schedule (exact_loan l) (B2R pay) (exact_extra x)) \/
  exists per, shape l per (f_generate_payment_schedule l pay x) (generate_payment_schedule (exact_loan l) (B2R pay) (exact_extra x)).
Proof.
  unfold f_generate_payment_schedule, generate_payment_schedule. change (schedule_start (exact_loan l)) with (schedule_start (fl_terms l)).
  change (l_term (exact_loan l)) with (l_term (fl_terms l)). change (l_freq (exact_loan l)) with (l_freq (fl_terms l)).
  destruct (schedule_start (fl_terms l)) as [s|er]; cbn [bind]; [|left; left; eauto]. destruct (add_increment s _) as [e|er]; cbn [bind]; [|left; left; eauto].
  destruct (loan_step _) as [m|er]; cbn [bind]; [|left; left; eauto]. destruct (payment_dates s e m) as [ds|er]; cbn [bind]; [|left; left; eauto].
  right. rewrite unpack_same. cbn [bind]. rewrite combine_conv. eexists. apply same_run.
Qed.
Lemma extra_same x k : extra_at (exact_extra x) k = B2R (f_extra_at x k).
Proof.
  assert (Z0 : B2R (of_int 0) = 0%R) by apply (of_int_val 0 ltac:(lia)).
  destruct x as [|y|li]; cbn [exact_extra extra_at f_extra_at]; [symmetry; exact Z0|reflexivity|]. rewrite <- Z0. apply map_nth.
Qed.

(** C111: the two schedules fail alike and have the same dates *)
Theorem C111_same_dates : forall l pay x,
  (forall er, f_generate_payment_schedule l pay x = Err er <-> generate_payment_schedule (exact_loan l) (B2R pay) (exact_extra x) = Err er) /\
  (forall ps, f_generate_payment_schedule l pay x = Ok ps -> exists qs, generate_payment_schedule (exact_loan l) (B2R pay) (exact_extra x) = Ok qs /\ List.map lp_date qs = List.map flp_date ps).
Proof.
  intros l pay x. destruct (same_schedule l pay x) as [S0|[per S0]]; (destruct S0 as [(er0 & E1 & E2)|(ps & qs & E1 & E2 & M1 & M2)]; rewrite E1, E2; split; intros; [split; congruence|discriminate|split; discriminate|]).
  - exists qs. split; [reflexivity|]. congruence.
  - exists qs. split; [reflexivity|]. congruence.
Qed.
Print Assumptions C111_same_dates.

(** ---- one period ---- *)
Section Period.
  Variables (b y x v q rt ifl g P E : R).
  Hypothesis Hb : (0 <= b <= P)%R.
  Hypothesis Hx : (0 <= x)%R.
  Hypothesis Hy : (0 <= y)%R.
  Hypothesis Hg : (g = 1 + rt * q)%R.
  Hypothesis Hrq : (0 <= rt * q)%R.
  Hypothesis HE : (E = u * (g * P))%R.
  Hypothesis Hif : (Rabs (ifl - q * rt * b) <= 8 * E)%R.
  Hypothesis Hif0 : (0 <= ifl)%R.

  Lemma gb : (b + q * rt * b <= g * P)%R.
  Proof. rewrite Hg. assert (rt * q * b <= rt * q * P)%R by (apply Rmult_le_compat_l; lra). lra. Qed.
  Lemma gP0 : (0 <= P /\ P <= g * P /\ 0 <= E /\ 1000 * E <= g * P)%R.
  Proof.
    assert (P0 : (0 <= P)%R) by lra. assert (0 <= rt * q * P)%R by (apply Rmult_le_pos; lra). assert (G : (P <= g * P)%R) by (rewrite Hg; lra). pose proof u_small as Us.
    split; [exact P0|]. split; [exact G|]. split; [rewrite HE; apply Rmult_le_pos; lra|]. rewrite HE. assert (u * (g * P) <= 1 / 1000000 * (g * P))%R by (apply Rmult_le_compat_r; lra). lra.
  Qed.
  Lemma offered_err r1 r2 : (y - ifl <= g * P)%R -> (Rabs (r1 - (y - ifl)) <= u * Rabs (y - ifl))%R -> (x <= 2 * (g * P))%R -> (Rabs (r2 - (r1 + x)) <= u * Rabs (r1 + x))%R ->
    (Rabs (r2 - (y - q * rt * b + x)) <= 14 * E)%R.
  Proof.
    intros Y E1 X E2. destruct gP0 as (P0 & G1 & E0 & G2). pose proof gb as GB. pose proof u_small as Us. assert (Ib : (0 <= q * rt * b)%R) by (replace (q * rt * b)%R with (rt * q * b)%R by ring; apply Rmult_le_pos; lra).
    apply Rabs_le_inv in Hif. assert (A1 : (Rabs (y - ifl) <= 101 / 100 * (g * P))%R) by (apply Rabs_le; lra).
    assert (U1 : (u * Rabs (y - ifl) <= 101 / 100 * E)%R) by (rewrite HE; replace (101 / 100 * (u * (g * P)))%R with (u * (101 / 100 * (g * P)))%R by field; apply Rmult_le_compat_l; lra).
    assert (E1' : (Rabs (r1 - (y - ifl)) <= 101 / 100 * E)%R) by lra. apply Rabs_le_inv in E1'. 
    assert (A2 : (Rabs (r1 + x) <= 31 / 10 * (g * P))%R) by (apply Rabs_le; lra).
    assert (U2 : (u * Rabs (r1 + x) <= 31 / 10 * E)%R) by (rewrite HE; replace (31 / 10 * (u * (g * P)))%R with (u * (31 / 10 * (g * P)))%R by field; apply Rmult_le_compat_l; lra).
    assert (E2' : (Rabs (r2 - (r1 + x)) <= 31 / 10 * E)%R) by lra. apply Rabs_le_inv in E2'. apply Rabs_le. lra.
  Qed.
End Period.

Lemma interest_err c s e aq rate b P a : date_ok s -> date_ok e -> acc c s e = Ok aq -> (0 <= Q2R aq)%R -> f_compute_accrual_length (Day s) (Day e) c = Ok a ->
  amount rate -> amount b -> (B2R b <= P)%R -> (bpow radix2 (-900) <= P)%R ->
  let i := fmul (fmul a rate) b in val i (B2R i) /\ (Rabs (B2R i - Q2R aq * B2R rate * B2R b) <= 8 * (u * ((1 + B2R rate * Q2R aq) * P)))%R /\ (0 <= B2R i <= bpow radix2 660)%R.
Proof.
  intros Os Oe A Q0 F Ar Ab Lb LP. cbv zeta. destruct (acc_near _ _ _ _ Os Oe A) as (a' & v & F' & V & (d & Dd & Ev) & Sz). assert (a' = a) by congruence. subst a'.
  pose proof (amount_val _ Ar) as Vr. pose proof (amount_val _ Ab) as Vb. destruct Ar as [_ Br], Ab as [_ Bb]. set (rt := B2R rate) in *. set (bb := B2R b) in *. set (Q := Q2R aq) in *.
  pose proof u_tiny as Us. assert (Q50 : (Q <= bpow radix2 50)%R). { destruct Sz as [-> | [_ S1]]; [apply bpow_ge_0|]. rewrite Rabs_pos_eq in S1 by exact Q0. exact S1. }
  apply Rabs_le_inv in Dd. assert (Bv : (0 <= v <= bpow radix2 51)%R).
  { rewrite Ev. pose proof (pow_double 50 51 ltac:(lia)). split; [apply Rmult_le_pos; lra|]. assert (Q * (1 + d) <= Q * 2)%R by (apply Rmult_le_compat_l; lra). lra. }
  pose proof (mul_pow _ _ _ _ Bv Br) as B1. pose proof (fmul_val _ _ _ _ V Vr (big_of _ (51 + 300) ltac:(lia) B1)) as V1. pose proof (rn_pos _ (51 + 300) ltac:(lia) B1) as B2.
  pose proof (mul_pow _ _ _ _ B2 Bb) as B3. pose proof (fmul_val _ _ _ _ V1 Vb (big_of _ (51 + 300 + 300) ltac:(lia) B3)) as V2. pose proof (rn_pos _ (51 + 300 + 300) ltac:(lia) B3) as B4.
  destruct V2 as [F2 V2]. rewrite V2. split; [split; [exact F2|exact V2]|]. pose proof (bpow_le radix2 (51 + 300 + 300) 660 ltac:(lia)) as Pw. split; [|split; [apply B4|apply Rle_trans with (1 := proj2 B4); exact Pw]].
  pose proof (rn_abs (v * rt)) as E1. pose proof (rn_abs (rn (v * rt) * bb)) as E2. rewrite (Rabs_pos_eq (v * rt)) in E1 by lra. rewrite (Rabs_pos_eq (rn (v * rt) * bb)) in E2 by lra.
  set (w := rn (v * rt)) in *. set (z := rn (w * bb)) in *. clearbody w z.
  assert (S1 : (2 * small <= u * P / 1000)%R).
  { assert (bpow radix2 (-53) * bpow radix2 (-900) <= u * P)%R by (apply Rmult_le_compat_l; [apply bpow_ge_0|exact LP]). rewrite <- bpow_plus in H.
    assert (2000 * small <= bpow radix2 (-53 + -900))%R; [|lra]. apply Rle_trans with (bpow radix2 11 * small)%R; [apply Rmult_le_compat_r; [unfold small; apply bpow_ge_0|change (bpow radix2 11) with 2048%R; lra]|].
    unfold small. rewrite <- bpow_plus. apply bpow_le. lia. }
  assert (S2 : (2 * small <= u / 1000)%R).
  { assert (2000 * small <= u)%R; [|lra]. apply Rle_trans with (bpow radix2 11 * small)%R; [apply Rmult_le_compat_r; [unfold small; apply bpow_ge_0|change (bpow radix2 11) with 2048%R; lra]|].
    unfold small, u. rewrite <- bpow_plus. apply bpow_le. lia. }
  assert (S0 : (0 <= small)%R) by (unfold small; apply bpow_ge_0).
  assert (Qr : (0 <= Q * rt)%R) by (apply Rmult_le_pos; lra). set (T := (Q * rt)%R) in *.
  assert (Vr1 : (Rabs (v * rt - T) <= 4 * u * T)%R).
  { rewrite Ev. unfold T. replace (Q * (1 + d) * rt - Q * rt)%R with (d * (Q * rt))%R by ring. rewrite Rabs_mult, (Rabs_pos_eq (Q * rt)) by exact Qr. apply Rmult_le_compat_r; [exact Qr|]. apply Rabs_le; lra. }
  apply Rabs_le_inv in Vr1, E1, E2. set (vr := (v * rt)%R) in *. clearbody vr.
  assert (uT : (u * T <= T / 1000)%R) by (assert (u * T <= 1 / 1000 * T)%R by (apply Rmult_le_compat_r; lra); lra). assert (uT0 : (0 <= u * T)%R) by (apply Rmult_le_pos; lra).
  assert (uvr : (u * vr <= 101 / 100 * (u * T))%R) by (assert (u * vr <= u * (101 / 100 * T))%R by (apply Rmult_le_compat_l; lra); lra).
  assert (Ew : (Rabs (w - T) <= 6 * (u * T) + u / 1000)%R) by (apply Rabs_le; lra). apply Rabs_le_inv in Ew.
  assert (uu : (u * (u / 1000) <= u / 1000000)%R) by (assert (u * (u / 1000) <= u * (1 / 1000000))%R by (apply Rmult_le_compat_l; lra); lra).
  assert (uw : (u * w <= 101 / 100 * (u * T) + u / 1000)%R) by (assert (u * w <= u * (101 / 100 * T + u / 1000))%R by (apply Rmult_le_compat_l; lra); lra).
  assert (Eb : (Rabs (w * bb - T * bb) <= (6 * (u * T) + u / 1000) * bb)%R) by (replace (w * bb - T * bb)%R with ((w - T) * bb)%R by ring; rewrite Rabs_mult, (Rabs_pos_eq bb) by lra; apply Rmult_le_compat_r; [lra|apply Rabs_le; lra]).
  apply Rabs_le_inv in Eb. assert (uwb : (u * (w * bb) <= (101 / 100 * (u * T) + u / 1000) * bb)%R) by (rewrite <- Rmult_assoc; apply Rmult_le_compat_r; lra).
  assert (uTb : (u * T * bb <= u * T * P)%R) by (apply Rmult_le_compat_l; lra). assert (ub : (u * bb <= u * P)%R) by (apply Rmult_le_compat_l; lra).
  replace (8 * (u * ((1 + rt * Q) * P)))%R with (8 * (u * P) + 8 * (u * T * P))%R by (unfold T; ring). assert (0 <= u * bb)%R by (apply Rmult_le_pos; lra). assert (0 <= u * T * bb)%R by (apply Rmult_le_pos; lra).
  replace ((6 * (u * T) + u / 1000) * bb)%R with (6 * (u * T * bb) + u * bb / 1000)%R in Eb by field. replace ((101 / 100 * (u * T) + u / 1000) * bb)%R with (101 / 100 * (u * T * bb) + u * bb / 1000)%R in uwb by field.
  apply Rabs_le. lra.
Qed.

Lemma grown_ge1 l ds : (0 <= l_rate l)%R -> (forall j, (0 <= years l (nth j ds 0%Z) (nth (S j) ds 0%Z))%R) -> forall k, (1 <= grown l ds k)%R.
Proof.
  intros R0 Y. induction k as [|k IH]; cbn [grown]; [lra|]. apply Rle_trans with (1 * 1)%R; [lra|]. apply Rmult_le_compat; [lra|lra|exact IH|].
  apply Rle_trans with (1 + 0)%R; [lra|]. apply Rplus_le_compat_l, Rmult_le_pos; [exact R0|apply Y].
Qed.

Definition pos0 (z : R) : R := Rmax 0 z.
Lemma pos0_lip z w e : (Rabs (z - w) <= e)%R -> (Rabs (pos0 z - pos0 w) <= e)%R.
Proof. intros H. unfold pos0. apply Rabs_le_inv in H. apply Rabs_le. unfold Rmax. destruct (Rle_dec 0 z), (Rle_dec 0 w); lra. Qed.

Definition both (l : f_loan) (pay : f64) (x : f_extra) (d0 : date) (ps : list f_loan_payment) (qs : list loan_payment) : Prop :=
  f_generate_payment_schedule l pay x = Ok ps /\ generate_payment_schedule (exact_loan l) (B2R pay) (exact_extra x) = Ok qs /\ schedule_start (fl_terms l) = Ok d0.

Lemma same_date l pay x d0 ps qs : both l pay x d0 ps qs -> List.map lp_date qs = List.map flp_date ps.
Proof. intros (G & H & _). destruct (proj2 (C111_same_dates l pay x) ps G) as (qs' & H' & M). congruence. Qed.
Lemma nth_dates d0 ps k p : nth_error ps k = Some p -> nth (S k) (d0 :: List.map flp_date ps) 0%Z = flp_date p.
Proof. intros N. cbn [nth]. apply nth_error_nth. rewrite nth_error_map, N. reflexivity. Qed.

(** the period before payment k on both sides *)
Lemma period_facts l pay x d0 ps qs k p q : both l pay x d0 ps qs -> plain_terms l pay x -> nth_error ps k = Some p -> nth_error qs k = Some q ->
  let ds := d0 :: List.map flp_date ps in let d := nth k ds 0%Z in let e := nth (S k) ds 0%Z in
  date_ok d /\ date_ok e /\ e = flp_date p /\ (forall d', f_accrues_from l ps k d' -> d' = d) /\
  exists aq, acc (l_dcc (fl_terms l)) d e = Ok aq /\ years (exact_loan l) d e = Q2R aq /\ (0 <= Q2R aq)%R /\ lp_interest q = (Q2R aq * B2R (fl_rate l) * outstanding (exact_loan l) qs k)%R.
Proof.
  intros B T N Nq. cbv zeta. pose proof (same_date _ _ _ _ _ _ B) as Md. destruct B as (G & H & St). destruct (schedule_inv _ _ _ _ H) as [h].
  destruct (step_bounds _ _ (sc_step _ _ _ _ h)) as [M _]. pose proof (schedule_start_real _ _ (proj1 T) (sc_start _ _ _ _ h)) as Rs.
  pose proof (sc_grid _ _ _ _ h) as W. pose proof (while_le_spec _ _ _ _ _ M W) as (_ & _ & ST & _).
  destruct (sched_entry _ _ _ _ h k q Nq) as (d' & aq & N1 & N2 & _ & A & I & _).
  assert (Eq : lp_date q = flp_date p). { assert (E := f_equal (fun z => nth_error z k) Md). cbn beta in E. rewrite !nth_error_map, N, Nq in E. cbn in E. congruence. }
  rewrite (nth_dates d0 ps k p N). set (ds := d0 :: List.map flp_date ps).
  assert (Acc : forall z, f_accrues_from l ps k z -> z = nth k ds 0%Z).
  { intros z. destruct k as [|k]; cbn [f_accrues_from]; [intros Hz; rewrite St in Hz; injection Hz as <-; reflexivity|]. intros (q' & Hq & <-). symmetry. apply nth_dates. exact Hq. }
  assert (Dd : d' = nth k ds 0%Z).
  { pose proof (accrues _ _ _ _ h k d' q Nq N1) as Ac. destruct k as [|k]; cbn [accrues_from] in Ac.
    - change (schedule_start (exact_loan l)) with (schedule_start (fl_terms l)) in Ac. rewrite St in Ac. injection Ac as <-. reflexivity.
    - destruct Ac as (q' & Hq & <-). destruct (nth_error ps k) as [p'|] eqn:Ep; [|apply nth_error_None in Ep; assert (nth_error ps (S k) = None) by (apply nth_error_None; lia); congruence].
      unfold ds. rewrite (nth_dates d0 ps k p' Ep). assert (E := f_equal (fun z => nth_error z k) Md). cbn beta in E. rewrite !nth_error_map, Ep, Hq in E. cbn in E. congruence. }
  rewrite <- Dd. rewrite <- Eq. pose proof (grid_real _ _ _ _ M Rs W _ _ N1) as R1. pose proof (grid_real _ _ _ _ M Rs W _ _ N2) as R2.
  split; [apply R1|]. split; [apply R2|]. split; [reflexivity|]. split; [intros z Hz; rewrite Dd; apply Acc; exact Hz|]. exists aq. split; [exact A|]. split; [unfold years; rewrite A; reflexivity|].
  split; [eapply step_accrual; [exact M|exact R1|exact (ST _ _ _ N1 N2)|exact A]|exact I].
Qed.

Record step (l : f_loan) (pay : f64) (x : f_extra) (d0 : date) (ps : list f_loan_payment) (qs : list loan_payment) (k : nat) (p : f_loan_payment) (q : loan_payment) (g E : R) : Prop := Step {
  st_g : (g = 1 + B2R (fl_rate l) * years (exact_loan l) (nth k (d0 :: List.map flp_date ps) 0%Z) (nth (S k) (d0 :: List.map flp_date ps) 0%Z))%R;
  st_g1 : (1 <= g)%R;
  st_E : (E = u * (g * B2R (fl_principal l)))%R;
  st_b : (0 <= B2R (f_balance (fl_principal l) ps k) <= B2R (fl_principal l))%R;
  st_o : (0 <= outstanding (exact_loan l) qs k)%R;
  st_i : (Rabs (B2R (flp_interest p) - (g - 1) * B2R (f_balance (fl_principal l) ps k)) <= 8 * E)%R;
  st_q : lp_interest q = ((g - 1) * outstanding (exact_loan l) qs k)%R;
  st_exact : outstanding (exact_loan l) qs (S k) = pos0 (g * outstanding (exact_loan l) qs k - (B2R pay + B2R (f_extra_at x k)));
  st_part : lp_principal q = (outstanding (exact_loan l) qs k - outstanding (exact_loan l) qs (S k))%R;
  st_float : (0 <= B2R (flp_principal p))%R -> (Rabs (B2R (f_balance (fl_principal l) ps (S k)) - pos0 (g * B2R (f_balance (fl_principal l) ps k) - (B2R pay + B2R (f_extra_at x k)))) <= 15 * E)%R;
  st_sub : (0 <= B2R (flp_principal p))%R -> (Rabs (B2R (f_balance (fl_principal l) ps (S k)) - (B2R (f_balance (fl_principal l) ps k) - B2R (flp_principal p))) <= E)%R;
  st_first : (0 <= B2R pay - B2R (flp_interest p))%R -> (0 <= B2R (flp_principal p))%R }.

Lemma balance_le l pay x ps : f_generate_payment_schedule l pay x = Ok ps -> plain_terms l pay x -> forall k, (k <= List.length ps)%nat -> covers ps k ->
  (B2R (f_balance (fl_principal l) ps k) <= B2R (fl_principal l))%R.
Proof.
  intros G T. induction k as [|k IH]; intros K Cv; [rewrite balance_0; lra|]. destruct (nth_error ps k) as [p|] eqn:N; [|apply nth_error_None in N; lia].
  destruct (C107_balance _ _ _ _ G T k p N Cv) as (_ & _ & L & _). assert (L' := IH ltac:(lia) (fun j q J => Cv j q ltac:(lia))). lra.
Qed.

Lemma steps l pay x d0 ps qs k p q : both l pay x d0 ps qs -> plain_terms l pay x -> (bpow radix2 (-900) <= B2R (fl_principal l))%R -> nth_error ps k = Some p -> nth_error qs k = Some q -> covers ps k ->
  exists g E, step l pay x d0 ps qs k p q g E.
Proof.
  intros B T Pl N Nq Cv. destruct (period_facts _ _ _ _ _ _ _ _ _ B T N Nq) as (Od & Oe & Ee & Ac & aq & A & Y & Q0 & Iq). destruct B as (G & H & St).
  assert (K : (k < List.length ps)%nat) by (apply nth_error_Some; congruence). assert (Kq : (k < List.length qs)%nat) by (apply nth_error_Some; congruence).
  destruct (f_schedule_rows _ _ _ _ G T k ltac:(lia) Cv) as [Ab Rw]. destruct (Rw p N) as (d & Ad & Row & Sb). clear Rw. apply Ac in Ad. subst d.
  pose proof (balance_le _ _ _ _ G T k ltac:(lia) Cv) as Bl. pose proof T as (_ & Ap & Ar & Ay & Ax). pose proof (Ax k) as Axk.
  destruct Row as [(a & Fa & Ei) (F1 & F2 & F3) I0 Z0 Sp]. rewrite Ee in Fa || rewrite <- Ee in Fa.
  set (ds := d0 :: List.map flp_date ps) in *. set (b := f_balance (fl_principal l) ps k) in *. set (P := B2R (fl_principal l)) in *.
  rewrite Ee in A, Oe. destruct (interest_err _ _ _ _ _ _ P _ Od Oe A Q0 ltac:(rewrite ?Ee in Fa; exact Fa) Ar Ab Bl Pl) as (Vi & Er & Bi).
  rewrite <- Ei in Vi, Er, Bi. set (rt := B2R (fl_rate l)) in *. set (yq := Q2R aq) in *.
  pose proof (amount_val _ Ab) as Vb. pose proof (amount_val _ Ay) as Vy. pose proof (amount_val _ Axk) as Vx. destruct Ab as [_ Bb], Ar as [_ Br], Ay as [_ By], Axk as [_ Bx].
  set (i := B2R (flp_interest p)) in *. set (y := B2R pay) in *. set (e := B2R (f_extra_at x k)) in *. set (bb := B2R b) in *.
  fold rt in Br. assert (Rq : (0 <= rt * yq)%R) by (apply Rmult_le_pos; lra).
  assert (HP : (0 <= bb <= P)%R) by lra.
  destruct (gP0 bb yq rt (1 + rt * yq) P (u * ((1 + rt * yq) * P)) HP eq_refl Rq eq_refl) as (P0 & G1 & E0 & G2).
  pose proof (gb bb yq rt (1 + rt * yq) P HP eq_refl Rq) as GB. pose proof u_small as Us.
  assert (Ex : generate_payment_schedule (exact_loan l) y (exact_extra x) = Ok qs) by exact H.
  assert (Xp : forall k, (0 <= extra_at (exact_extra x) k)%R) by (intros j; rewrite extra_same; apply Ax).
  destruct (C41_balance _ _ _ _ Ex (proj1 T) (proj1 (proj2 Ap)) (proj1 Br) (proj1 By) Xp) as [On Rws]. destruct (Rws k q Nq) as (Iq0 & Zq & Lq & Gq & _ & _). rewrite extra_same in Lq, Gq. fold e in Lq, Gq.
  destruct (C41_principal_conserved _ _ _ _ Ex k q Nq) as (_ & Os & On'). pose proof (On k ltac:(lia)) as O0.
  set (o := outstanding (exact_loan l) qs k) in *. set (o' := outstanding (exact_loan l) qs (S k)) in *. fold rt in Iq.
  (* the offer *)
  assert (P1 : (bpow radix2 300 <= bpow radix2 660)%R) by (apply bpow_le; lia). assert (P2 : (2 * bpow radix2 660 <= bpow radix2 670)%R) by (apply pow_double; lia).
  assert (P3 : (2 * bpow radix2 670 <= bpow radix2 680)%R) by (apply pow_double; lia). assert (P4 : (bpow radix2 680 <= big)%R) by (apply bpow_le; lia). pose proof (bpow_ge_0 radix2 660) as P5.
  assert (D1 : (Rabs (y - i) <= bpow radix2 670)%R) by (apply Rabs_le; lra). pose proof (fsub_val _ _ _ _ Vy Vi ltac:(fold y i; lra)) as V1. fold y i in V1.
  pose proof (rn_bound _ 670 ltac:(lia) D1) as D2. apply Rabs_le_inv in D2. assert (D3 : (Rabs (rn (y - i) + e) <= bpow radix2 680)%R) by (apply Rabs_le; lra).
  pose proof (rn_minus_err _ _ _ _ Vy Vi) as E1. fold y i in E1. pose proof (rn_plus_err _ _ _ _ V1 Vx) as E2. fold e in E2.
  exists (1 + rt * yq)%R, (u * ((1 + rt * yq) * P))%R. constructor; fold ds b P bb i y e o o'.
  - rewrite Y. reflexivity.
  - lra.
  - reflexivity.
  - exact HP.
  - exact O0.
  - replace ((1 + rt * yq - 1) * bb)%R with (yq * rt * bb)%R by ring. exact Er.
  - rewrite Iq. ring.
  - unfold pos0. assert (Io : (lp_interest q = rt * yq * o)%R) by (rewrite Iq; ring). destruct (Req_dec o 0) as [Zo|No].
    + destruct (Zq Zo) as (_ & Zp & _). rewrite Os, Zo, Zp. rewrite Rmax_left; [ring|]. lra.
    + destruct (Rle_or_lt (o + lp_interest q) (y + e)) as [L|L].
      * destruct (Gq L) as [_ Pq]. rewrite Os, Pq. rewrite Rmax_left; [ring|lra].
      * destruct (Lq (conj L No)) as [_ Pq]. rewrite Os, Pq. rewrite Rmax_right; [lra|lra].
  - lra.
  - intros Np. specialize (Sb Np). destruct Sp as [(B0 & _ & _ & Lt & Pv)|(_ & Pp & _ & Cs)].
    + assert (W1 : (rn (y - i) + e < bb)%R). { rewrite Pv in Lt. destruct (Rlt_or_le (rn (y - i) + e) bb) as [L|L]; [exact L|]. apply rn_le in L. unfold bb in L at 1. rewrite rn_B2R in L. fold bb in L. fold bb in Lt. lra. }
      assert (W2 : (y - i < bb)%R). { destruct (Rlt_or_le (y - i) bb) as [L|L]; [exact L|]. apply rn_le in L. unfold bb in L at 1. rewrite rn_B2R in L. fold bb in L. lra. }
      assert (W0 : (- i <= rn (y - i))%R). { pose proof (rn_B2R (flp_interest p)) as Ri. fold i in Ri. pose proof (rn_opp i) as Ro. apply Rle_trans with (rn (- i)); [lra|apply rn_le; lra]. }
      assert (Xe : (e <= 2 * ((1 + rt * yq) * P))%R). { pose proof (Rabs_le_inv _ _ Er). assert (0 <= yq * rt * bb)%R by (replace (yq * rt * bb)%R with (rt * yq * bb)%R by ring; apply Rmult_le_pos; lra). lra. }
      pose proof (offered_err bb y e yq rt i (1 + rt * yq) P _ HP (proj1 Bx) (proj1 By) eq_refl Rq eq_refl Er (rn (y - i)) (rn (rn (y - i) + e)) ltac:(lra) E1 Xe E2) as Of.
      rewrite <- Pv in Of. pose proof (rn_minus_err _ _ _ _ Vb (conj F2 eq_refl)) as E3. fold bb in E3, Lt. rewrite <- Sb in E3. rewrite (Rabs_pos_eq (bb - _)) in E3 by lra.
      assert (E4 : (u * (bb - B2R (flp_principal p)) <= u * ((1 + rt * yq) * P))%R) by (apply Rmult_le_compat_l; lra).
      assert (Bp : (0 <= B2R (f_balance (fl_principal l) ps (S k)))%R). { rewrite Sb. rewrite <- rn_0. apply rn_le. lra. }
      assert (Z1 : forall z, (0 <= z)%R -> z = pos0 z) by (intros z Hz; unfold pos0; rewrite Rmax_right; [reflexivity|exact Hz]).
      rewrite (Z1 _ Bp). apply pos0_lip. apply Rabs_le_inv in E3, Of. apply Rabs_le. lra.
    + rewrite Sb, Pp. fold bb. replace (bb - bb)%R with 0%R by ring. rewrite rn_0, Rminus_0_l, Rabs_Ropp. unfold pos0. destruct (Rle_or_lt ((1 + rt * yq) * bb - (y + e)) 0) as [L|L]; [rewrite Rmax_left by exact L; rewrite Rabs_R0; lra|].
      rewrite Rmax_right by lra. rewrite Rabs_pos_eq by lra. fold bb i y in Cs. destruct Cs as [Zb|Cs].
      * rewrite Zb in L. lra.
      * pose proof (Rabs_le_inv _ _ Er) as Er'. assert (Ib : (0 <= yq * rt * bb)%R) by (replace (yq * rt * bb)%R with (rt * yq * bb)%R by ring; apply Rmult_le_pos; lra).
        assert (Xe : (e <= 2 * ((1 + rt * yq) * P))%R) by lra.
        pose proof (offered_err bb y e yq rt i (1 + rt * yq) P _ HP (proj1 Bx) (proj1 By) eq_refl Rq eq_refl Er (rn (y - i)) (rn (rn (y - i) + e)) ltac:(lra) E1 Xe E2) as Of.
        apply Rabs_le_inv in Of. lra.
  - intros Np. specialize (Sb Np). pose proof (rn_minus_err _ _ _ _ Vb (conj F2 eq_refl)) as E3. fold bb in E3. rewrite <- Sb in E3.
    assert (L : (B2R (flp_principal p) <= bb)%R) by (destruct Sp as [(_ & _ & _ & L & _)|(_ & -> & _)]; [fold bb in L; lra|fold bb; lra]).
    rewrite (Rabs_pos_eq (bb - _)) in E3 by lra. assert (u * (bb - B2R (flp_principal p)) <= u * ((1 + rt * yq) * P))%R by (apply Rmult_le_compat_l; lra). lra.
  - intros Yi. destruct Sp as [(_ & _ & _ & _ & Pv)|(_ & -> & _)]; [|fold bb; lra]. rewrite Pv. fold y i e. rewrite <- rn_0. apply rn_le.
    assert (0 <= rn (y - i))%R by (rewrite <- rn_0; apply rn_le; exact Yi). lra.
Qed.

Lemma u_inv : (/ 2 ^ 53 = u)%R.
Proof. rewrite <- (Rmult_1_r u). change 1%R with (2 ^ 0)%R at 1. rewrite u_pow by lia. reflexivity. Qed.

Lemma track l pay x d0 ps qs : both l pay x d0 ps qs -> plain_terms l pay x -> (bpow radix2 (-900) <= B2R (fl_principal l))%R ->
  forall k, (k <= List.length ps)%nat -> covers ps k -> let G := grown (exact_loan l) (d0 :: List.map flp_date ps) k in
  (1 <= G)%R /\ (Rabs (B2R (f_balance (fl_principal l) ps k) - outstanding (exact_loan l) qs k) <= 16 * INR k * (u * (G * B2R (fl_principal l))))%R.
Proof.
  intros B T Pl. cbv zeta. assert (Ln : List.length qs = List.length ps) by (pose proof (same_date _ _ _ _ _ _ B) as M; apply (f_equal (@List.length date)) in M; rewrite !map_length in M; exact M).
  induction k as [|k IH]; intros K Cv.
  - cbn [grown INR]. rewrite balance_0. unfold outstanding. cbn [firstn List.map]. rewrite rsum_nil. cbn [l_principal exact_loan]. rewrite Rminus_0_r, Rminus_diag_eq, Rabs_R0 by reflexivity. split; lra.
  - destruct (nth_error ps k) as [p|] eqn:N; [|apply nth_error_None in N; lia]. destruct (nth_error qs k) as [q|] eqn:Nq; [|apply nth_error_None in Nq; lia].
    assert (Ck : covers ps k) by (intros j q' J; apply (Cv j q' ltac:(lia))). destruct (IH ltac:(lia) Ck) as [G1 Er].
    destruct (steps _ _ _ _ _ _ k p q B T Pl N Nq Ck) as (g & E & [Sg Sg1 SE Sb So Si Sq Sx Spt Sf Ss Sz]). specialize (Sf (Cv k p ltac:(lia) N)).
    cbn [grown]. change (l_rate (exact_loan l)) with (B2R (fl_rate l)). rewrite <- Sg. set (G := grown _ _ k) in *. set (P := B2R (fl_principal l)) in *. pose proof u_small as Us.
    assert (P0 : (0 <= P)%R) by (pose proof (bpow_ge_0 radix2 (-900)); lra). split.
    + apply Rle_trans with (1 * 1)%R; [lra|]. apply Rmult_le_compat; lra.
    + rewrite Sx. set (b := B2R (f_balance _ ps k)) in *. set (b' := B2R (f_balance _ ps (S k))) in *. set (o := outstanding _ qs k) in *. set (w := (B2R pay + B2R (f_extra_at x k))%R) in *.
      assert (L : (Rabs (pos0 (g * b - w) - pos0 (g * o - w)) <= g * Rabs (b - o))%R).
      { apply pos0_lip. replace (g * b - w - (g * o - w))%R with (g * (b - o))%R by ring. rewrite Rabs_mult, (Rabs_pos_eq g) by lra. lra. }
      assert (L2 : (g * Rabs (b - o) <= g * (16 * INR k * (u * (G * P))))%R) by (apply Rmult_le_compat_l; lra).
      assert (E15 : (15 * E <= 16 * (u * (G * g * P)))%R).
      { assert (0 <= u * (g * P))%R by (apply Rmult_le_pos; [lra|apply Rmult_le_pos; lra]). assert (1 * (u * (g * P)) <= G * (u * (g * P)))%R by (apply Rmult_le_compat_r; lra). rewrite SE. replace (u * (G * g * P))%R with (G * (u * (g * P)))%R by ring. lra. }
      rewrite S_INR. replace (16 * (INR k + 1) * (u * (G * g * P)))%R with (g * (16 * INR k * (u * (G * P))) + 16 * (u * (G * g * P)))%R by ring.
      replace (b' - pos0 (g * o - w))%R with ((b' - pos0 (g * b - w)) + (pos0 (g * b - w) - pos0 (g * o - w)))%R by ring. apply Rle_trans with (1 := Rabs_triang _ _). lra.
Qed.

(** C111: while payments cover the interest, the balance of the double-precision schedule follows the balance of the exact
    one: k periods move it by no more than 16 k roundings of what the principal would have grown to - also when one of
    the two pays the loan off a period before the other. *)
Theorem C111_balance : forall l pay x d0 ps qs, f_generate_payment_schedule l pay x = Ok ps -> generate_payment_schedule (exact_loan l) (B2R pay) (exact_extra x) = Ok qs -> schedule_start (fl_terms l) = Ok d0 ->
  plain_terms l pay x -> (bpow radix2 (-900) <= B2R (fl_principal l))%R -> forall k, (k <= List.length ps)%nat -> covers ps k ->
  (Rabs (B2R (f_balance (fl_principal l) ps k) - outstanding (exact_loan l) qs k) <= 16 * INR k * / 2 ^ 53 * (grown (exact_loan l) (d0 :: List.map flp_date ps) k * B2R (fl_principal l)))%R.
Proof.
  intros l pay x d0 ps qs G H St T Pl k K Cv. rewrite u_inv. rewrite (Rmult_assoc (16 * INR k)). apply (track l pay x d0 ps qs (conj G (conj H St)) T Pl k K Cv).
Qed.
Print Assumptions C111_balance.

(** so do the interest and the principal part of every payment, and, when there is no extra payment, the payment *)
Theorem C111_parts : forall l pay x d0 ps qs, f_generate_payment_schedule l pay x = Ok ps -> generate_payment_schedule (exact_loan l) (B2R pay) (exact_extra x) = Ok qs -> schedule_start (fl_terms l) = Ok d0 ->
  plain_terms l pay x -> (bpow radix2 (-900) <= B2R (fl_principal l))%R -> forall k p q, nth_error ps k = Some p -> nth_error qs k = Some q -> covers ps (S k) ->
  let e := (INR (S k) * / 2 ^ 53 * (grown (exact_loan l) (d0 :: List.map flp_date ps) (S k) * B2R (fl_principal l)))%R in
  lp_date q = flp_date p /\ (Rabs (B2R (flp_interest p) - lp_interest q) <= 16 * e)%R /\ (Rabs (B2R (flp_principal p) - lp_principal q) <= 32 * e)%R /\
  (B2R (f_extra_at x k) = 0 -> Rabs (B2R (flp_payment p) - lp_payment q) <= 64 * e)%R.
Proof.
  intros l pay x d0 ps qs G H St T Pl k p q N Nq Cv. cbv zeta. rewrite u_inv. pose proof (conj G (conj H St)) as B.
  assert (K : (k < List.length ps)%nat) by (apply nth_error_Some; congruence). assert (Ck : covers ps k) by (intros j q' J; apply (Cv j q' ltac:(lia))).
  destruct (track l pay x d0 ps qs B T Pl k ltac:(lia) Ck) as [G1 Er]. destruct (track l pay x d0 ps qs B T Pl (S k) ltac:(lia) Cv) as [G1' Er'].
  destruct (steps _ _ _ _ _ _ k p q B T Pl N Nq Ck) as (g & E & [Sg Sg1 SE Sb So Si Sq Sx Spt Sf Ss Sz]). specialize (Ss (Cv k p ltac:(lia) N)).
  cbn [grown] in *. change (l_rate (exact_loan l)) with (B2R (fl_rate l)) in *. rewrite <- Sg in *. set (G0 := grown _ _ k) in *. set (P := B2R (fl_principal l)) in *. pose proof u_small as Us.
  assert (P0 : (0 <= P)%R) by (pose proof (bpow_ge_0 radix2 (-900)); lra). set (b := B2R (f_balance _ ps k)) in *. set (b' := B2R (f_balance _ ps (S k))) in *. set (o := outstanding _ qs k) in *. set (o' := outstanding _ qs (S k)) in *.
  assert (E0 : (0 <= E)%R) by (rewrite SE; apply Rmult_le_pos; [lra|apply Rmult_le_pos; lra]).
  assert (EG : (E <= u * (G0 * g * P))%R). { rewrite SE. replace (u * (G0 * g * P))%R with (G0 * (u * (g * P)))%R by ring. rewrite <- (Rmult_1_l (u * (g * P))) at 1. apply Rmult_le_compat_r; [rewrite SE in E0; exact E0|exact G1]. }
  set (V := (u * (G0 * g * P))%R) in *. replace (INR (S k) * u * (G0 * g * P))%R with (INR (S k) * V)%R by (unfold V; ring). rewrite S_INR in *.
  assert (Kn : (0 <= INR k)%R) by apply pos_INR. assert (V0 : (0 <= V)%R) by lra. assert (KV : (0 <= INR k * V)%R) by (apply Rmult_le_pos; lra).
  assert (gE : (g * Rabs (b - o) <= 16 * (INR k * V))%R).
  { apply Rle_trans with (g * (16 * INR k * (u * (G0 * P))))%R; [apply Rmult_le_compat_l; lra|]. unfold V. right. ring. }
  assert (bo : (Rabs (b - o) <= g * Rabs (b - o))%R) by (rewrite <- (Rmult_1_l (Rabs (b - o))) at 1; apply Rmult_le_compat_r; [apply Rabs_pos|exact Sg1]).
  assert (Ei : (Rabs (B2R (flp_interest p) - lp_interest q) <= 8 * V + 16 * (INR k * V))%R).
  { rewrite Sq. replace (B2R (flp_interest p) - (g - 1) * o)%R with ((B2R (flp_interest p) - (g - 1) * b) + (g - 1) * (b - o))%R by ring. apply Rle_trans with (1 := Rabs_triang _ _).
    rewrite (Rabs_mult (g - 1)), (Rabs_pos_eq (g - 1)) by lra. assert (0 <= Rabs (b - o))%R by apply Rabs_pos. lra. }
  assert (Ep : (Rabs (B2R (flp_principal p) - lp_principal q) <= 17 * V + 32 * (INR k * V))%R).
  { rewrite Spt. apply Rabs_le_inv in Ss, Er'. replace (16 * (INR k + 1) * V)%R with (16 * (INR k * V) + 16 * V)%R in Er' by ring. assert (Bo := Rabs_le_inv _ _ (Rle_trans _ _ _ bo gE)). apply Rabs_le. lra. }
  split. { pose proof (same_date _ _ _ _ _ _ B) as Md. assert (Q := f_equal (fun z => nth_error z k) Md). cbn beta in Q. rewrite !nth_error_map, N, Nq in Q. cbn in Q. congruence. }
  split; [lra|]. split; [lra|]. intros X0.
  destruct (C107_split _ _ _ _ G T k p N Cv) as [S1 S2]. fold b in S1, S2. rewrite u_inv in S2. assert (U2 : (/ 2 ^ 52 = 2 * u)%R) by (rewrite <- u_inv; lra). rewrite U2 in S1. rewrite X0 in S1.
  destruct (C107_balance _ _ _ _ G T k p N Cv) as (_ & _ & _ & Lp & _ & _ & _ & I0 & _ & Cs). fold b in Lp.
  destruct T as (Or & Ap & Ar & Ay & Ax).
  assert (Xp : forall k, (0 <= extra_at (exact_extra x) k)%R) by (intros j; rewrite extra_same; apply Ax).
  destruct (C41_balance _ _ _ _ H Or (proj1 (proj2 Ap)) (proj1 (proj2 Ar)) (proj1 (proj2 Ay)) Xp) as [_ Rws]. destruct (Rws k q Nq) as (Iq0 & Zq & Lq & Gq & _ & _). rewrite extra_same, X0 in Lq, Gq. fold o in Zq, Lq, Gq.
  assert (Py : lp_payment q = (lp_principal q + lp_interest q)%R).
  { destruct (Req_dec o 0) as [Zo|No]; [destruct (Zq Zo) as (-> & -> & ->); lra|]. destruct (Rle_or_lt (o + lp_interest q) (B2R pay + 0)) as [L|L]; [destruct (Gq L); lra|destruct (Lq (conj L No)); lra]. }
  set (i := B2R (flp_interest p)) in *. set (pr := B2R (flp_principal p)) in *. set (v := B2R (flp_payment p)) in *.
  assert (GP : (P <= g * P /\ 1000 * E <= g * P)%R).
  { split; [rewrite <- (Rmult_1_l P) at 1; apply Rmult_le_compat_r; lra|]. rewrite SE. assert (0 <= g * P)%R by (apply Rmult_le_pos; lra). assert (u * (g * P) <= 1 / 1000 * (g * P))%R by (apply Rmult_le_compat_r; lra). lra. }
  assert (Ib : (i <= g * P + 8 * E)%R). { apply Rabs_le_inv in Si. assert ((g - 1) * b <= (g - 1) * P)%R by (apply Rmult_le_compat_l; lra). lra. }
  assert (Sv : (Rabs (pr + i - v) <= 10 * E)%R).
  { destruct (Rtotal_order pr b) as [L|[L|L]]; [|specialize (S2 L)|lra].
    - specialize (S1 L). rewrite !Rplus_0_r in S1. assert (Vb : (v <= 4 * (g * P))%R). { assert (Q := Rabs_le_inv _ _ S1). assert (2 * u * (v + i) <= 1 / 1000 * (v + i))%R by (apply Rmult_le_compat_r; [assert (0 <= v)%R; [|lra]|lra]; destruct Cs as [(_ & _ & Ev & _)|(Ev & _ & _)]; [unfold v; rewrite Ev; apply Ay|]; destruct (Rle_or_lt 0 v) as [W|W]; [exact W|]; assert (2 * u * (v + i) <= 2 * u * i)%R by (apply Rmult_le_compat_l; lra); assert (2 * u * i <= 1 / 1000 * i)%R by (apply Rmult_le_compat_r; lra); lra). lra. }
      assert (2 * u * (v + i) <= 2 * u * (5 * (g * P)))%R. { apply Rmult_le_compat_l; [lra|]. 
        destruct (Rle_or_lt v (7 / 2 * (g * P))); [lra|]. exfalso. assert (Q := Rabs_le_inv _ _ S1). assert (2 * u * (v + i) <= 1 / 1000 * (v + i))%R by (apply Rmult_le_compat_r; [assert (0 <= v)%R by lra|]; lra). lra. }
      replace (2 * u * (5 * (g * P)))%R with (10 * E)%R in H0 by (rewrite SE; ring). lra.
    - assert (u * (pr + i) <= u * (10 * (g * P)))%R by (apply Rmult_le_compat_l; lra). replace (u * (10 * (g * P)))%R with (10 * E)%R in H0 by (rewrite SE; ring). lra. }
  rewrite Py. apply Rabs_le_inv in Sv, Ei, Ep. apply Rabs_le. lra.
Qed.
Print Assumptions C111_parts.

(** the hypothesis is met by any payment that covers the interest on the whole principal in every period with 16 roundings to spare *)
Theorem C111_covers : forall l pay x d0 ps, f_generate_payment_schedule l pay x = Ok ps -> schedule_start (fl_terms l) = Ok d0 -> plain_terms l pay x -> (bpow radix2 (-900) <= B2R (fl_principal l))%R ->
  (forall j, (j < List.length ps)%nat -> let r := (B2R (fl_rate l) * years (exact_loan l) (nth j (d0 :: List.map flp_date ps) 0%Z) (nth (S j) (d0 :: List.map flp_date ps) 0%Z))%R in
    r * B2R (fl_principal l) + 16 * / 2 ^ 53 * ((1 + r) * B2R (fl_principal l)) <= B2R pay)%R ->
  covers ps (List.length ps).
Proof.
  intros l pay x d0 ps G St T Pl Hc. destruct (proj2 (C111_same_dates l pay x) ps G) as (qs & H & Md). pose proof (conj G (conj H St)) as B.
  assert (Ln : List.length qs = List.length ps) by (apply (f_equal (@List.length date)) in Md; rewrite !map_length in Md; exact Md).
  enough (E : forall k, (k <= List.length ps)%nat -> covers ps k) by (apply E; lia). induction k as [|k IH]; intros K; [intros j p J; lia|].
  assert (Ck := IH ltac:(lia)). intros j p J N. destruct (Nat.eq_dec j k) as [-> | Nj]; [|apply (Ck j p ltac:(lia) N)].
  destruct (nth_error qs k) as [q|] eqn:Nq; [|apply nth_error_None in Nq; lia].
  destruct (steps _ _ _ _ _ _ k p q B T Pl N Nq Ck) as (g & E & [Sg Sg1 SE Sb So Si Sq Sx Spt Sf Ss Sz]). apply Sz. specialize (Hc k ltac:(lia)). cbv zeta in Hc. rewrite u_inv in Hc.
  rewrite <- Sg in Hc. apply Rabs_le_inv in Si. set (P := B2R (fl_principal l)) in *. assert ((g - 1) * B2R (f_balance (fl_principal l) ps k) <= (g - 1) * P)%R by (apply Rmult_le_compat_l; lra).
  set (r := (B2R (fl_rate l) * _)%R) in *. assert (g - 1 = r)%R by lra. assert (E0 : (0 <= E)%R). { rewrite SE. pose proof u_small. pose proof (bpow_ge_0 radix2 (-900)). apply Rmult_le_pos; [lra|apply Rmult_le_pos; lra]. }
  replace (16 * u * (g * P))%R with (16 * E)%R in Hc by (rewrite SE; ring). replace (r * P)%R with ((g - 1) * P)%R in Hc by (f_equal; exact H1). lra.
Qed.
Print Assumptions C111_covers.

(** the hypotheses hold of the loan of C107_case: $1000 at 10% over three monthly payments of $400 *)
Example C111_case : exists qs d0, f_generate_payment_schedule f_loan_2023 (of_int 400) FNoExtra = Ok f_rows /\
  generate_payment_schedule (exact_loan f_loan_2023) (B2R (of_int 400)) (exact_extra FNoExtra) = Ok qs /\ schedule_start (fl_terms f_loan_2023) = Ok d0 /\
  plain_terms f_loan_2023 (of_int 400) FNoExtra /\ (bpow radix2 (-900) <= B2R (fl_principal f_loan_2023))%R /\ covers f_rows (List.length f_rows) /\ List.length f_rows = 3%nat /\
  (0 < B2R (f_balance (fl_principal f_loan_2023) f_rows 2))%R.
Proof.
  destruct (proj2 (C111_same_dates f_loan_2023 (of_int 400) FNoExtra) f_rows f_rows_ok) as (qs & H & _). exists qs, 738552.
  split; [exact f_rows_ok|]. split; [exact H|]. split; [vm_compute; reflexivity|]. split; [exact f_terms_plain|]. split; [|split; [apply f_rows_cover|split; [exact f_rows_length|]]].
  - destruct (of_int_val 1000 ltac:(lia)) as [_ V]. cbn [f_loan_2023 fl_principal]. rewrite V. apply Rle_trans with (bpow radix2 0); [apply bpow_le; lia|]. change (bpow radix2 0) with 1%R. apply IZR_le. lia.
  - destruct C107_case as (_ & _ & _ & _ & _ & C). exact C.
Qed.

(** With an extra payment the recorded payments can be far apart, although nothing else is: a payoff records the extra payment
    as part of the payment, an ordinary payment does not, and rounding decides which of the two it is.  Here the principal is
    1 + 2^-52, the payment 3 * 2^-54 and the extra payment 1, at no interest. *)
Definition edge_loan : f_loan := FLoan (fl_terms f_loan_2023) (flit 4503599627370497 (-52)) (of_int 0).
Definition edge_pay : f64 := flit 3 (-54).
Definition edge_rows : list f_loan_payment := match f_generate_payment_schedule edge_loan edge_pay (FFloatExtra (of_int 1)) with Ok ps => ps | Err _ => [] end.
Lemma edge_ok : f_generate_payment_schedule edge_loan edge_pay (FFloatExtra (of_int 1)) = Ok edge_rows.
Proof.
  unfold edge_rows. assert (E : is_ok (f_generate_payment_schedule edge_loan edge_pay (FFloatExtra (of_int 1))) = true) by (vm_compute; reflexivity).
  destruct (f_generate_payment_schedule edge_loan edge_pay (FFloatExtra (of_int 1))); [reflexivity|discriminate].
Qed.
Theorem C111_payment_refuted : exists l pay x ps qs p q, f_generate_payment_schedule l pay x = Ok ps /\ generate_payment_schedule (exact_loan l) (B2R pay) (exact_extra x) = Ok qs /\
  plain_terms l pay x /\ covers ps 1 /\ nth_error ps 0 = Some p /\ nth_error qs 0 = Some q /\ (B2R (fl_principal l) <= 2)%R /\ (B2R (flp_payment p) - lp_payment q >= 1)%R.
Proof.
  destruct (proj2 (C111_same_dates edge_loan edge_pay (FFloatExtra (of_int 1))) edge_rows edge_ok) as (qs & H & Md).
  assert (Ln : List.length edge_rows = 3%nat) by (vm_compute; reflexivity). assert (Lq : List.length qs = 3%nat) by (apply (f_equal (@List.length date)) in Md; rewrite !map_length in Md; congruence).
  destruct (nth_error edge_rows 0) as [p|] eqn:N; [|apply nth_error_None in N; lia]. destruct (nth_error qs 0) as [q|] eqn:Nq; [|apply nth_error_None in Nq; lia].
  destruct (flit_val 4503599627370497 (-52) ltac:(lia) ltac:(lia)) as [FP VP]. destruct (flit_val 3 (-54) ltac:(lia) ltac:(lia)) as [Fy Vy]. destruct (of_int_val 0 ltac:(lia)) as [F0 V0]. destruct (of_int_val 1 ltac:(lia)) as [F1 V1].
  change (bpow radix2 (-52)) with (/ 4503599627370496)%R in VP. change (bpow radix2 (-54)) with (/ 18014398509481984)%R in Vy.
  pose proof (bpow_le radix2 0 300 ltac:(lia)) as B3. change (bpow radix2 0) with 1%R in B3. pose proof (bpow_le radix2 1 300 ltac:(lia)) as B4. change (bpow radix2 1) with 2%R in B4.
  assert (T : plain_terms edge_loan edge_pay (FFloatExtra (of_int 1))).
  { split; [apply f_terms_plain|]. split; [split; [exact FP|cbn [edge_loan fl_principal]; rewrite VP; lra]|]. split; [split; [exact F0|cbn [edge_loan fl_rate]; rewrite V0; lra]|]. split; [split; [exact Fy|unfold edge_pay; rewrite Vy; lra]|].
    intros k. split; [exact F1|cbn [f_extra_at]; rewrite V1; lra]. }
  set (p0 := match nth_error edge_rows 0 with Some p => p | None => FLoanPayment 0 (of_int 0) (of_int 0) (of_int 0) end).
  assert (Pp : p = p0) by (unfold p0; rewrite N; reflexivity).
  assert (W1 : B2R (flp_payment p) = B2R (flit 4503599627370497 (-52))) by (rewrite Pp, (finite_value (flp_payment p0) false 4503599627370497 (-52)), (finite_value (flit 4503599627370497 (-52)) false 4503599627370497 (-52)) by (vm_compute; reflexivity); reflexivity).
  assert (W2 : B2R (flp_principal p) = B2R (flit 4503599627370497 (-52))) by (rewrite Pp, (finite_value (flp_principal p0) false 4503599627370497 (-52)), (finite_value (flit 4503599627370497 (-52)) false 4503599627370497 (-52)) by (vm_compute; reflexivity); reflexivity).
  assert (Xp : forall k, (0 <= extra_at (exact_extra (FFloatExtra (of_int 1))) k)%R) by (intros j; rewrite extra_same; cbn [f_extra_at]; rewrite V1; lra).
  pose proof T as (Or & Ap & Ar & Ay & _).
  destruct (C41_balance _ _ _ _ H Or (proj1 (proj2 Ap)) (proj1 (proj2 Ar)) (proj1 (proj2 Ay)) Xp) as [_ Rws]. destruct (Rws 0%nat q Nq) as (I0 & _ & L & _).
  assert (O0 : outstanding (exact_loan edge_loan) qs 0 = B2R (flit 4503599627370497 (-52))). { unfold outstanding. cbn [firstn List.map]. rewrite rsum_nil, Rminus_0_r. reflexivity. }
  rewrite O0, VP, extra_same in L. cbn [f_extra_at] in L. rewrite V1 in L. unfold edge_pay in L. rewrite Vy in L. destruct L as [L _]; [split; lra|].
  exists edge_loan, edge_pay, (FFloatExtra (of_int 1)), edge_rows, qs, p, q. split; [exact edge_ok|]. split; [exact H|]. split; [exact T|].
  split; [intros j p' J N'; assert (j = O) by lia; subst j; rewrite N in N'; injection N' as <-; rewrite W2, VP; lra|]. split; [exact N|]. split; [exact Nq|].
  split; [cbn [edge_loan fl_principal]; rewrite VP; lra|]. rewrite W1, L, VP. lra.
Qed.
Print Assumptions C111_payment_refuted.
