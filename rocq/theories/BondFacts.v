(** Facts about bonds. *)
From Verif Require Import Base LoopFacts PyDate PyDateFacts DayCount DayCountFacts Holidays Scheduler SchedulerFacts UsFacts ModFollFacts CalendarSpec PyList KeyRate KeyRateFacts Curve CurveFacts Cashflow CashflowFacts Bond.
From Coq Require Import Sorting.Sorted Permutation Lra Lqa.
Open Scope Z_scope.
Ltac lra := first [Lra.lra | Lqa.lra].
Ltac nra := first [Lra.nra | Lqa.nra].

Lemma new_bond_inv a b : new_bond a = Ok b ->
  args b = a /\ coupon_payment b = calculate_coupon_payment a /\ calculate_dated_date a = Ok (dated_date b) /\
  create_coupon_payments_cashflow a (dated_date b) = Ok (coupons b) /\ create_principal_repayment_cashflow a = Ok (redemption b) /\
  calculate_settlement_date (purchase_date a) (b_settlement a) (b_cal a) = Ok (settlement_date b) /\
  calculate_accrued_interest a (coupon_payment b) (dated_date b) (coupons b) (settlement_date b) None = Ok (accrued_interest b) /\
  full_price b = (price a + accrued_interest b / principal a * 100)%R /\ principal a <> 0%R.
Proof.
  unfold new_bond. destruct (calculate_dated_date a) as [dd|] eqn:E1; cbn [bind]; [|discriminate].
  destruct (create_coupon_payments_cashflow a dd) as [cs|] eqn:E2; cbn [bind]; [|discriminate].
  destruct (create_principal_repayment_cashflow a) as [pr|] eqn:E3; cbn [bind]; [|discriminate].
  destruct (calculate_settlement_date _ _ _) as [sd|] eqn:E4; cbn [bind]; [|discriminate].
  destruct (calculate_accrued_interest _ _ _ _ _ _) as [ai|] eqn:E5; cbn [bind]; [|discriminate].
  unfold get_full_price. destruct (Req_EM_T (principal a) 0) as [Z0|Z0]; cbn [bind]; [discriminate|].
  intros H. injection H as <-. cbn [args coupon_payment dated_date coupons redemption settlement_date accrued_interest full_price].
  repeat (split; [solve [auto]|]). auto.
Qed.

(** building one *)
Lemma new_bond_intro a dd cs pr sd ai : calculate_dated_date a = Ok dd -> create_coupon_payments_cashflow a dd = Ok cs ->
  create_principal_repayment_cashflow a = Ok pr -> calculate_settlement_date (purchase_date a) (b_settlement a) (b_cal a) = Ok sd ->
  calculate_accrued_interest a (calculate_coupon_payment a) dd cs sd None = Ok ai -> principal a <> 0%R ->
  new_bond a = Ok (Bond a (calculate_coupon_payment a) dd cs pr sd ai (price a + ai / principal a * 100)%R).
Proof.
  intros E1 E2 E3 E4 E5 N. unfold new_bond. rewrite E1. cbn [bind]. rewrite E2. cbn [bind]. rewrite E3. cbn [bind]. rewrite E4. cbn [bind].
  rewrite E5. cbn [bind]. unfold get_full_price. destruct (Req_EM_T (principal a) 0); [contradiction|]. reflexivity.
Qed.

(** the coupon list *)
Lemma coupons_spec a dd cs : create_coupon_payments_cashflow a dd = Ok cs ->
  match coupon_step (freq a) with
  | Ok None => cs = []
  | Ok (Some m) => exists l, generate_dates_by_increments (maturity_date a) (dd + 1) (Relativedelta (- m) 0) 1000 = Ok l /\ date_ok (dd + 1) /\
      Permutation (List.map bp_unadjusted cs) l /\ StronglySorted Z.le (List.map bp_date cs) /\
      (forall p, In p cs -> adjustment_function a (bp_unadjusted p) = Ok (bp_date p) /\ bp_amount p = calculate_coupon_payment a)
  | Err _ => False
  end.
Proof.
  unfold create_coupon_payments_cashflow. destruct (coupon_step (freq a)) as [[m|]|e]; cbn [bind]; [|congruence|discriminate].
  destruct (add_days dd 1) as [e|] eqn:E; cbn [bind]; [|discriminate]. apply add_days_ok in E. destruct E as [-> O].
  destruct (generate_dates_by_increments _ _ _ _) as [l|] eqn:G; cbn [bind]; [|discriminate].
  destruct (mapM (adjustment_function a) l) as [l'|] eqn:M; cbn [bind]; [|discriminate]. intros H. injection H as <-.
  exists l. split; [auto|]. split; [auto|]. apply mapM_Forall2 in M.
  set (mk := fun p : date * date => BondPayment (snd p) (calculate_coupon_payment a) (fst p)).
  pose proof (sort_by_perm bp_date (List.map mk (combine l l'))) as P. split; [|split].
  - rewrite (Permutation_map bp_unadjusted P). rewrite map_map. cbn. clear -M. induction M; cbn; auto.
  - apply (sort_by_sorted bp_date).
  - intros p I. apply (Permutation_in p P) in I. apply in_map_iff in I. destruct I as (q & <- & I). cbn. split; [|auto].
    clear -M I. induction M; cbn in I; [contradiction|]. destruct I as [<-|I]; auto.
Qed.

Lemma step_pos f m : coupon_step f = Ok (Some m) -> m * per_year f = 12 /\ 0 < m /\ 0 < per_year f /\ f <> ZERO_COUPON.
Proof. destruct f; cbn; intros H; inversion H; subst; repeat split; try lia; discriminate. Qed.

(** ---- month arithmetic ---- *)
Definition month_index (d : date) : Z := year d * 12 + month d - 1.
Lemma index_lt x y : day x = day y -> (x < y <-> month_index x < month_index y).
Proof.
  intros E. unfold month_index. rewrite date_lt_lex.
  pose proof (date_parts x) as Px. pose proof (date_parts y) as Py. lia.
Qed.
Lemma index_gap x y : day x = day y -> month_index x < month_index y -> x + 28 <= y.
Proof.
  intros E L. unfold month_index in L.
  destruct (date_parts x) as (Mx & Dx & X & _). destruct (date_parts y) as (My & Dy & Y & _).
  pose proof (month_len (year x) (month x) ltac:(lia)) as Ml. unfold days_in_month in *.
  unfold ymd2ord, days_before_month in X, Y.
  destruct (Z.eq_dec (year x) (year y)) as [Ey|Ny].
  - rewrite <- Ey in *. pose proof (dbm_lt (is_leap (year x)) (month x) (month y) ltac:(lia) ltac:(lia)). lia.
  - pose proof (dby_mono (year x) (year y) ltac:(lia)). pose proof (dbm_bounds (is_leap (year x)) (month x) ltac:(lia)) as B.
    pose proof (dbm_bounds (is_leap (year y)) (month y) ltac:(lia)) as B'. unfold yearlen in *. destruct (is_leap (year x)); lia.
Qed.

Lemma add_months_back d j k x y : day d <= 28 -> add_months d j = Ok x -> add_months d (j + k) = Ok y -> add_months x k = Ok y.
Proof.
  intros D A B. destruct (add_months_28 _ _ _ D A) as (O1 & D1 & M1).
  apply add_months_ok in B. destruct B as (y' & m' & E & Bm & By & ->). apply add_months_ok.
  exists y', m'. repeat split; auto; try lia. rewrite D1. reflexivity.
Qed.

(** months back from one date: order *)
Lemma add_months_order d j k x y : day d <= 28 -> add_months d j = Ok x -> add_months d k = Ok y -> (x < y <-> j < k).
Proof.
  intros D A B. destruct (add_months_28 _ _ _ D A) as (_ & D1 & M1). destruct (add_months_28 _ _ _ D B) as (_ & D2 & M2).
  rewrite index_lt by congruence. unfold month_index. lia.
Qed.
Lemma add_months_inj d j k x : day d <= 28 -> add_months d j = Ok x -> add_months d k = Ok x -> j = k.
Proof.
  intros D A B. destruct (add_months_28 _ _ _ D A) as (_ & D1 & M1). destruct (add_months_28 _ _ _ D B) as (_ & D2 & M2). lia.
Qed.

Lemma back_loop n : forall d e k l, date_ok d -> day d <= 28 -> k < 0 -> grid_loop n false d e (Relativedelta k 0) = Ok l ->
  forall i x, (i < n)%nat -> add_months d (Z.of_nat i * k) = Ok x -> e <= x -> nth_error l i = Some x.
Proof.
  induction n as [|n IH]; intros d e k l O D K; cbn [grid_loop]; [intros; lia|].
  destruct (e <=? d) eqn:C.
  - cbn [add_increment]. destruct (add_months d k) as [d'|] eqn:A; cbn [bind]; [|discriminate].
    destruct (add_days d' 0) as [d''|] eqn:A0; cbn [bind]; [|discriminate].
    apply add_days_ok in A0. destruct A0 as [-> O']. rewrite Z.add_0_r in *.
    destruct (grid_loop n false d' e (Relativedelta k 0)) as [r|] eqn:G; cbn [bind]; [|discriminate].
    intros [= <-] i x Li Ax Le. destruct (add_months_28 _ _ _ D A) as (O1 & D1 & M1). destruct i as [|i]; cbn [nth_error].
    + rewrite add_months_0 in Ax by auto. congruence.
    + apply (IH d' e k r O1 ltac:(lia) K G i x ltac:(lia)); auto. apply (add_months_back d k (Z.of_nat i * k) d' x); auto.
      rewrite <- Ax. f_equal. lia.
  - intros _ i x Li Ax Le. exfalso. destruct i as [|i].
    + rewrite add_months_0 in Ax by auto. injection Ax as <-. lia.
    + pose proof (add_months_order d (Z.of_nat (S i) * k) 0 x d D Ax (add_months_0 d O)) as [_ Q]. specialize (Q ltac:(lia)). lia.
Qed.

Lemma back_grid s e m l : date_ok s -> day s <= 28 -> 0 < m ->
  generate_dates_by_increments s e (Relativedelta (- m) 0) 1000 = Ok l ->
  forall i x, nth_error l i = Some x <-> (i <= 1000)%nat /\ add_months s (- (Z.of_nat i * m)) = Ok x /\ e <= x.
Proof.
  intros O D M. unfold generate_dates_by_increments. cbn [positive_increment add_increment].
  destruct (add_months s (- m)) as [t|] eqn:A; cbn [bind]; [|discriminate].
  destruct (add_days t 0) as [t'|] eqn:A0; cbn [bind]; [|discriminate]. apply add_days_ok in A0. destruct A0 as [-> _]. rewrite Z.add_0_r.
  pose proof (add_months_order s (- m) 0 t s D A (add_months_0 s O)) as [_ Q]. specialize (Q ltac:(lia)).
  replace (s <=? t) with false by lia. change (Z.to_nat (1000 + 1)) with 1001%nat. intros G i x. split.
  - intros N. destruct (grid_chain _ _ _ _ _ _ G) as (L & F & _). assert (i < List.length l)%nat by (apply nth_error_Some; congruence).
    split; [lia|]. split.
    + apply (grid_months _ _ _ _ _ _ O D G) in N. rewrite <- N. f_equal. lia.
    + apply nth_error_In in N. rewrite Forall_forall in F. apply F in N. lia.
  - intros (L & Ax & Le). apply (back_loop 1001 s e (- m) l O D ltac:(lia) G); [lia| |auto]. rewrite <- Ax. f_equal. ring.
Qed.

(** how many: k = 0, 1, ... while k * m < t *)
Definition ceil_div (t m : Z) : Z := (t + m - 1) / m.
Lemma ceil_div_spec t m k : 0 < m -> (k < ceil_div t m <-> k * m < t).
Proof.
  intros M. unfold ceil_div. split; intros H.
  - assert ((k + 1) <= (t + m - 1) / m) by lia. pose proof (Z.mul_div_le (t + m - 1) m M). nia.
  - assert (k + 1 <= (t + m - 1) / m) by (apply Z.div_le_lower_bound; lia). lia.
Qed.

Lemma back_grid_length s m t l dd : date_ok s -> day s <= 28 -> 0 < m -> add_months s (- t) = Ok dd ->
  generate_dates_by_increments s (dd + 1) (Relativedelta (- m) 0) 1000 = Ok l ->
  Z.of_nat (List.length l) = Z.max 0 (Z.min 1001 (ceil_div t m)) /\
  (forall i x, nth_error l i = Some x <-> Z.of_nat i <= 1000 /\ Z.of_nat i * m < t /\ add_months s (- (Z.of_nat i * m)) = Ok x).
Proof.
  intros O D M A G. pose proof (back_grid s (dd + 1) m l O D M G) as N.
  assert (X : forall i x, nth_error l i = Some x <-> Z.of_nat i <= 1000 /\ Z.of_nat i * m < t /\ add_months s (- (Z.of_nat i * m)) = Ok x).
  { intros i x. rewrite N. split; intros (L & H1 & H2).
    - repeat split; auto; [lia|]. pose proof (add_months_order s _ _ _ _ D A H1). lia.
    - repeat split; auto; [lia|]. pose proof (add_months_order s _ _ _ _ D A H2). lia. }
  split; [|exact X].
  assert (T : forall k, 0 <= k <= 1000 -> k * m < t -> (Z.to_nat k < List.length l)%nat).
  { intros k K H. apply nth_error_Some. intros C.
    destruct (add_months s (- (k * m))) as [x|e] eqn:E.
    - assert (nth_error l (Z.to_nat k) = Some x) by (apply X; rewrite Z2Nat.id by lia; split; [lia|auto]). congruence.
    - apply add_months_err in E. destruct E as [_ E]. apply E.
      destruct (add_months_28 _ _ _ D A) as (Od & _ & Md). apply date_ok_year in Od. pose proof (date_parts dd). apply date_ok_year in O.
      pose proof (date_parts s). nia. }
  assert (U : forall i, (i < List.length l)%nat -> Z.of_nat i <= 1000 /\ Z.of_nat i * m < t).
  { intros i H. apply nth_error_Some in H. destruct (nth_error l i) as [x|] eqn:E; [|congruence]. apply X in E. tauto. }
  destruct (Z.le_gt_cases t 0) as [T0|T0].
  - assert (ceil_div t m <= 0) by (pose proof (ceil_div_spec t m 0 M); lia).
    destruct (List.length l) as [|n] eqn:L; [lia|]. specialize (U 0%nat ltac:(lia)). lia.
  - set (n := List.length l) in *. pose proof (ceil_div_spec t m) as C.
    assert (1 <= ceil_div t m) by (pose proof (C 0 M); lia).
    assert (Z.min 1001 (ceil_div t m) <= Z.of_nat n).
    { pose proof (T (Z.min 1000 (ceil_div t m - 1)) ltac:(lia)) as T1. assert (Z.min 1000 (ceil_div t m - 1) * m < t) by (apply C; lia).
      specialize (T1 H0). lia. }
    assert (Z.of_nat n <= Z.min 1001 (ceil_div t m)).
    { destruct n as [|n']; [lia|]. destruct (U n' ltac:(lia)) as [U1 U2]. apply C in U2; [|auto]. lia. }
    lia.
Qed.

(** ---- adjusted dates ---- *)
Lemma us_adjust a d r : b_cal a = US_FEDERAL_HOLIDAYS -> date_ok d -> adjustment_function a d = Ok r -> d - 4 <= r <= d + 3.
Proof.
  intros C O. unfold adjustment_function. rewrite C. destruct (b_adjust a); intros E.
  - destruct (us_following d O) as (c & Ec & F & L). unfold following_date_adjustment in E. rewrite Ec in E. injection E as <-. destruct F as [F _]. lia.
  - destruct (us_mf d O) as (r' & E' & _ & _ & _ & L). rewrite E' in E. injection E as <-. lia.
Qed.

Lemma adjust_isbd a d r : date_ok d -> adjustment_function a d = Ok r -> isbd (b_cal a) r.
Proof.
  intros O. unfold adjustment_function. destruct (b_adjust a); intros E.
  - unfold following_date_adjustment in E. apply abd_isbd in E; auto.
  - apply mf_spec in E; auto. apply E.
Qed.

Lemma SS_two {A} (f g : A -> Z) (l : list A) : StronglySorted Z.le (List.map f l) -> NoDup (List.map g l) ->
  (forall p q, In p l -> In q l -> f p <= f q -> g p <> g q -> g p < g q) -> StronglySorted Z.lt (List.map g l).
Proof.
  induction l as [|p l IH]; cbn; intros Sf ND H; constructor.
  - apply IH; [inversion Sf; auto | inversion ND; auto | intros; apply H; auto].
  - apply NoDup_cons_iff in ND. destruct ND as [NI ND]. inversion Sf as [|? ? S1 S2]; subst.
    apply Forall_forall. intros z I. apply in_map_iff in I. destruct I as (q & <- & I). apply H; auto.
    + rewrite Forall_forall in S2. apply S2. apply in_map; auto.
    + intros E. apply NI. rewrite E. apply in_map; auto.
Qed.

Lemma nodup_nth {A} (l : list A) : (forall i j x, nth_error l i = Some x -> nth_error l j = Some x -> i = j) -> NoDup l.
Proof.
  intros H. apply NoDup_nth_error. intros i j L E. destruct (nth_error l i) as [x|] eqn:Ei; [|apply nth_error_None in Ei; lia].
  eapply H; eauto.
Qed.

Lemma sorted_nth (l : list Z) : (forall i j x y, (i < j)%nat -> nth_error l i = Some x -> nth_error l j = Some y -> x < y) -> StronglySorted Z.lt l.
Proof.
  induction l as [|z l IH]; intros H; constructor.
  - apply IH. intros i j x y L Ei Ej. apply (H (S i) (S j)); auto. lia.
  - apply Forall_forall. intros w I. apply In_nth_error in I. destruct I as (k & E). apply (H 0%nat (S k)); auto. lia.
Qed.

Lemma SS_lt_le l : StronglySorted Z.lt l -> StronglySorted Z.le l.
Proof. induction 1; constructor; auto. eapply Forall_impl; [|eassumption]. cbn. lia. Qed.

Lemma SS_rev_gt (l : list Z) : (forall i j x y, (i < j)%nat -> nth_error l i = Some x -> nth_error l j = Some y -> y < x) -> StronglySorted Z.lt (rev l).
Proof.
  intros H. apply sorted_nth. intros i j x y L Ei Ej.
  assert (Li : (i < List.length (rev l))%nat) by (apply nth_error_Some; congruence). assert (Lj : (j < List.length (rev l))%nat) by (apply nth_error_Some; congruence).
  rewrite rev_length in Li, Lj.
  apply nth_error_nth with (d := 0) in Ei. apply nth_error_nth with (d := 0) in Ej. rewrite rev_nth in Ei, Ej by auto.
  apply (H (List.length l - S j)%nat (List.length l - S i)%nat); [lia| |].
  - rewrite <- Ej. apply nth_error_nth'. lia.
  - rewrite <- Ei. apply nth_error_nth'. lia.
Qed.

Lemma sorted_perm_eq (l l' : list Z) : StronglySorted Z.lt l -> StronglySorted Z.lt l' -> Permutation l l' -> l = l'.
Proof.
  intros S1 S2 P.
  assert (ND : NoDup (List.map (fun x : Z => x) l)).
  { rewrite map_id. clear -S1. induction S1 as [|x l S IH F]; constructor; auto. intros I. rewrite Forall_forall in F. specialize (F x I). lia. }
  assert (I1 : sort_by (fun x : Z => x) l = l) by (apply sort_by_id; rewrite map_id; apply SS_lt_le; auto).
  assert (I2 : sort_by (fun x : Z => x) l' = l') by (apply sort_by_id; rewrite map_id; apply SS_lt_le; auto).
  rewrite <- I1, <- I2. apply (sort_by_unique (fun x : Z => x)); auto.
Qed.

(** ---- accruals ---- *)
Definition real_date (d : date) : Prop := date_ok d /\ 2 <= year d.
Lemma any_clock c : c <> THIRTY360 -> exists phi k, has_clock c real_date phi k.
Proof.
  intros N.
  assert (W : forall N', act_basis c = Some N' -> exists phi k, has_clock c real_date phi k).
  { intros N' B. destruct (act_clock c N' B) as (K & A & M). exists inject_Z, (/ N')%Q. split; [exact K|]. split; [|exact M]. intros; apply A; auto. }
  destruct c; try congruence; try (eapply W; reflexivity). exists aa_clock, 1%Q. apply actact_clock.
Qed.

Lemma acc_order c s d e : c <> THIRTY360 -> real_date s -> real_date e -> s <= d <= e -> exists q r, acc c s d = Ok q /\ acc c s e = Ok r /\
  (0 <= q <= r)%Q /\ (s < d -> (0 < q)%Q) /\ (d < e -> (q < r)%Q) /\ (s = d -> (q == 0)%Q) /\ (d = e -> (q == r)%Q).
Proof.
  intros N Os Oe L. destruct (any_clock c N) as (phi & k & K & A & M).
  assert (Od : real_date d).
  { destruct Os as [[S1 S2] S3], Oe as [[E1 E2] E3]. split; [split; lia|]. pose proof (year_mono s d ltac:(lia)). lia. }
  destruct (A s d Os ltac:(lia) Od) as (q & Eq & Vq). destruct (A s e Os ltac:(lia) Oe) as (r & Er & Vr). exists q, r.
  split; [auto|]. split; [auto|].
  assert (P1 : s < d -> (phi s < phi d)%Q) by apply M. assert (P2 : d < e -> (phi d < phi e)%Q) by apply M.
  assert (Q1 : s < d -> (0 < q)%Q) by (intros H; specialize (P1 H); rewrite Vq; nra).
  assert (Q2 : d < e -> (q < r)%Q) by (intros H; specialize (P2 H); rewrite Vq, Vr; nra).
  assert (Q3 : s = d -> (q == 0)%Q) by (intros ->; rewrite Vq; ring).
  assert (Q4 : d = e -> (q == r)%Q) by (intros ->; rewrite Vq, Vr; ring).
  assert (s < d \/ s = d) as [H|H] by lia; assert (d < e \/ d = e) as [H'|H'] by lia; try specialize (Q1 H); try specialize (Q2 H'); try specialize (Q3 H); try specialize (Q4 H');
    repeat split; auto; intros; lra || lia.
Qed.

Lemma bisect_right_at l x : forall j, (j <= List.length l)%nat -> (forall i y, nth_error l i = Some y -> (y <= x <-> (i < j)%nat)) -> bisect_right l x = Z.of_nat j.
Proof.
  induction l as [|y l IH]; intros j L H; cbn [bisect_right List.length] in *; [lia|].
  pose proof (H 0%nat y eq_refl) as H0. destruct (y <=? x) eqn:E.
  - destruct j as [|j]; [lia|]. rewrite (IH j); [lia|lia|]. intros i z Ez. rewrite (H (S i) z Ez). lia.
  - destruct j; lia.
Qed.

Lemma nth_unadjusted_ok l i x : nth_error (List.map bp_unadjusted l) i = Some x -> nth_unadjusted l (Z.of_nat i) = Ok x.
Proof.
  intros E. unfold nth_unadjusted, py_index. rewrite nth_error_map in E. destruct (nth_error l i) as [p|] eqn:Ep; [|discriminate].
  assert (i < List.length l)%nat by (apply nth_error_Some; congruence).
  replace (Z.of_nat i <? 0) with false by lia. replace (_ && _) with true by lia. cbn [bind]. rewrite Nat2Z.id, Ep. cbn in E. congruence.
Qed.
