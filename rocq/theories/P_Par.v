(** C105: bonds whose yield is their coupon rate are worth par on coupon dates. *)
From Verif Require Import Base PyClass LoopFacts PyDate PyDateFacts DayCount DayCountFacts Holidays Scheduler SchedulerFacts UsFacts CalendarSpec PyList KeyRate Curve Cashflow CashflowFacts Bond BondFacts YieldFacts P_DayCount P_Scheduler P_Bond P_BondYield.
From Coq Require Import Sorting.Sorted Permutation Lra Lqa Reals.
Open Scope Z_scope.
Ltac lra := first [Lra.lra | Lqa.lra].
Ltac nra := first [Lra.nra | Lqa.nra].
Local Opaque add_business_days.

(** no payment date falls on a weekend or holiday *)
Definition unmoved (b : bond) : Prop := forall p, In p (coupons b) -> bp_date p = bp_unadjusted p.

Lemma thirty_back ref mat k x : day mat <= 27 -> add_months mat (- k) = Ok x -> days_30_360 ref x = days_30_360 ref mat - 30 * k.
Proof.
  intros D H. destruct (add_months_parts _ _ _ H) as (_ & Ym & Dx). pose proof (date_parts mat) as (_ & [Dm _] & _).
  assert (28 <= days_in_month (year x) (month x)) by (rewrite dim_dim_l; apply dbm_bounds; pose proof (date_parts x) as (M & _); exact M).
  assert (Ex : day x = day mat) by lia. rewrite !thirty_split. unfold feb28b, end_day. rewrite Ex. replace (day mat =? 28) with false by lia. replace (day mat =? 31) with false by lia.
  rewrite !andb_false_r. lia.
Qed.

Lemma filter_prefix {A} (P : A -> bool) l : (forall i j x y, (i < j)%nat -> nth_error l i = Some x -> nth_error l j = Some y -> P y = true -> P x = true) ->
  filter P l = firstn (List.length (filter P l)) l.
Proof.
  induction l as [|a l IH]; intros H; [reflexivity|]. cbn [filter]. destruct (P a) eqn:E.
  - cbn [List.length firstn]. f_equal. apply IH. intros i j x y L Hx Hy. apply (H (S i) (S j)); auto. lia.
  - enough (N : filter P l = []) by (rewrite N; reflexivity). destruct (filter P l) as [|y r] eqn:F; [reflexivity|].
    assert (I : In y (filter P l)) by (rewrite F; left; reflexivity). apply filter_In in I. destruct I as [I Py]. apply In_nth_error in I. destruct I as [n Hn].
    rewrite (H 0%nat (S n) a y ltac:(lia) eq_refl Hn Py) in E. discriminate.
Qed.

Lemma map_seq_nth {A} (f : A -> R) (g : nat -> R) l n : (n <= List.length l)%nat -> (forall i x, (i < n)%nat -> nth_error l i = Some x -> f x = g i) ->
  List.map f (firstn n l) = List.map g (seq 0 n).
Proof.
  intros L H. apply nth_ext with (d := 0%R) (d' := 0%R).
  - rewrite !map_length, seq_length, firstn_length. lia.
  - intros i Hi. rewrite map_length, firstn_length in Hi. assert (Li : (i < n)%nat) by lia.
    destruct (nth_error l i) as [x|] eqn:E; [|apply nth_error_None in E; lia].
    rewrite (nth_indep _ 0%R (f x)) by (rewrite map_length, firstn_length; lia). rewrite map_nth. rewrite (nth_indep (List.map g (seq 0 n)) 0%R (g 0%nat)) by (rewrite map_length, seq_length; lia).
    rewrite map_nth, seq_nth by lia. cbn [plus]. rewrite <- (H i x Li E). f_equal.
    assert (Ef : nth_error (firstn n l) i = Some x) by (rewrite <- E; rewrite <- (firstn_skipn n l) at 2; rewrite nth_error_app1 by (rewrite firstn_length; lia); reflexivity).
    apply nth_error_nth, Ef.
Qed.

Lemma geometric (c : R) n : ((c - 1) * rsum (List.map (fun i => c ^ i) (seq 0 n)) = c ^ n - 1)%R.
Proof.
  induction n as [|n IH]; [cbn [seq List.map]; rewrite rsum_nil; cbn [pow]; lra|]. rewrite seq_S, map_app, rsum_app, Rmult_plus_distr_l, IH. cbn [List.map plus]. rewrite rsum_cons, rsum_nil. cbn [pow]. ring.
Qed.

Lemma perm_filter {A} (P : A -> bool) l l' : Permutation l l' -> Permutation (filter P l) (filter P l').
Proof.
  induction 1 as [|x l l' H IH|x y l|l l' l'' H1 IH1 H2 IH2]; cbn [filter]; [constructor|destruct (P x); auto|destruct (P x), (P y); auto; apply perm_swap|eapply perm_trans; eauto].
Qed.
Lemma rsum_map_scale' {A} k (f : A -> R) l : rsum (List.map (fun a => k * f a)%R l) = (k * rsum (List.map f l))%R.
Proof. induction l as [|a l IH]; cbn [List.map]; [rewrite rsum_nil; ring|]. rewrite !rsum_cons, IH. ring. Qed.

(** Between coupon dates the value at the coupon rate is the principal grown at that rate over the part of the current
    coupon period that has passed: with j coupons to come and T years to maturity (30/360), that part is j - nT periods. *)
Theorem C105_value_at_coupon_rate : forall a b t m ref sd T, new_bond a = Ok b -> date_ok (maturity_date a) -> day (maturity_date a) <= 27 ->
  tenor_in_months (b_tenor a) = Some t -> period (freq a) = Some m -> b_dcc a = THIRTY360 -> unmoved b -> date_ok ref ->
  add_business_days ref 1 (b_cal a) = Ok sd -> sd <= maturity_date a -> 0 < t -> compute_accrual_length (Day ref) (Day (maturity_date a)) THIRTY360 = Ok T ->
  (0 < 1 + coupon_rate a / 100 / IZR (per_year (freq a)))%R ->
  let j := INR (List.length (filter (fun p => sd <=? bp_unadjusted p) (coupons b))) in
  discount_cashflows_by_fixed_rate b (coupon_rate a / 100) (Some ref) =
    Ok (principal a * Rpower (1 + coupon_rate a / 100 / IZR (per_year (freq a))) (j - IZR (per_year (freq a)) * Q2R T))%R.
Proof.
  intros a b t m ref sd T B O D Te Pe Dc Un Or S Lm Tp HT Pb j. destruct (schedule_facts a b t m B O ltac:(lia) Te Pe) as (l & Pm & _ & Mp & Mn & Ll & N & A).
  destruct (new_bond_inv _ _ B) as (Ea & _). destruct (redemption_is a b B) as (d & Ad & Er). destruct (t_plus_one _ _ _ Or S) as [Ls _].
  set (n := per_year (freq a)) in *. assert (Np : 0 < n) by nia. set (c := (1 + coupon_rate a / 100 / IZR n)%R) in *.
  set (mat := maturity_date a) in *. set (tm := fun x => (IZR (days_30_360 ref x) / 360)%R).
  assert (L0 : nth_error l 0 = Some mat). { apply N. split; [lia|]. split; [lia|]. destruct (add_months_total mat 0) as [x Hx]; [|]. { pose proof (date_parts mat) as (M & _). destruct O as [O1 O2]. pose proof (year_mono mat max_date O2) as Y1. pose proof (year_mono min_date mat O1) as Y0. change (year max_date) with 9999 in Y1. change (year min_date) with 1 in Y0. lia. }
    change (- (Z.of_nat 0 * m)) with 0. rewrite Hx. f_equal. destruct (add_months_parts _ _ _ Hx) as (Ox & Ym & Dx). pose proof (date_parts mat) as (M1 & D1 & E1 & _). pose proof (date_parts x) as (M2 & D2 & E2 & _).
    assert (year x = year mat /\ month x = month mat) as [Ey Em] by lia. rewrite Ey, Em in Dx, E2. rewrite Dx, Z.min_l in E2 by lia. congruence. }
  assert (Dd : d = mat). { assert (I : In mat (unadjusted b)) by (apply (Permutation_in _ (Permutation_sym Pm)); apply nth_error_In with 0%nat; exact L0). unfold unadjusted in I. apply in_map_iff in I. destruct I as (p & Ep & Ip). pose proof (Un p Ip) as Up. destruct (A p Ip) as [Ap _]. rewrite Ep in Ap, Up. rewrite Ad in Ap. congruence. }
  assert (Acc : forall x, sd <= x -> exists q, compute_accrual_length (Day ref) (Day x) THIRTY360 = Ok q /\ tm x = Q2R q).
  { intros x Lx. destruct (thirty_value ref x ltac:(lia)) as (q & Eq & Vq). exists q. split; [exact Eq|]. unfold tm. apply Qeq_eqR in Vq. rewrite Vq. rewrite Q2R_div by (intros X; discriminate X). f_equal; unfold Q2R, inject_Z; cbn; field. }
  set (fl := List.map (fun p => (bp_amount p, tm (bp_date p))) (remaining b sd)).
  assert (Fl : remaining_flows b ref sd fl).
  { unfold remaining_flows, fl. assert (H : forall p, In p (remaining b sd) -> exists q, compute_accrual_length (Day ref) (Day (bp_date p)) (b_dcc (args b)) = Ok q /\ tm (bp_date p) = Q2R q).
    { intros p I. rewrite Ea, Dc. apply filter_In in I. destruct I as [I Lp]. apply Acc. apply in_app_or in I. destruct I as [I|I]; [rewrite (Un p I); lia|]. rewrite Er in I. destruct I as [<-|[]]. cbn [bp_date bp_unadjusted] in *. lia. }
    revert H. generalize (remaining b sd) as r. induction r as [|p r IH]; intros H; cbn [List.map]; constructor; [cbn; split; [reflexivity|]|apply IH; intros; apply H; right; assumption].
    apply H. left. reflexivity. }
  rewrite (value_intro a b _ ref B Np Pb sd fl S Fl). apply (f_equal Ok). unfold fixed_rate_price. fold n. fold c. unfold fl. rewrite map_map. cbn [fst snd].
  unfold remaining. rewrite filter_app, map_app, rsum_app. rewrite Er. cbn [filter bp_unadjusted]. replace (sd <=? mat) with true by lia. cbn [List.map bp_amount bp_date]. rewrite rsum_cons, rsum_nil, Dd.
  set (C := calculate_coupon_payment a). set (g := fun x => (C / Rpower c (tm x * IZR n))%R).
  assert (E1 : List.map (fun p => (bp_amount p / Rpower c (tm (bp_date p) * IZR n))%R) (filter (fun p => sd <=? bp_unadjusted p) (coupons b)) = List.map g (filter (fun x => sd <=? x) (unadjusted b))).
  { unfold unadjusted. unfold unmoved in Un. revert Un A. generalize (coupons b) as cs. induction cs as [|p cs IH]; intros Un A; [reflexivity|]. cbn [filter List.map]. destruct (sd <=? bp_unadjusted p); cbn [List.map]; [f_equal|]; try (apply IH; [intros q Iq; apply Un; right; exact Iq|intros q Iq; apply A; right; exact Iq]).
    unfold g. rewrite (Un p (or_introl eq_refl)). destruct (A p (or_introl eq_refl)) as [_ ->]. reflexivity. }
  assert (Pf : Permutation (filter (fun x => sd <=? x) (unadjusted b)) (filter (fun x => sd <=? x) l)) by (apply perm_filter, Pm).
  assert (Ej : List.length (filter (fun p => sd <=? bp_unadjusted p) (coupons b)) = List.length (filter (fun x => sd <=? x) l)).
  { rewrite <- (Permutation_length Pf). transitivity (List.length (List.map g (filter (fun x => sd <=? x) (unadjusted b)))); [rewrite <- E1, map_length; reflexivity|apply map_length]. }
  rewrite E1, (rsum_perm _ _ (Permutation_map g Pf)). unfold j. rewrite Ej. set (k := List.length (filter (fun x => sd <=? x) l)).
  assert (Fp : filter (fun x => sd <=? x) l = firstn k l).
  { apply filter_prefix. intros i i' x y Li Hx Hy Ly. apply Z.leb_le in Ly. apply Z.leb_le. pose proof (grid_nth_order a t m ltac:(fold mat; lia) l Mp N i i' x y Li Hx Hy). lia. }
  rewrite Fp. assert (Lk : (k <= List.length l)%nat) by (unfold k; clear; induction l as [|x l IH]; cbn; [lia|]; destruct (sd <=? x); cbn; lia).
  rewrite (map_seq_nth g (fun i => C * Rpower c (- (IZR n * tm mat)) * c ^ i)%R l k Lk).
  2:{ intros i x Li Hx. apply N in Hx. destruct Hx as (_ & _ & Hx). unfold g, Rdiv. rewrite Rmult_assoc. f_equal. rewrite <- Rpower_Ropp, <- (Rpower_pow i c Pb), <- Rpower_plus. f_equal.
      unfold tm. rewrite (thirty_back ref mat _ x D Hx), minus_IZR, !mult_IZR, <- INR_IZR_INZ. assert (Mr : (IZR m * IZR n = 12)%R) by (rewrite <- mult_IZR, Mn; reflexivity).
      replace (- ((IZR (days_30_360 ref mat) - 30 * (INR i * IZR m)) / 360 * IZR n))%R with (- (IZR n * (IZR (days_30_360 ref mat) / 360)) + INR i * (IZR m * IZR n) / 12)%R by field. rewrite Mr. field. }
  rewrite rsum_map_scale'.
  assert (HTm : tm mat = Q2R T) by (destruct (Acc mat Lm) as (q & Eq & Vq); rewrite HT in Eq; injection Eq as <-; exact Vq). rewrite <- HTm.
  assert (Nr : (0 < IZR n)%R) by (apply IZR_lt; exact Np).
  assert (EC : C = (principal a * (c - 1))%R).
  { unfold C, c, n, calculate_coupon_payment. clear -Pe. destruct (freq a); cbn [period] in Pe; try discriminate; cbn [per_year]; field. }
  rewrite EC. change (List.map (pow c) (seq 0 k)) with (List.map (fun i => (c ^ i)%R) (seq 0 k)). replace (principal a * (c - 1) * Rpower c (- (IZR n * tm mat)) * rsum (List.map (fun i => c ^ i) (seq 0 k)))%R with (principal a * Rpower c (- (IZR n * tm mat)) * ((c - 1) * rsum (List.map (fun i => c ^ i) (seq 0 k))))%R by ring.
  rewrite geometric. unfold Rdiv. rewrite <- Rpower_Ropp. replace (- (tm mat * IZR n))%R with (- (IZR n * tm mat))%R by ring.
  replace (INR k - IZR n * tm mat)%R with (INR k + - (IZR n * tm mat))%R by ring. rewrite Rpower_plus, (Rpower_pow k c Pb). ring.
Qed.
Print Assumptions C105_value_at_coupon_rate.

(** On a coupon date (or the dated date), j >= 1 whole periods before maturity and with the next coupon still to be received:
    yield equal to the coupon rate means par, a lower yield a premium, a higher one a discount. *)
Theorem C105_par : forall a b t m j ref sd, new_bond a = Ok b -> date_ok (maturity_date a) -> day (maturity_date a) <= 27 ->
  tenor_in_months (b_tenor a) = Some t -> period (freq a) = Some m -> b_dcc a = THIRTY360 -> unmoved b ->
  1 <= j <= 1001 -> j * m <= t -> add_months (maturity_date a) (- (j * m)) = Ok ref ->
  add_business_days ref 1 (b_cal a) = Ok sd -> (forall x, add_months (maturity_date a) (- ((j - 1) * m)) = Ok x -> sd <= x) ->
  (0 <= coupon_rate a)%R -> (0 < principal a)%R -> 1 < year ref ->
  discount_cashflows_by_fixed_rate b (coupon_rate a / 100) (Some ref) = Ok (principal a) /\
  (forall y v, (0 < 1 + y / IZR (per_year (freq a)))%R -> discount_cashflows_by_fixed_rate b y (Some ref) = Ok v ->
     ((v > principal a <-> y < coupon_rate a / 100) /\ (v < principal a <-> y > coupon_rate a / 100) /\ (v = principal a <-> y = coupon_rate a / 100))%R).
Proof.
  intros a b t m j ref sd B O D Te Pe Dc Un J Jt Hr S Nx Cp Pp Yr. destruct (schedule_facts a b t m B O ltac:(lia) Te Pe) as (l & Pm & _ & Mp & Mn & Ll & N & A).
  set (n := per_year (freq a)) in *. assert (Np : 0 < n) by nia. assert (Nr : (0 < IZR n)%R) by (apply IZR_lt; exact Np).
  assert (Ok' : forall k, 0 <= k <= j -> exists x, add_months (maturity_date a) (- (k * m)) = Ok x /\ (k < j -> sd <= x)).
  { intros k Hk. assert (Km : 0 <= k * m <= j * m) by nia. assert (Jm : 0 <= (j - 1) * m <= j * m) by nia. destruct (add_months_parts _ _ _ Hr) as (Or & Ym & _). pose proof (date_parts ref) as (Mr & _). pose proof (date_parts (maturity_date a)) as (Mm & _).
    assert (Ym' : year (maturity_date a) <= 9999) by (destruct O as [_ O2]; pose proof (year_mono _ _ O2) as Y; change (year max_date) with 9999 in Y; exact Y).
    destruct (add_months_total (maturity_date a) (- (k * m))) as [x Hx]; [lia|]. exists x. split; [exact Hx|]. intros Kj.
    destruct (add_months_total (maturity_date a) (- ((j - 1) * m))) as [z Hz]; [lia|]. specialize (Nx z Hz).
    destruct (Z.eq_dec k (j - 1)) as [->|Nk]; [rewrite Hx in Hz; injection Hz as ->; exact Nx|]. assert (Kj' : k * m < (j - 1) * m) by nia. pose proof (add_months_order (maturity_date a) _ _ _ _ ltac:(lia) Hz Hx). lia. }
  destruct (add_months_parts _ _ _ Hr) as (Or & _). destruct (t_plus_one _ _ _ Or S) as [Ls _].
  assert (Hm : add_months (maturity_date a) 0 = Ok (maturity_date a)).
  { destruct (Ok' 0 ltac:(lia)) as (x & Hx & _). change (- (0 * m)) with 0 in Hx. rewrite Hx. f_equal. destruct (add_months_parts _ _ _ Hx) as (_ & Ym & Dx). pose proof (date_parts (maturity_date a)) as (M1 & D1 & E1 & _). pose proof (date_parts x) as (M2 & D2 & E2 & _).
    assert (year x = year (maturity_date a) /\ month x = month (maturity_date a)) as [Ey Em] by lia. rewrite Ey, Em in Dx, E2. rewrite Dx, Z.min_l in E2 by lia. congruence. }
  assert (Lm : sd <= maturity_date a). { destruct (Ok' 0 ltac:(lia)) as (x & Hx & Lx). change (- (0 * m)) with 0 in Hx. rewrite Hm in Hx. injection Hx as <-. apply Lx. lia. }
  assert (HT : exists T, compute_accrual_length (Day ref) (Day (maturity_date a)) THIRTY360 = Ok T /\ Q2R T = (IZR (j * m) / 12)%R).
  { assert (Dr : day ref <= 27). { destruct (add_months_parts _ _ _ Hr) as (_ & _ & Dx). lia. }
    assert (Hb : add_months ref (j * m) = Ok (maturity_date a)) by (apply (add_months_back (maturity_date a) (- (j * m)) (j * m) ref (maturity_date a) ltac:(lia) Hr); replace (- (j * m) + j * m) with 0 by lia; exact Hm).
    destruct (C03_months ref (maturity_date a) (j * m) Dr Hb ltac:(nia)) as (_ & q & Eq & Vq). exists q. split; [exact Eq|]. apply Qeq_eqR in Vq. rewrite Vq, Q2R_div by (intros X; discriminate X). unfold Q2R, inject_Z. cbn. field. }
  destruct HT as (T & HT & VT).
  assert (Pb : (0 < 1 + coupon_rate a / 100 / IZR n)%R). { apply Rplus_lt_le_0_compat; [lra|]. apply Rmult_le_pos; [lra|left; apply Rinv_0_lt_compat; exact Nr]. }
  assert (Par : discount_cashflows_by_fixed_rate b (coupon_rate a / 100) (Some ref) = Ok (principal a)).
  { rewrite (C105_value_at_coupon_rate a b t m ref sd T B O D Te Pe Dc Un Or S Lm ltac:(nia) HT Pb). apply (f_equal Ok).
    assert (El : List.length (filter (fun p => sd <=? bp_unadjusted p) (coupons b)) = Z.to_nat j).
    { transitivity (List.length (filter (fun x => sd <=? x) (unadjusted b))). { unfold unadjusted. clear. induction (coupons b) as [|p cs IH]; [reflexivity|]. cbn [filter List.map]. destruct (sd <=? bp_unadjusted p); cbn [List.length]; rewrite IH; reflexivity. }
      rewrite (Permutation_length (perm_filter _ _ _ Pm)).
      assert (Fp : filter (fun x => sd <=? x) l = firstn (List.length (filter (fun x => sd <=? x) l)) l) by (apply filter_prefix; intros i i' x y Li Hx Hy Ly; apply Z.leb_le in Ly; apply Z.leb_le; pose proof (grid_nth_order a t m ltac:(lia) l Mp N i i' x y Li Hx Hy); lia).
      set (k := List.length (filter (fun x => sd <=? x) l)) in *. assert (Lk : (k <= List.length l)%nat) by (unfold k; clear; induction l as [|x l IH]; cbn; [lia|]; destruct (sd <=? x); cbn; lia).
      assert (In1 : forall i x, nth_error l i = Some x -> (sd <= x <-> (i < k)%nat)).
      { intros i x Hx. split; intros H.
        - assert (I : In x (firstn k l)) by (rewrite <- Fp; apply filter_In; split; [eapply nth_error_In; exact Hx|apply Z.leb_le; exact H]). apply In_nth_error in I. destruct I as [i' Hi'].
          assert (Li' : (i' < k)%nat) by (assert (X : (i' < List.length (firstn k l))%nat) by (apply nth_error_Some; congruence); rewrite firstn_length in X; lia).
          assert (Hi2 : nth_error l i' = Some x) by (rewrite <- (firstn_skipn k l), nth_error_app1 by (rewrite firstn_length; lia); exact Hi').
          destruct (Nat.lt_trichotomy i i') as [Q|[->|Q]]; [lia|exact Li'|]. pose proof (grid_nth_order a t m ltac:(lia) l Mp N i' i x x Q Hi2 Hx). lia.
        - assert (I : In x (firstn k l)) by (apply nth_error_In with i; rewrite <- Hx; rewrite <- (firstn_skipn k l) at 2; rewrite nth_error_app1 by (rewrite firstn_length; lia); reflexivity).
          rewrite <- Fp in I. apply filter_In in I. destruct I as [_ I]. lia. }
      destruct (Ok' (j - 1) ltac:(lia)) as (x1 & H1 & L1). assert (N1 : nth_error l (Z.to_nat (j - 1)) = Some x1) by (apply N; rewrite Z2Nat.id by lia; repeat split; auto; nia).
      pose proof (proj1 (In1 _ _ N1) (L1 ltac:(lia))) as K1. destruct (Nat.eq_dec k (Z.to_nat j)) as [E|Ne]; [exact E|exfalso].
      assert (Kj : (Z.to_nat j < k)%nat) by lia. destruct (nth_error l (Z.to_nat j)) as [x|] eqn:Hx; [|apply nth_error_None in Hx; lia].
      pose proof (proj2 (In1 _ _ Hx) Kj) as Lx. apply N in Hx. rewrite Z2Nat.id in Hx by lia. destruct Hx as (_ & _ & Hx). rewrite Hr in Hx. injection Hx as <-. lia. }
    rewrite El, VT, INR_IZR_INZ, Z2Nat.id by lia. fold n. replace (IZR j - IZR n * (IZR (j * m) / 12))%R with 0%R.
    - rewrite Rpower_O by exact Pb. ring.
    - rewrite mult_IZR. assert (Mr : (IZR m * IZR n = 12)%R) by (rewrite <- mult_IZR, Mn; reflexivity). replace (IZR n * (IZR j * IZR m / 12))%R with (IZR j * (IZR m * IZR n) / 12)%R by field. rewrite Mr. field. }
  split; [exact Par|].
  assert (Ord : ordinary a b ref).
  { split; [exact B|]. split; [exact Np|]. split; [exact Cp|]. split; [exact Pp|]. split; [exact O|]. split; [split; [exact Or|lia]|]. split.
    - intros p _. right. assert (Dr : day ref <= 27) by (destruct (add_months_parts _ _ _ Hr) as (_ & _ & Dx); lia). intros (_ & _ & [(_ & X & _)|[X _]]); lia.
    - intros sd' S'. rewrite S in S'. injection S' as <-. exact Lm. }
  intros y v Py Hv. destruct (Rtotal_order y (coupon_rate a / 100)) as [L|[->|L]].
  - pose proof (C39_decreasing a b ref y _ v (principal a) Ord Py L Hv Par). repeat split; intros; lra.
  - rewrite Par in Hv. injection Hv as <-. repeat split; intros; lra.
  - pose proof (C39_decreasing a b ref _ y (principal a) v Ord Pb L Par Hv). repeat split; intros; lra.
Qed.
Print Assumptions C105_par.

(** a two-year 5% note maturing 15 May 2025, all payments on business days, valued a year before maturity *)
Definition par_note (c : dcc) : bond_args := BondArgs UsTreasury 99 5 100 (Years 2) (ymd2ord 2023 9 1) (ymd2ord 2025 5 15) T_PLUS_ONE_BUSINESS SEMI_ANNUAL c FOLLOWING US_FEDERAL_HOLIDAYS.
Example C105_case : exists b ref sd, new_bond (par_note THIRTY360) = Ok b /\ mk_date 2024 5 15 = Ok ref /\ unmoved b /\ add_months (maturity_date (par_note THIRTY360)) (- (2 * 6)) = Ok ref /\
  add_business_days ref 1 (b_cal (par_note THIRTY360)) = Ok sd /\ (forall x, add_months (maturity_date (par_note THIRTY360)) (- ((2 - 1) * 6)) = Ok x -> sd <= x) /\
  List.length (coupons b) = 4%nat /\ discount_cashflows_by_fixed_rate b (5 / 100) (Some ref) = Ok 100%R.
Proof.
  assert (B : exists b, new_bond (par_note THIRTY360) = Ok b /\ unmoved b /\ List.length (coupons b) = 4%nat).
  { eexists. split; [build_bond|]. split; [|reflexivity]. intros p. cbn [coupons In]. intuition (subst; reflexivity). }
  destruct B as (b & B & Un & Lc). exists b, (ymd2ord 2024 5 15), (ymd2ord 2024 5 16). 
  assert (S : add_business_days (ymd2ord 2024 5 15) 1 (b_cal (par_note THIRTY360)) = Ok (ymd2ord 2024 5 16)) by (vm_compute; reflexivity).
  assert (Nx : forall x, add_months (maturity_date (par_note THIRTY360)) (- ((2 - 1) * 6)) = Ok x -> ymd2ord 2024 5 16 <= x).
  { intros x Hx. assert (E : add_months (maturity_date (par_note THIRTY360)) (- ((2 - 1) * 6)) = Ok (ymd2ord 2024 11 15)) by (vm_compute; reflexivity). rewrite E in Hx. injection Hx as <-. vm_compute. discriminate. }
  assert (Hr : add_months (maturity_date (par_note THIRTY360)) (- (2 * 6)) = Ok (ymd2ord 2024 5 15)) by (vm_compute; reflexivity).
  split; [exact B|]. split; [vm_compute; reflexivity|]. split; [exact Un|]. split; [exact Hr|]. split; [exact S|]. split; [exact Nx|]. split; [exact Lc|].
  destruct (C105_par (par_note THIRTY360) b 24 6 2 (ymd2ord 2024 5 15) (ymd2ord 2024 5 16) B) as [P _]; auto; try reflexivity; try (vm_compute; congruence); try lia; try (cbn; lra).
  vm_compute. split; discriminate.
Qed.

(** Under Actual/Actual (the Treasury convention) half a year is not exactly half: on a coupon date the value at the coupon
    rate is not par. *)
Theorem C105_actual_refuted : exists b ref v, new_bond (par_note ACTACT) = Ok b /\ mk_date 2024 11 15 = Ok ref /\ unmoved b /\ In ref (unadjusted b) /\
  discount_cashflows_by_fixed_rate b (coupon_rate (par_note ACTACT) / 100) (Some ref) = Ok v /\ (v > principal (par_note ACTACT))%R.
Proof.
  assert (B : exists b, new_bond (par_note ACTACT) = Ok b /\ unmoved b /\ In (ymd2ord 2024 11 15) (unadjusted b) /\
    remaining b (ymd2ord 2024 11 18) = [BondPayment (ymd2ord 2025 5 15) (100 * 5 / (100 * 2))%R (ymd2ord 2025 5 15); BondPayment (ymd2ord 2025 5 15) 100 (ymd2ord 2025 5 15)]).
  { eexists. split; [build_bond|]. split; [intros p; cbn [coupons In]; intuition (subst; reflexivity)|]. split; [vm_compute; auto|]. reflexivity. }
  destruct B as (b & B & Un & I & Rm). destruct (compute_accrual_length (Day (ymd2ord 2024 11 15)) (Day (ymd2ord 2025 5 15)) ACTACT) as [q|] eqn:Q; [|vm_compute in Q; discriminate].
  assert (Hq : (2 * Q2R q < 1)%R). { assert (X : (2 * q < 1)%Q) by (vm_compute in Q; injection Q as <-; vm_compute; reflexivity). apply Qlt_Rlt in X. rewrite Q2R_mult in X. unfold Q2R in X at 1 3. cbn in X. lra. }
  assert (Fl : remaining_flows b (ymd2ord 2024 11 15) (ymd2ord 2024 11 18) [((100 * 5 / (100 * 2))%R, Q2R q); (100%R, Q2R q)]).
  { destruct (new_bond_inv _ _ B) as (Ea & _). unfold remaining_flows. rewrite Rm, Ea. repeat constructor; cbn [fst snd bp_amount bp_date]; exists q; split; auto. }
  assert (S : add_business_days (ymd2ord 2024 11 15) 1 (b_cal (par_note ACTACT)) = Ok (ymd2ord 2024 11 18)) by (vm_compute; reflexivity).
  assert (Pb : (0 < 1 + coupon_rate (par_note ACTACT) / 100 / IZR (per_year (freq (par_note ACTACT))))%R) by (cbn; lra).
  exists b, (ymd2ord 2024 11 15). eexists. split; [exact B|]. split; [vm_compute; reflexivity|]. split; [exact Un|]. split; [exact I|]. split; [exact (value_intro (par_note ACTACT) b _ _ B eq_refl Pb _ _ S Fl)|].
  unfold fixed_rate_price. cbn [List.map fst snd freq par_note per_year coupon_rate principal]. rewrite !rsum_cons, rsum_nil.
  assert (Lt : (Rpower (1 + 5 / 100 / 2) (Q2R q * 2) < 1 + 5 / 100 / 2)%R). { rewrite <- (Rpower_1 (1 + 5 / 100 / 2)) at 2 by lra. apply Rpower_lt; lra. }
  set (X := Rpower (1 + 5 / 100 / 2) (Q2R q * 2)) in *. assert (X0 : (0 < X)%R) by apply exp_pos. 
  replace (100 * 5 / (100 * 2) / X + (100 / X + 0))%R with (205 / 2 * / X)%R by (field; lra). apply Rlt_gt. apply (Rmult_lt_reg_r X _ _ X0). rewrite Rmult_assoc, Rinv_l by lra. lra.
Qed.
Print Assumptions C105_actual_refuted.
