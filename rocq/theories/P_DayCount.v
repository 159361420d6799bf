(** Property theorems C01-C06 (day counts).  Statements only use the model of the code (DayCount.v, PyDate.v), the
    calendar specification (CalendarSpec.v) and standard arithmetic. *)
From Verif Require Import Base PyDate PyDateFacts DayCount DayCountFacts CalendarSpec UsFacts.
From Coq Require Import Qabs.
Open Scope Z_scope.

(** The three conventions dividing elapsed days by a constant. *)
Definition actual_over : list (dcc * Q) := [(ACT360, 360 # 1); (ACT365, 365 # 1); (ACT365_25, 1461 # 4)].

Lemma actual_over_basis c N : In (c, N) actual_over -> act_basis c = Some N.
Proof. cbn. intuition (match goal with H : _ = _ |- _ => injection H as <- <- end; reflexivity). Qed.

(** Dates are calendar dates: the ordinals used below advance by one exactly when the calendar advances one day, and
    distinct dates have distinct (year, month, day). *)
Theorem C01_dates_are_calendar_days : forall d : date,
  next_day (year d, month d, day d) (year (d + 1), month (d + 1), day (d + 1)).
Proof. exact calendar_succ. Qed.
Print Assumptions C01_dates_are_calendar_days.

Theorem C01_date_determined_by_parts : forall d d' : date,
  year d = year d' -> month d = month d' -> day d = day d' -> d = d'.
Proof. intros. apply date_ext; auto. Qed.
Print Assumptions C01_date_determined_by_parts.

Example C01_first_date : mk_date 1 1 1 = Ok min_date /\ mk_date 9999 12 31 = Ok max_date.
Proof. split; vm_compute; reflexivity. Qed.

Theorem C01_actual_exact : forall c N s e, In (c, N) actual_over -> s <= e ->
  exists q, compute_accrual_length (Day s) (Day e) c = Ok q /\ (q == inject_Z (e - s) / N)%Q.
Proof. intros c N s e H. apply act_exact. apply actual_over_basis; auto. Qed.
Print Assumptions C01_actual_exact.

Theorem C01_actual_laws : forall c N a b d q1 q2 q3, In (c, N) actual_over -> a <= b -> b <= d ->
  compute_accrual_length (Day a) (Day b) c = Ok q1 ->
  compute_accrual_length (Day b) (Day d) c = Ok q2 ->
  compute_accrual_length (Day a) (Day d) c = Ok q3 ->
  (q1 + q2 == q3)%Q /\ ((q1 == 0)%Q <-> a = b) /\ (b < d -> (q1 < q3)%Q).
Proof. intros c N a b d q1 q2 q3 H. apply act_laws with (N := N). apply actual_over_basis; auto. Qed.
Print Assumptions C01_actual_laws.

(** 2023-01-31, 2023-03-01 *)
Example C01_case : mk_date 2023 1 31 = Ok 738551 /\ mk_date 2023 3 1 = Ok 738580 /\
  compute_accrual_length (Day 738551) (Day 738580) ACT360 = Ok (29 # 360)%Q.
Proof. vm_compute. auto. Qed.

(** C02 *)
Theorem C02_actual_actual_laws : forall a b d q1 q2 q3,
  date_ok a -> date_ok b -> date_ok d -> 2 <= year a -> a <= b -> b <= d ->
  compute_accrual_length (Day a) (Day b) ACTACT = Ok q1 ->
  compute_accrual_length (Day b) (Day d) ACTACT = Ok q2 ->
  compute_accrual_length (Day a) (Day d) ACTACT = Ok q3 ->
  (q1 + q2 == q3)%Q /\ ((q1 == 0)%Q <-> a = b) /\ (b < d -> (q1 < q3)%Q).
Proof. exact actact_laws. Qed.
Print Assumptions C02_actual_actual_laws.

Theorem C02_actual_actual_defined : forall s e, date_ok s -> date_ok e -> s <= e ->
  (2 <= year s -> exists q, compute_accrual_length (Day s) (Day e) ACTACT = Ok q) /\
  (year s = 1 -> compute_accrual_length (Day s) (Day e) ACTACT = Err ValueError).
Proof.
  intros s e Os Oe L. split; intros Y.
  - destruct (compute_actact s e Os Oe Y L) as [q [H _]]. eauto.
  - apply actact_year_one; auto.
Qed.
Print Assumptions C02_actual_actual_defined.

(** n whole years between the same day of two years of equal length count exactly n; in particular always between
    1 January (or 31 December) of any two years of equal length, and 31 December to 31 December of any years. *)
Theorem C02_whole_years : forall s e n, date_ok s -> date_ok e -> 2 <= year s -> 0 <= n -> year e = year s + n ->
  month e = month s -> day e = day s -> (leap_year (year e) <-> leap_year (year s)) ->
  exists q, compute_accrual_length (Day s) (Day e) ACTACT = Ok q /\ (q == inject_Z n)%Q.
Proof.
  intros s e n Os Oe Y Hn Ye M D L.
  assert (LL : is_leap (year e) = is_leap (year s)).
  { rewrite !leap_year_is_leap in L. destruct (is_leap (year e)), (is_leap (year s)); intuition congruence. }
  apply actact_same_day; auto.
  - pose proof (date_parts s) as (_ & _ & _ & E1). pose proof (date_parts e) as (_ & _ & _ & E2).
    rewrite E1, E2, M, D. unfold days_before_month. rewrite LL. reflexivity.
  - unfold yearlen. rewrite LL. reflexivity.
Qed.
Print Assumptions C02_whole_years.

Theorem C02_year_ends : forall y n, 2 <= y -> 0 <= n -> y + n <= 9999 ->
  exists s e q, mk_date y 12 31 = Ok s /\ mk_date (y + n) 12 31 = Ok e /\
  compute_accrual_length (Day s) (Day e) ACTACT = Ok q /\ (q == inject_Z n)%Q.
Proof.
  intros y n Hy Hn Hyn. destruct (actact_dec31 y n Hy Hn Hyn) as [q [H1 H2]].
  exists (ymd2ord y 12 31), (ymd2ord (y + n) 12 31), q. repeat split; auto; apply mk_date_ok; (split; [|reflexivity]);
  repeat split; try lia; unfold days_in_month, dim_l; lia.
Qed.
Print Assumptions C02_year_ends.

(** From 1 January to the next 1 January the accrual is not 1 when exactly one of the two years is a leap year. *)
Theorem C02_january_first_refuted : exists s e q, mk_date 2023 1 1 = Ok s /\ mk_date 2024 1 1 = Ok e /\
  compute_accrual_length (Day s) (Day e) ACTACT = Ok q /\ ~ (q == 1)%Q.
Proof. do 3 eexists. split; [vm_compute; reflexivity|]. split; [vm_compute; reflexivity|]. split; [vm_compute; reflexivity|]. intros H. vm_compute in H. discriminate. Qed.
Print Assumptions C02_january_first_refuted.

Example C02_case : exists s e q, mk_date 2020 2 29 = Ok s /\ mk_date 2024 2 29 = Ok e /\
  compute_accrual_length (Day s) (Day e) ACTACT = Ok q /\ (q == 4)%Q.
Proof. do 3 eexists. split; [vm_compute; reflexivity|]. split; [vm_compute; reflexivity|]. split; [vm_compute; reflexivity|]. vm_compute. reflexivity. Qed.

(** C03.  Independent statement of the day substitution rules (documented in the function). *)
Definition thirty_days_between (y1 m1 d1 y2 m2 d2 : Z) : Z :=
  let feb1 := (m1 =? 2) && (d1 =? 28) in
  let feb2 := (m2 =? 2) && (d2 =? 28) in
  let d2' := if feb1 && feb2 then 30 else d2 in
  let d1' := if feb1 then 30 else d1 in
  let d2'' := if (d2' =? 31) && (30 <=? d1') then 30 else d2' in
  let d1'' := Z.min 30 d1' in
  360 * (y2 - y1) + 30 * (m2 - m1) + (d2'' - d1'').

Theorem C03_value : forall s e, s <= e ->
  exists q, compute_accrual_length (Day s) (Day e) THIRTY360 = Ok q /\
  (q == inject_Z (thirty_days_between (year s) (month s) (day s) (year e) (month e) (day e)) / 360)%Q.
Proof.
  intros s e L. destruct (thirty_value s e L) as [q [H1 H2]]. exists q. split; auto. rewrite H2.
  replace (days_30_360 s e) with (thirty_days_between (year s) (month s) (day s) (year e) (month e) (day e)); [reflexivity|].
  pose proof (day_bounds s) as ([A B] & _ & _).
  unfold thirty_days_between, days_30_360. cbv zeta.
  destruct ((month s =? 2) && (day s =? 28)); cbn [andb].
  - destruct ((month e =? 2) && (day e =? 28)); reflexivity.
  - destruct (day s =? 31) eqn:E1; destruct (day s =? 30) eqn:E2; destruct (day e =? 31) eqn:E3; cbn [andb orb];
    destruct (30 <=? day s) eqn:E4; lia.
Qed.
Print Assumptions C03_value.

Theorem C03_sign : forall s e q, s <= e -> compute_accrual_length (Day s) (Day e) THIRTY360 = Ok q ->
  ((q < 0)%Q <-> year s = year e /\ month s = 2 /\ month e = 2 /\ day s = 28 /\ day e = 29) /\
  ((q == 0)%Q <-> s = e \/ (year s = year e /\ month s = month e /\ day s = 30 /\ day e = 31)).
Proof.
  intros s e q L H. destruct (thirty_value s e L) as [q' [H1 H2]]. rewrite H in H1. injection H1 as <-.
  rewrite H2. pose proof (thirty_nonneg s e L) as N. pose proof (thirty_zero s e L) as Zr.
  split.
  - transitivity (days_30_360 s e < 0); [|rewrite N; tauto].
    unfold Qlt, Qdiv, Qmult, inject_Z; cbn. lia.
  - transitivity (days_30_360 s e = 0); [|rewrite Zr; tauto].
    unfold Qeq, Qdiv, Qmult, inject_Z; cbn. lia.
Qed.
Print Assumptions C03_sign.

Theorem C03_months : forall s e k, day s <= 27 -> add_months s k = Ok e -> 0 <= k -> s <= e /\
  exists q, compute_accrual_length (Day s) (Day e) THIRTY360 = Ok q /\ (q == inject_Z k / 12)%Q.
Proof. exact thirty_months. Qed.
Print Assumptions C03_months.

(** The accrual through an intermediate date adds up in exactly these cases. *)
Definition feb28 (d : date) : Prop := month d = 2 /\ day d = 28.
Definition treated_as_30 (d : date) : Prop := feb28 d \/ day d = 30 \/ day d = 31.
Definition feb28b (d : date) : bool := (month d =? 2) && (day d =? 28).
Definition start_day (f : bool) (d : Z) : Z := if f then 30 else Z.min 30 d.
Definition end_day (f : bool) (d : Z) (f' : bool) (d' : Z) : Z := if f && f' then 30 else if (f || (30 <=? d)) && (d' =? 31) then 30 else d'.
Lemma thirty_split s e : days_30_360 s e = 360 * (year e - year s) + 30 * (month e - month s) + (end_day (feb28b s) (day s) (feb28b e) (day e) - start_day (feb28b s) (day s)).
Proof.
  pose proof (day_bounds s) as (Bs & _). unfold days_30_360, end_day, start_day. fold (feb28b s) (feb28b e). cbv zeta. destruct (feb28b s) eqn:Fs; [destruct (feb28b e); cbn [andb orb]; [reflexivity|destruct (day e =? 31); reflexivity]|]. cbn [andb orb].
  destruct (day e =? 31); cbn [andb]; rewrite ?andb_true_r, ?andb_false_r; destruct (Z.eqb_spec (day s) 31), (Z.eqb_spec (day s) 30), (Z.leb_spec 30 (day s)); cbn [orb]; lia.
Qed.
Lemma thirty_defect fa da fb db fc dc : 1 <= da <= 31 -> 1 <= db <= 31 -> 1 <= dc <= 31 -> (fa = true -> da = 28) -> (fb = true -> db = 28) -> (fc = true -> dc = 28) ->
  (end_day fa da fb db - start_day fa da + (end_day fb db fc dc - start_day fb db) = end_day fa da fc dc - start_day fa da <->
   (fb = true -> fa = true \/ fc = true) /\ (db = 31 -> (fa = true \/ da = 30 \/ da = 31) \/ dc = 31) /\ (fa = true -> fc = true -> fb = true) /\
   (dc = 31 -> ((fa = true \/ da = 30 \/ da = 31) -> (fb = true \/ db = 30 \/ db = 31)) /\ ((fb = true \/ db = 30 \/ db = 31) -> (fa = true \/ da = 30 \/ da = 31) \/ db = 31))).
Proof.
  intros Ba Bb Bc Ha Hb Hc.
  assert (T : forall f d, 1 <= d <= 31 -> ((f = true \/ d = 30 \/ d = 31) <-> f || (30 <=? d) = true)) by (intros f d B; rewrite orb_true_iff, Z.leb_le; split; (intros [H|H]; [left; exact H|right; lia])).
  rewrite !(T _ _ Ba), !(T _ _ Bb), <- !(Z.eqb_eq _ 31).
  assert (A1 : end_day fa da fb db - start_day fb db = if fb then if fa then 0 else -2 else if db =? 31 then if fa || (30 <=? da) then 0 else 1 else 0).
  { unfold end_day, start_day. destruct fb; [rewrite (Hb eq_refl); destruct fa; [reflexivity|]; destruct (30 <=? da); reflexivity|]. rewrite andb_false_r. destruct (Z.eqb_spec db 31); [rewrite andb_true_r; destruct (fa || _); lia|rewrite andb_false_r; lia]. }
  assert (A2 : end_day fb db fc dc - end_day fa da fc dc = if fc then (if fb then 2 else 0) - (if fa then 2 else 0) else if dc =? 31 then (if fa || (30 <=? da) then 1 else 0) - (if fb || (30 <=? db) then 1 else 0) else 0).
  { unfold end_day. destruct fc; [rewrite (Hc eq_refl); destruct fa, fb, (30 <=? da), (30 <=? db); reflexivity|]. rewrite !andb_false_r. destruct (Z.eqb_spec dc 31); [rewrite !andb_true_r; destruct (fa || _), (fb || _); lia|rewrite !andb_false_r; lia]. }
  match type of A1 with _ = ?x => match type of A2 with _ = ?y => transitivity (x + y =? 0 = true); [rewrite Z.eqb_eq, <- A1, <- A2; lia|] end end. clear A1 A2 T.
  assert (C1 : fc = true -> dc =? 31 = false) by (intros X; rewrite (Hc X); reflexivity). assert (C2 : fb = true -> db =? 31 = false /\ 30 <=? db = false) by (intros X; rewrite (Hb X); split; reflexivity). assert (C3 : db =? 31 = true -> 30 <=? db = true) by (rewrite Z.eqb_eq, Z.leb_le; lia).
  clear Ha Hb Hc Ba Bb Bc. generalize dependent (dc =? 31). generalize dependent (db =? 31). generalize dependent (30 <=? db). generalize (30 <=? da). intros ta tb b31 C2 C3 c31 C1.
  rewrite <- ?orb_true_iff, <- ?implb_true_iff, <- ?orb_true_iff, <- ?andb_true_iff, <- ?implb_true_iff, <- ?andb_true_iff.
  destruct c31; [destruct fc; [discriminate (C1 eq_refl)|]|]; (destruct fb; [destruct (C2 eq_refl) as [-> ->]|destruct b31; [rewrite (C3 eq_refl)|]]); clear; try destruct fc; destruct fa, ta; try destruct tb; vm_compute; split; intros; congruence.
Qed.
Theorem C03_additive : forall a b c q1 q2 q3, a <= b -> b <= c ->
  compute_accrual_length (Day a) (Day b) THIRTY360 = Ok q1 ->
  compute_accrual_length (Day b) (Day c) THIRTY360 = Ok q2 ->
  compute_accrual_length (Day a) (Day c) THIRTY360 = Ok q3 ->
  ((q1 + q2 == q3)%Q <->
     (feb28 b -> feb28 a \/ feb28 c) /\ (day b = 31 -> treated_as_30 a \/ day c = 31) /\
     (feb28 a -> feb28 c -> feb28 b) /\ (day c = 31 -> (treated_as_30 a -> treated_as_30 b) /\ (treated_as_30 b -> treated_as_30 a \/ day b = 31))).
Proof.
  intros a b c q1 q2 q3 H1 H2 E1 E2 E3.
  destruct (thirty_value a b H1) as (x1 & X1 & Y1). rewrite E1 in X1. injection X1 as <-.
  destruct (thirty_value b c H2) as (x2 & X2 & Y2). rewrite E2 in X2. injection X2 as <-.
  destruct (thirty_value a c (Z.le_trans _ _ _ H1 H2)) as (x3 & X3 & Y3). rewrite E3 in X3. injection X3 as <-.
  rewrite Y1, Y2, Y3. transitivity (days_30_360 a b + days_30_360 b c = days_30_360 a c).
  { unfold Qeq, Qdiv, Qmult, Qplus, inject_Z. cbn. lia. }
  clear E1 E2 E3 Y1 Y2 Y3 H1 H2 q1 q2 q3. rewrite !thirty_split.
  assert (Fb : forall d, feb28b d = true <-> feb28 d) by (intros d; unfold feb28b, feb28; rewrite andb_true_iff, !Z.eqb_eq; tauto).
  assert (F28 : forall d, feb28b d = true -> day d = 28) by (intros d H; apply Fb in H; apply H).
  unfold treated_as_30. rewrite <- !Fb. rewrite <- (thirty_defect (feb28b a) (day a) (feb28b b) (day b) (feb28b c) (day c) (proj1 (day_bounds a)) (proj1 (day_bounds b)) (proj1 (day_bounds c)) (F28 a) (F28 b) (F28 c)). lia.
Qed.
Print Assumptions C03_additive.

(** 2024-02-28 -> 2024-02-29 is negative; 30/360 is not additive through 2023-01-31 .. 2023-02-28 .. 2023-03-31. *)
Theorem C03_nonnegative_refuted : exists s e, mk_date 2024 2 28 = Ok s /\ mk_date 2024 2 29 = Ok e /\ s < e /\
  exists q, compute_accrual_length (Day s) (Day e) THIRTY360 = Ok q /\ (q < 0)%Q.
Proof.
  do 2 eexists. split; [vm_compute; reflexivity|]. split; [vm_compute; reflexivity|]. split; [lia|].
  eexists. split; [vm_compute; reflexivity|]. reflexivity.
Qed.
Print Assumptions C03_nonnegative_refuted.

Theorem C03_additivity_refuted : exists a b c q1 q2 q3, mk_date 2023 1 15 = Ok a /\ mk_date 2023 2 28 = Ok b /\ mk_date 2023 3 15 = Ok c /\
  compute_accrual_length (Day a) (Day b) THIRTY360 = Ok q1 /\ compute_accrual_length (Day b) (Day c) THIRTY360 = Ok q2 /\
  compute_accrual_length (Day a) (Day c) THIRTY360 = Ok q3 /\ ~ (q1 + q2 == q3)%Q.
Proof.
  do 6 eexists. do 6 (split; [vm_compute; reflexivity|]). intros H. vm_compute in H. discriminate.
Qed.
Print Assumptions C03_additivity_refuted.

Example C03_case : exists s e, mk_date 2021 11 15 = Ok s /\ mk_date 2022 2 15 = Ok e /\ add_months s 3 = Ok e /\
  exists q, compute_accrual_length (Day s) (Day e) THIRTY360 = Ok q /\ (q == 1 # 4)%Q.
Proof. do 2 eexists. do 3 (split; [vm_compute; reflexivity|]). eexists. split; vm_compute; reflexivity. Qed.

(** C04.  [elapsed s e] is the signed time from s to e in microseconds (a date meaning its midnight). *)
Theorem C04_inverted_rejected : forall s e c, elapsed s e < 0 -> compute_accrual_length s e c = Err ValueError.
Proof. intros s e c H. apply inverted. unfold elapsed in H. lia. Qed.
Print Assumptions C04_inverted_rejected.

(** Conversely an ordered pair never fails on account of ordering: only Actual/Actual in year 1 and timestamps on the
    last representable day do fail. *)
Theorem C04_ordered_accepted : forall s e c, moment_ok s -> moment_ok e -> not_last s -> not_last e ->
  (c = ACTACT -> year2 s /\ year2 e) -> 0 <= elapsed s e ->
  exists q, compute_accrual_length s e c = Ok q.
Proof.
  intros s e c Os Oe Ns Ne Y L. destruct c.
  - destruct (stamp_act_exact ACT360 _ s e eq_refl Os Oe Ns Ne L) as [q [H _]]; eauto.
  - destruct (stamp_act_exact ACT365 _ s e eq_refl Os Oe Ns Ne L) as [q [H _]]; eauto.
  - destruct (stamp_act_exact ACT365_25 _ s e eq_refl Os Oe Ns Ne L) as [q [H _]]; eauto.
  - destruct (Y eq_refl) as [Ys Ye]. destruct (stamp_actact s e Os Oe Ns Ne Ys Ye L) as [q [H _]]; eauto.
  - unfold compute_accrual_length, check_dates. replace (dt_abs (to_datetime s) <=? dt_abs (to_datetime e)) with true by (unfold elapsed in L; lia).
    cbn [negb]. destruct s as [s|[s us]], e as [e|[e ue]]; cbn [include_datetimes dt_date]; unfold dcc_30_over_360; cbn [moment_ok not_last dt_date datetime_ok] in *;
    try (destruct Os as [Os _]); try (destruct Oe as [Oe _]); cbn [dt_date] in *;
    rewrite ?add_days_1 by auto; cbn [bind]; eauto.
Qed.
Print Assumptions C04_ordered_accepted.

Example C04_case : compute_accrual_length (Stamp (DT 738551 5)) (Day 738551) THIRTY360 = Err ValueError /\
  elapsed (Stamp (DT 738551 5)) (Day 738551) = -5.
Proof. vm_compute. auto. Qed.

(** C05 *)
Theorem C05_timestamps_exact : forall c N s e, In (c, N) actual_over ->
  moment_ok s -> moment_ok e -> not_last s -> not_last e -> 0 <= elapsed s e ->
  exists q, compute_accrual_length s e c = Ok q /\ (q == (inject_Z (elapsed s e) / 1000000) / (86400 * N))%Q.
Proof. intros c N s e H. apply stamp_act_exact. apply actual_over_basis; auto. Qed.
Print Assumptions C05_timestamps_exact.

Theorem C05_timestamps_additive : forall c N a b d q1 q2 q3, In (c, N) actual_over ->
  moment_ok a -> moment_ok b -> moment_ok d -> not_last a -> not_last b -> not_last d ->
  compute_accrual_length a b c = Ok q1 ->
  compute_accrual_length b d c = Ok q2 ->
  compute_accrual_length a d c = Ok q3 -> (q1 + q2 == q3)%Q.
Proof. intros c N a b d q1 q2 q3 H. apply stamp_act_laws with (N := N). apply actual_over_basis; auto. Qed.
Print Assumptions C05_timestamps_additive.

Theorem C05_midnight : forall c N s e q q', In (c, N) actual_over -> date_ok s -> date_ok e -> s < max_date -> e < max_date -> s <= e ->
  compute_accrual_length (Stamp (DT s 0)) (Stamp (DT e 0)) c = Ok q ->
  compute_accrual_length (Day s) (Day e) c = Ok q' -> (q == q')%Q.
Proof.
  intros c N s e q q' H Os Oe Ls Le L E1 E2.
  destruct (C01_actual_exact c N s e H L) as [x [X1 X2]]. rewrite E2 in X1. injection X1 as <-. rewrite X2.
  destruct (C05_timestamps_exact c N (Stamp (DT s 0)) (Stamp (DT e 0)) H) as [y [Y1 Y2]]; auto;
    try (split; [auto|cbn; unfold us_per_day; lia]).
  { unfold elapsed, dt_abs, us_per_day. cbn. lia. }
  rewrite E1 in Y1. injection Y1 as <-. rewrite Y2.
  replace (elapsed (Stamp (DT s 0)) (Stamp (DT e 0))) with ((e - s) * us_per_day) by (unfold elapsed, dt_abs; cbn [to_datetime dt_date dt_us]; lia).
  rewrite inject_Z_mult. cbn in H. assert (0 < N)%Q.
  { apply (act_basis_pos c). apply actual_over_basis; auto. }
  unfold us_per_day. field. intros C. rewrite C in H0. discriminate.
Qed.
Print Assumptions C05_midnight.

(** 6 hours inside one day, 1/4 day *)
Example C05_case : exists q, compute_accrual_length (Stamp (DT 738551 0)) (Stamp (DT 738551 21600000000)) ACT365 = Ok q /\ (q == 1 # 1460)%Q.
Proof. eexists. split; vm_compute; reflexivity. Qed.

(** C06.  There is a clock, agreeing with the date-only Actual/Actual accruals and linear between successive
    midnights, from whose differences the timestamp accruals never deviate by more than 1/267180 year (about two
    minutes), and not at all between ends whose years have the same length or when one end is a plain date. *)
Theorem C06_timestamps_actual_actual : exists clock : moment -> Q,
  (forall s e q, date_ok s -> date_ok e -> 2 <= year s -> s <= e -> compute_accrual_length (Day s) (Day e) ACTACT = Ok q ->
     (q == clock (Day e) - clock (Day s))%Q) /\
  (forall d us, clock (Stamp (DT d us)) == clock (Day d) + (inject_Z us / inject_Z us_per_day) * (clock (Day (d + 1)%Z) - clock (Day d)))%Q /\
  (forall s e, moment_ok s -> moment_ok e -> not_last s -> not_last e -> year2 s -> year2 e -> 0 <= elapsed s e ->
   exists q, compute_accrual_length s e ACTACT = Ok q /\
    (Qabs (q - (clock e - clock s)) <= 1 # 267180)%Q /\
    (end_len s = end_len e \/ is_stamp s && is_stamp e = false -> (q == clock e - clock s)%Q)).
Proof.
  exists aa_clock_t. split; [|split].
  - intros s e q Os Oe Y L H. destruct (compute_actact s e Os Oe Y L) as [x [X1 X2]]. rewrite H in X1. injection X1 as <-. exact X2.
  - intros d us. cbn [aa_clock_t dt_date dt_us]. rewrite aa_clock_succ. field. split.
    + apply inject_nz. pose proof (yearlen_pos (year (d + 1))). lia.
    + intros C. discriminate C.
  - intros s e Os Oe Ns Ne Ys Ye L. destruct (stamp_actact s e Os Oe Ns Ne Ys Ye L) as [q [H1 H2]].
    exists q. split; auto. split.
    + setoid_replace (q - (aa_clock_t e - aa_clock_t s))%Q with (aa_error s e) by (rewrite H2; ring). apply aa_error_bound; auto.
    + intros [S|S]; rewrite H2.
      * rewrite (aa_error_same s e S). ring.
      * unfold aa_error. rewrite S. ring.
Qed.
Print Assumptions C06_timestamps_actual_actual.

(** Two midnight timestamps need not get the accrual of the two dates: 2023-06-01 to 2024-06-01. *)
Theorem C06_midnight_refuted : exists s e q q', mk_date 2023 6 1 = Ok s /\ mk_date 2024 6 1 = Ok e /\
  compute_accrual_length (Day s) (Day e) ACTACT = Ok q /\
  compute_accrual_length (Stamp (DT s 0)) (Stamp (DT e 0)) ACTACT = Ok q' /\ ~ (q == q')%Q.
Proof. do 4 eexists. do 4 (split; [vm_compute; reflexivity|]). intros H. vm_compute in H. discriminate. Qed.
Print Assumptions C06_midnight_refuted.
