(** Proofs about the day count model. *)
From Verif Require Import Base PyDate PyDateFacts DayCount.
From Coq Require Import Qabs Qfield.
Open Scope Z_scope.
Ltac Zify.zify_post_hook ::= Z.div_mod_to_equations.

(** Year denominators of the actual/N conventions. *)
Definition act_basis (c : dcc) : option Q :=
  match c with
  | ACT360 => Some (inject_Z 360) | ACT365 => Some (inject_Z 365) | ACT365_25 => Some (1461 # 4) | _ => None
  end.

Lemma act_basis_pos c N : act_basis c = Some N -> (0 < N)%Q.
Proof. destruct c; cbn; intros [= <-]; reflexivity. Qed.

Lemma check_days s e : check_dates (Day s) (Day e) = (s <=? e).
Proof. unfold check_dates, dt_abs, us_per_day; cbn [to_datetime dt_date dt_us]. lia. Qed.

Lemma compute_days_ge s e c : e < s -> compute_accrual_length (Day s) (Day e) c = Err ValueError.
Proof. intros H. unfold compute_accrual_length. rewrite check_days. replace (s <=? e) with false by lia. reflexivity. Qed.

Lemma compute_days_le s e c : s <= e -> compute_accrual_length (Day s) (Day e) c =
  match c with ACT360 => dcc_act_over_360 s e | ACT365 => dcc_act_over_365 s e | ACT365_25 => dcc_act_over_365_25 s e
             | ACTACT => dcc_act_over_act s e | THIRTY360 => dcc_30_over_360 s e end.
Proof.
  intros H. unfold compute_accrual_length. rewrite check_days. replace (s <=? e) with true by lia.
  destruct c; reflexivity.
Qed.

Lemma inj_sub a b : inject_Z (a - b) = (inject_Z a - inject_Z b)%Q.
Proof. unfold Z.sub, Qminus. rewrite inject_Z_plus, inject_Z_opp. reflexivity. Qed.

Lemma inject_nz z : z <> 0 -> ~ (inject_Z z == 0)%Q.
Proof. intros H E. unfold Qeq in E. simpl in E. lia. Qed.

(** C01 *)
Lemma act_exact c N s e : act_basis c = Some N -> s <= e ->
  exists q, compute_accrual_length (Day s) (Day e) c = Ok q /\ (q == inject_Z (e - s) / N)%Q.
Proof.
  intros HN H. rewrite compute_days_le by auto.
  destruct c; cbn in HN; try discriminate; injection HN as <-; eexists; split; try reflexivity.
Qed.

Lemma Qdiv_lt_compat a b N : (0 < N)%Q -> (a < b)%Q -> (a / N < b / N)%Q.
Proof.
  intros HN H. unfold Qdiv. apply Qmult_lt_compat_r; auto. apply Qinv_lt_0_compat; auto.
Qed.

Lemma act_laws c N a b d q1 q2 q3 : act_basis c = Some N -> a <= b -> b <= d ->
  compute_accrual_length (Day a) (Day b) c = Ok q1 ->
  compute_accrual_length (Day b) (Day d) c = Ok q2 ->
  compute_accrual_length (Day a) (Day d) c = Ok q3 ->
  (q1 + q2 == q3)%Q /\ ((q1 == 0)%Q <-> a = b) /\ (b < d -> (q1 < q3)%Q).
Proof.
  intros HN H1 H2 E1 E2 E3.
  pose proof (act_basis_pos _ _ HN) as HP.
  assert (~ N == 0)%Q as HZ by (intros HE; rewrite HE in HP; discriminate).
  destruct (act_exact c N a b HN H1) as (x1 & X1 & Y1).
  destruct (act_exact c N b d HN H2) as (x2 & X2 & Y2).
  destruct (act_exact c N a d HN ltac:(lia)) as (x3 & X3 & Y3).
  assert (x1 = q1) by congruence. assert (x2 = q2) by congruence. assert (x3 = q3) by congruence. subst x1 x2 x3.
  rewrite Y1, Y2, Y3. repeat split.
  - rewrite !inj_sub. field; auto.
  - intros HE. assert (inject_Z (b - a) == 0)%Q as HE'.
    { setoid_replace (inject_Z (b - a)) with (inject_Z (b - a) / N * N)%Q by (field; auto). rewrite HE. ring. }
    destruct (Z.eq_dec a b) as [|NE]; auto. exfalso. revert HE'. apply inject_nz. lia.
  - intros ->. replace (b - b) with 0 by lia. field; auto.
  - intros L. apply Qdiv_lt_compat; auto. rewrite <- Zlt_Qlt. lia.
Qed.

(** C02: Actual/Actual as a potential difference. *)
Definition aa_clock (d : date) : Q :=
  (inject_Z (year d) + inject_Z (yday d + 1) / inject_Z (yearlen (year d)))%Q.

Lemma yearlen_pos y : 0 < yearlen y.
Proof. pose proof (yearlen_bounds y); lia. Qed.

Lemma dec31 y : 1 <= y <= 9999 -> mk_date y 12 31 = Ok (days_before_year y + yearlen y).
Proof.
  intros H. apply mk_date_ok. split.
  - repeat split; try lia. unfold days_in_month, dim_l. lia.
  - unfold ymd2ord, days_before_month, days_before_month_l, yearlen.
    destruct (is_leap y); cbn; lia.
Qed.

Lemma dby_pred y : days_before_year (y - 1) + yearlen (y - 1) = days_before_year y.
Proof. rewrite <- dby_succ. f_equal. lia. Qed.

Lemma actact_value s e : 2 <= year s -> 2 <= year e -> date_ok s -> date_ok e ->
  exists q, dcc_act_over_act s e = Ok q /\ (q == aa_clock e - aa_clock s)%Q.
Proof.
  intros Hs He Os Oe. apply date_ok_year in Os, Oe.
  unfold dcc_act_over_act. rewrite !dec31 by lia. cbn [bind].
  rewrite !dby_pred.
  destruct (year_yday_spec s) as [Es Bs]. destruct (year_yday_spec e) as [Ee Be].
  pose proof (yearlen_pos (year s)) as Ps. pose proof (yearlen_pos (year e)) as Pe.
  destruct (year s =? year e) eqn:E.
  - assert (year s = year e) as Y by lia. eexists; split; [reflexivity|].
    unfold aa_clock. rewrite Y in *.
    replace (days_before_year (year e) + yearlen (year e) - days_before_year (year e)) with (yearlen (year e)) by lia.
    replace (e - s) with ((yday e + 1) + - (yday s + 1)) by lia.
    rewrite inject_Z_plus, inject_Z_opp. field. apply inject_nz; lia.
  - eexists; split; [reflexivity|]. unfold aa_clock.
    replace (days_before_year (year s) + yearlen (year s) - days_before_year (year s)) with (yearlen (year s)) by lia.
    replace (days_before_year (year e) + yearlen (year e) - days_before_year (year e)) with (yearlen (year e)) by lia.
    replace (days_before_year (year s) + yearlen (year s) - s) with (yearlen (year s) + - (yday s + 1)) by lia.
    replace (e - days_before_year (year e)) with (yday e + 1) by lia.
    rewrite !inject_Z_plus, !inj_sub, inject_Z_opp, inject_Z_plus.
    change (inject_Z 1) with 1%Q. field. split; apply inject_nz; lia.
Qed.

Lemma Qdiv_pos_lt a b : (0 < b)%Q -> (0 < a)%Q -> (0 < a / b)%Q.
Proof. intros. unfold Qdiv. apply Qmult_lt_0_compat; auto. apply Qinv_lt_0_compat; auto. Qed.

Lemma aa_clock_bounds d : (inject_Z (year d) < aa_clock d)%Q /\ (aa_clock d <= inject_Z (year d) + 1)%Q.
Proof.
  unfold aa_clock. destruct (year_yday_spec d) as [E B]. pose proof (yearlen_pos (year d)) as P.
  assert (0 < inject_Z (yearlen (year d)))%Q as P' by (change 0%Q with (inject_Z 0); rewrite <- Zlt_Qlt; auto).
  split.
  - assert (0 < inject_Z (yday d + 1) / inject_Z (yearlen (year d)))%Q.
    { apply Qdiv_pos_lt; auto. change 0%Q with (inject_Z 0); rewrite <- Zlt_Qlt; lia. }
    lra.
  - assert (inject_Z (yday d + 1) / inject_Z (yearlen (year d)) <= 1)%Q.
    { apply Qle_shift_div_r; auto. rewrite Qmult_1_l. rewrite <- Zle_Qle. lia. }
    lra.
Qed.

Lemma aa_clock_lt d d' : d < d' -> (aa_clock d < aa_clock d')%Q.
Proof.
  intros H. pose proof (year_mono d d' ltac:(lia)) as M.
  destruct (Z.eq_dec (year d) (year d')) as [Y|N].
  - unfold aa_clock. rewrite Y. apply Qplus_lt_r.
    destruct (year_yday_spec d) as [E B]. destruct (year_yday_spec d') as [E' B']. rewrite Y in *.
    apply Qdiv_lt_compat.
    + change 0%Q with (inject_Z 0); rewrite <- Zlt_Qlt. apply yearlen_pos.
    + rewrite <- Zlt_Qlt. lia.
  - destruct (aa_clock_bounds d) as [_ U]. destruct (aa_clock_bounds d') as [L _].
    assert (inject_Z (year d) + 1 <= inject_Z (year d'))%Q.
    { change 1%Q with (inject_Z 1). rewrite <- inject_Z_plus, <- Zle_Qle. lia. }
    lra.
Qed.

Lemma compute_actact s e : date_ok s -> date_ok e -> 2 <= year s -> s <= e ->
  exists q, compute_accrual_length (Day s) (Day e) ACTACT = Ok q /\ (q == aa_clock e - aa_clock s)%Q.
Proof.
  intros Os Oe Y L. rewrite compute_days_le by auto.
  apply actact_value; auto. pose proof (year_mono s e L). lia.
Qed.

Lemma actact_laws a b d q1 q2 q3 : date_ok a -> date_ok b -> date_ok d -> 2 <= year a -> a <= b -> b <= d ->
  compute_accrual_length (Day a) (Day b) ACTACT = Ok q1 ->
  compute_accrual_length (Day b) (Day d) ACTACT = Ok q2 ->
  compute_accrual_length (Day a) (Day d) ACTACT = Ok q3 ->
  (q1 + q2 == q3)%Q /\ ((q1 == 0)%Q <-> a = b) /\ (b < d -> (q1 < q3)%Q).
Proof.
  intros Oa Ob Od Y H1 H2 E1 E2 E3. pose proof (year_mono a b H1).
  destruct (compute_actact a b Oa Ob Y H1) as (x1 & X1 & Y1).
  destruct (compute_actact b d Ob Od ltac:(lia) H2) as (x2 & X2 & Y2).
  destruct (compute_actact a d Oa Od Y ltac:(lia)) as (x3 & X3 & Y3).
  assert (x1 = q1) by congruence. assert (x2 = q2) by congruence. assert (x3 = q3) by congruence. subst x1 x2 x3.
  rewrite Y1, Y2, Y3. repeat split.
  - ring.
  - intros HE. destruct (Z.eq_dec a b) as [|N]; auto. pose proof (aa_clock_lt a b ltac:(lia)). lra.
  - intros ->. ring.
  - intros L. apply aa_clock_lt in L. lra.
Qed.

Lemma jan1_parts y : year (ymd2ord y 1 1) = y /\ yday (ymd2ord y 1 1) = 0.
Proof.
  destruct (ymd2ord_inj_parts y 1 1) as (Y & M & D); try lia.
  { unfold days_in_month, dim_l; lia. }
  split; auto. pose proof (date_parts (ymd2ord y 1 1)) as (_ & _ & _ & E).
  rewrite Y, M, D in E. rewrite E. unfold days_before_month, days_before_month_l. cbn. lia.
Qed.

(** 1 January to 1 January counts whole years up to the difference in year lengths of the two Januaries. *)
Lemma actact_same_day s e n : date_ok s -> date_ok e -> 2 <= year s -> 0 <= n ->
  year e = year s + n -> yday e = yday s -> yearlen (year e) = yearlen (year s) ->
  exists q, compute_accrual_length (Day s) (Day e) ACTACT = Ok q /\ (q == inject_Z n)%Q.
Proof.
  intros Os Oe Y Hn Ye De Le.
  destruct (year_yday_spec s) as [Es Bs]. destruct (year_yday_spec e) as [Ee Be].
  assert (s <= e).
  { destruct (Z.eq_dec n 0) as [->|N]. - rewrite Z.add_0_r in Ye. rewrite Ye, De in *. lia.
    - assert (year s < year e) as L by lia. apply dby_mono in L. lia. }
  destruct (compute_actact s e Os Oe Y H) as (q & E & V). exists q; split; auto.
  rewrite V. unfold aa_clock. rewrite Le, De, Ye. rewrite inject_Z_plus. ring.
Qed.

Lemma actact_dec31 y n : 2 <= y -> 0 <= n -> y + n <= 9999 ->
  exists q, compute_accrual_length (Day (ymd2ord y 12 31)) (Day (ymd2ord (y + n) 12 31)) ACTACT = Ok q
            /\ (q == inject_Z n)%Q.
Proof.
  intros Hy Hn Hyn.
  assert (D31 : forall z, ymd2ord z 12 31 = days_before_year z + yearlen z).
  { intros z. unfold ymd2ord, days_before_month, days_before_month_l, yearlen. destruct (is_leap z); cbn; lia. }
  assert (DM : forall z, days_in_month z 12 = 31) by reflexivity.
  assert (O1 : date_ok (ymd2ord y 12 31)) by (apply ymd2ord_date_ok; rewrite ?DM; lia).
  assert (O2 : date_ok (ymd2ord (y + n) 12 31)) by (apply ymd2ord_date_ok; rewrite ?DM; lia).
  assert (Y1 : forall z, year (ymd2ord z 12 31) = z) by (intros; apply year_ymd; rewrite ?DM; lia).
  assert (L : ymd2ord y 12 31 <= ymd2ord (y + n) 12 31).
  { rewrite !D31. destruct (Z.eq_dec n 0) as [->|N]; [rewrite Z.add_0_r; lia|].
    assert (y < y + n) as LL by lia. apply dby_mono in LL. pose proof (yearlen_pos (y + n)). lia. }
  destruct (compute_actact _ _ O1 O2 ltac:(rewrite Y1; lia) L) as (q & E & V). exists q; split; auto.
  rewrite V. unfold aa_clock. rewrite !Y1.
  assert (YD : forall z, yday (ymd2ord z 12 31) + 1 = yearlen z).
  { intros z. destruct (year_yday_spec (ymd2ord z 12 31)) as [Ez _]. rewrite Y1 in Ez. rewrite D31 in Ez at 2. lia. }
  rewrite !YD. rewrite inject_Z_plus. field. split; apply inject_nz; pose proof (yearlen_pos y); pose proof (yearlen_pos (y+n)); lia.
Qed.

Lemma actact_year_one s e : date_ok s -> s <= e -> year s = 1 ->
  compute_accrual_length (Day s) (Day e) ACTACT = Err ValueError.
Proof.
  intros O L Y. rewrite compute_days_le by auto. unfold dcc_act_over_act.
  rewrite dec31 by lia. cbn [bind]. unfold mk_date at 1. rewrite Y. reflexivity.
Qed.

(** C03 *)
Lemma thirty_value s e : s <= e ->
  exists q, compute_accrual_length (Day s) (Day e) THIRTY360 = Ok q /\ (q == inject_Z (days_30_360 s e) / inject_Z 360)%Q.
Proof. intros H. rewrite compute_days_le by auto. eexists; split; reflexivity. Qed.

Lemma day_bounds d : 1 <= day d <= 31 /\ 1 <= month d <= 12 /\ (month d = 2 -> day d <= 29).
Proof.
  destruct (date_parts d) as (M & D & _). pose proof (month_len (year d) (month d) M).
  repeat split; try lia. intros E. rewrite E in D. unfold days_in_month, dim_l in D. destruct (is_leap (year d)); lia.
Qed.

Lemma thirty_nonneg s e : s <= e -> (days_30_360 s e < 0 <-> (month s = 2 /\ day s = 28 /\ month e = 2 /\ day e = 29 /\ year s = year e)).
Proof.
  intros H. pose proof (date_lt_lex e s) as LX. 
  pose proof (day_bounds s) as (D1 & M1 & F1). pose proof (day_bounds e) as (D2 & M2 & F2).
  unfold days_30_360.
  revert D1 M1 F1 D2 M2 F2 LX. generalize (year s) (month s) (day s) (year e) (month e) (day e).
  intros ys ms ds ye me de D1 M1 F1 D2 M2 F2 LX.
  assert (LX' : ~ (ye < ys \/ ye = ys /\ (me < ms \/ me = ms /\ de < ds))) by (rewrite <- LX; lia). clear LX H.
  destruct ((ms =? 2) && (ds =? 28)) eqn:A; destruct ((me =? 2) && (de =? 28)) eqn:B; cbn [andb];
    repeat match goal with |- context[if ?b then _ else _] => destruct b eqn:? end; try lia.
Qed.

Lemma thirty_zero s e : s <= e -> (days_30_360 s e = 0 <-> s = e \/ (day s = 30 /\ day e = 31 /\ month s = month e /\ year s = year e)).
Proof.
  intros H. pose proof (date_lt_lex e s) as LX. pose proof (date_ext s e) as EX.
  pose proof (day_bounds s) as (D1 & M1 & F1). pose proof (day_bounds e) as (D2 & M2 & F2).
  assert (EX' : s = e <-> year s = year e /\ month s = month e /\ day s = day e) by (split; [intros ->; auto|intros (A & B & C); auto]).
  rewrite EX'. clear EX EX'.
  unfold days_30_360.
  revert D1 M1 F1 D2 M2 F2 LX. generalize (year s) (month s) (day s) (year e) (month e) (day e).
  intros ys ms ds ye me de D1 M1 F1 D2 M2 F2 LX.
  assert (LX' : ~ (ye < ys \/ ye = ys /\ (me < ms \/ me = ms /\ de < ds))) by (rewrite <- LX; lia). clear LX H.
  destruct ((ms =? 2) && (ds =? 28)) eqn:A; destruct ((me =? 2) && (de =? 28)) eqn:B; cbn [andb];
    repeat match goal with |- context[if ?b then _ else _] => destruct b eqn:? end; try lia.
Qed.

Lemma thirty_days s e : day s <= 27 -> day e <= 30 ->
  days_30_360 s e = 360 * (year e - year s) + 30 * (month e - month s) + (day e - day s).
Proof.
  intros H1 H2. unfold days_30_360.
  replace (day s =? 28) with false by lia. rewrite !andb_false_r. cbn [andb].
  replace (day e =? 31) with false by lia. cbn [andb]. replace (day s =? 31) with false by lia. lia.
Qed.

Lemma thirty_months s e k : day s <= 27 -> add_months s k = Ok e -> 0 <= k -> s <= e /\
  exists q, compute_accrual_length (Day s) (Day e) THIRTY360 = Ok q /\ (q == inject_Z k / inject_Z 12)%Q.
Proof.
  intros D A K. destruct (add_months_parts _ _ _ A) as (O & YM & DD).
  pose proof (date_parts s) as (M1 & D1 & _). pose proof (date_parts e) as (M2 & D2 & _).
  pose proof (month_len (year e) (month e) M2) as ML.
  assert (day e = day s) as DE by lia.
  assert (s <= e) as L.
  { destruct (Z_le_gt_dec s e); auto. assert (e < s) as LT by lia. apply date_lt_lex in LT. lia. }
  split; auto. destruct (thirty_value s e L) as (q & E & V). exists q; split; auto. rewrite V.
  rewrite thirty_days by lia. replace (360 * (year e - year s) + 30 * (month e - month s) + (day e - day s)) with (30 * k) by lia.
  rewrite inject_Z_mult. change (inject_Z 360) with (inject_Z 30 * inject_Z 12)%Q. field. 
Qed.

Lemma thirty_additive a b c q1 q2 q3 : day a <= 27 -> day b <= 27 -> day c <= 30 -> a <= b -> b <= c ->
  compute_accrual_length (Day a) (Day b) THIRTY360 = Ok q1 ->
  compute_accrual_length (Day b) (Day c) THIRTY360 = Ok q2 ->
  compute_accrual_length (Day a) (Day c) THIRTY360 = Ok q3 -> (q1 + q2 == q3)%Q.
Proof.
  intros Da Db Dc H1 H2 E1 E2 E3.
  destruct (thirty_value a b H1) as (x1 & X1 & Y1).
  destruct (thirty_value b c H2) as (x2 & X2 & Y2).
  destruct (thirty_value a c ltac:(lia)) as (x3 & X3 & Y3).
  assert (x1 = q1) by congruence. assert (x2 = q2) by congruence. assert (x3 = q3) by congruence. subst x1 x2 x3.
  rewrite Y1, Y2, Y3. rewrite !thirty_days by lia.
  rewrite !inject_Z_plus, !inject_Z_mult, !inj_sub. field.
Qed.

(** C04 *)
Lemma inverted s e c : dt_abs (to_datetime e) < dt_abs (to_datetime s) -> compute_accrual_length s e c = Err ValueError.
Proof. intros H. unfold compute_accrual_length, check_dates. 
  replace (dt_abs (to_datetime s) <=? dt_abs (to_datetime e)) with false by lia. reflexivity. Qed.

(** C05: the wrapper is exact around any date function that is linear in elapsed days. *)
Lemma seconds_lin a b : (seconds (a * us_per_day + b) == inject_Z a * 86400 + seconds b)%Q.
Proof. unfold seconds, us_per_day. rewrite inject_Z_plus, inject_Z_mult. field. Qed.

Definition not_last (m : moment) : Prop := match m with Day _ => True | Stamp t => dt_date t < max_date end.

Lemma add_days_1 d : date_ok d -> d < max_date -> add_days d 1 = Ok (d + 1).
Proof. unfold date_ok. intros. apply add_days_ok. split; auto. unfold date_ok, min_date in *. lia. Qed.

Definition elapsed (s e : moment) : Z := dt_abs (to_datetime e) - dt_abs (to_datetime s).

Lemma wrapper_linear (f : date -> date -> res Q) (k : Q) s e :
  (forall a b, exists q, f a b = Ok q /\ (q == inject_Z (b - a) * k)%Q) ->
  moment_ok s -> moment_ok e -> not_last s -> not_last e ->
  exists q, include_datetimes f s e = Ok q /\ (q == seconds (elapsed s e) / 86400 * k)%Q.
Proof.
  intros Hf Os Oe Ns Ne.
  unfold include_datetimes, elapsed, seconds, dt_abs, us_per_day.
  destruct s as [s|[s us]]; destruct e as [e|[e ue]]; cbn [to_datetime dt_date dt_us moment_ok not_last] in *.
  - destruct (Hf s e) as (q & E & V). exists q; split; auto. rewrite V.
    rewrite !inj_sub, !inject_Z_plus, !inject_Z_mult. field.
  - destruct Oe as [Oe Ue]. cbn [dt_date dt_us] in *. rewrite add_days_1 by auto. cbn [bind].
    destruct (Hf s e) as (q1 & -> & V1). destruct (Hf s (e + 1)) as (q2 & -> & V2). cbn [bind].
    eexists; split; [reflexivity|]. rewrite V1, V2. rewrite ?Z.sub_diag, ?Z.mul_0_l.
    rewrite !inj_sub, !inject_Z_plus, !inject_Z_mult, ?inj_sub, ?inject_Z_plus. change (inject_Z 1) with 1%Q; change (inject_Z 0) with 0%Q.
    field. intros E; ring_simplify in E; discriminate.
  - destruct Os as [Os Us]. cbn [dt_date dt_us] in *. rewrite add_days_1 by auto. cbn [bind].
    destruct (Hf (s + 1) e) as (q1 & -> & V1). destruct (Hf s e) as (q2 & -> & V2). cbn [bind].
    eexists; split; [reflexivity|]. rewrite V1, V2. rewrite ?Z.sub_diag, ?Z.mul_0_l.
    rewrite !inj_sub, !inject_Z_plus, !inject_Z_mult, ?inj_sub, ?inject_Z_plus. change (inject_Z 1) with 1%Q; change (inject_Z 0) with 0%Q.
    field. intros E; ring_simplify in E; discriminate.
  - destruct Os as [Os Us]. destruct Oe as [Oe Ue]. cbn [dt_date dt_us] in *. rewrite !add_days_1 by auto. cbn [bind].
    destruct (Hf (s + 1) e) as (q1 & -> & V1). destruct (Hf s (e + 1)) as (q2 & -> & V2). cbn [bind].
    eexists; split; [reflexivity|]. rewrite V1, V2. rewrite ?Z.sub_diag, ?Z.mul_0_l.
    rewrite !inj_sub, !inject_Z_plus, !inject_Z_mult, ?inj_sub, ?inject_Z_plus. change (inject_Z 1) with 1%Q; change (inject_Z 0) with 0%Q.
    field. intros E; ring_simplify in E; discriminate.
Qed.

Lemma stamp_act_exact c N s e : act_basis c = Some N -> moment_ok s -> moment_ok e -> not_last s -> not_last e ->
  0 <= elapsed s e ->
  exists q, compute_accrual_length s e c = Ok q /\ (q == seconds (elapsed s e) / (86400 * N))%Q.
Proof.
  intros HN Os Oe Ns Ne L. unfold compute_accrual_length, check_dates.
  replace (dt_abs (to_datetime s) <=? dt_abs (to_datetime e)) with true by (unfold elapsed in L; lia). cbn [negb].
  pose proof (act_basis_pos _ _ HN) as HP.
  assert (~ N == 0)%Q as HZ by (intros HE; rewrite HE in HP; discriminate).
  assert (G : forall f, (forall a b, f a b = Ok (inject_Z (b - a) / N)%Q) ->
     exists q, include_datetimes f s e = Ok q /\ (q == seconds (elapsed s e) / (86400 * N))%Q).
  { intros f Hf. destruct (wrapper_linear f (/ N) s e) as (q & E & V); auto.
    - intros a b. rewrite Hf. eexists; split; [reflexivity|]. reflexivity.
    - exists q; split; auto. rewrite V. field. auto. }
  destruct c; cbn in HN; try discriminate; injection HN as <-; apply G; reflexivity.
Qed.

Lemma stamp_act_laws c N a b d q1 q2 q3 : act_basis c = Some N ->
  moment_ok a -> moment_ok b -> moment_ok d -> not_last a -> not_last b -> not_last d ->
  compute_accrual_length a b c = Ok q1 ->
  compute_accrual_length b d c = Ok q2 ->
  compute_accrual_length a d c = Ok q3 ->
  (q1 + q2 == q3)%Q.
Proof.
  intros HN Oa Ob Od Na Nb Nd E1 E2 E3.
  assert (P : forall x y q, compute_accrual_length x y c = Ok q -> 0 <= elapsed x y).
  { intros x y q E. unfold elapsed. destruct (Z_le_gt_dec 0 (dt_abs (to_datetime y) - dt_abs (to_datetime x))) as [|G]; auto.
    rewrite inverted in E by lia. discriminate. }
  destruct (stamp_act_exact c N a b HN Oa Ob Na Nb (P _ _ _ E1)) as (x1 & X1 & Y1).
  destruct (stamp_act_exact c N b d HN Ob Od Nb Nd (P _ _ _ E2)) as (x2 & X2 & Y2).
  destruct (stamp_act_exact c N a d HN Oa Od Na Nd (P _ _ _ E3)) as (x3 & X3 & Y3).
  assert (x1 = q1) by congruence. assert (x2 = q2) by congruence. assert (x3 = q3) by congruence. subst x1 x2 x3.
  pose proof (act_basis_pos _ _ HN) as HP.
  assert (~ N == 0)%Q as HZ by (intros HE; rewrite HE in HP; discriminate).
  rewrite Y1, Y2, Y3. unfold seconds, elapsed.
  rewrite !inj_sub. field; auto.
Qed.

(** C06 *)
Definition aa_clock_t (m : moment) : Q :=
  match m with
  | Day d => aa_clock d
  | Stamp t => (aa_clock (dt_date t) +
      inject_Z (dt_us t) / inject_Z us_per_day / inject_Z (yearlen (year (dt_date t + 1)%Z)))%Q
  end.

Lemma aa_clock_succ d : (aa_clock (d + 1)%Z - aa_clock d == 1 / inject_Z (yearlen (year (d + 1)%Z)))%Q.
Proof.
  destruct (year_yday_spec d) as [E B]. destruct (year_yday_spec (d + 1)) as [E' B'].
  pose proof (year_mono d (d + 1) ltac:(lia)) as M. unfold aa_clock.
  pose proof (yearlen_pos (year d)) as P1. pose proof (yearlen_pos (year (d + 1))) as P2.
  destruct (Z.eq_dec (year (d + 1)) (year d)) as [Y|N].
  - rewrite Y in *. replace (yday (d + 1) + 1) with ((yday d + 1) + 1) by lia.
    rewrite (inject_Z_plus (yday d + 1)). change (inject_Z 1) with 1%Q. field. apply inject_nz; lia.
  - assert (year d < year (d + 1)) as L by lia. 
    assert (year (d + 1) = year d + 1) as Y.
    { destruct (Z.eq_dec (year (d + 1)) (year d + 1)); auto.
      assert (year d + 1 < year (d + 1)) as L2 by lia. apply dby_mono in L2. rewrite dby_succ in L2. pose proof (yearlen_pos (year d + 1)). lia. }
    rewrite Y in *. rewrite dby_succ in *. assert (yday d + 1 = yearlen (year d)) as -> by lia.
    assert (yday (d + 1) = 0) as -> by lia. rewrite inject_Z_plus. change (inject_Z (0 + 1)) with 1%Q. change (inject_Z 1) with 1%Q. field.
    split; apply inject_nz; lia.
Qed.

Definition end_len (m : moment) : Z :=
  match m with Day d => yearlen (year (d + 1)) | Stamp t => yearlen (year (dt_date t + 1)) end.
Definition is_stamp (m : moment) : bool := match m with Day _ => false | Stamp _ => true end.
(** fraction of the day elapsed since midnight *)
Definition day_frac (m : moment) : Q := match m with Day d => 0 | Stamp t => (inject_Z (dt_us t) / inject_Z us_per_day)%Q end.

Definition year2 (m : moment) : Prop := match m with Day d => 2 <= year d | Stamp t => 2 <= year (dt_date t) end.

(** Deviation from the exact clock: half the (non-)alignment of the two day fractions times the gap in daily rates. *)
Definition aa_error (s e : moment) : Q :=
  if is_stamp s && is_stamp e then
    ((1 - day_frac s - day_frac e) / 2 * (1 / inject_Z (end_len e) - 1 / inject_Z (end_len s)))%Q
  else 0%Q.

Lemma stamp_actact s e : moment_ok s -> moment_ok e -> not_last s -> not_last e -> year2 s -> year2 e -> 0 <= elapsed s e ->
  exists q, compute_accrual_length s e ACTACT = Ok q /\ (q == aa_clock_t e - aa_clock_t s + aa_error s e)%Q.
Proof.
  intros Os Oe Ns Ne Ys Ye L. unfold compute_accrual_length, check_dates.
  replace (dt_abs (to_datetime s) <=? dt_abs (to_datetime e)) with true by (unfold elapsed in L; lia). cbn [negb].
  assert (NEXT : forall d, date_ok d -> d < max_date -> 2 <= year d -> date_ok (d + 1) /\ 2 <= year (d + 1)).
  { unfold date_ok. intros d Od Ld Yd. pose proof (year_mono d (d + 1) ltac:(lia)). unfold min_date in *. lia. }
  assert (NZ : forall y, ~ (inject_Z (yearlen y) == 0)%Q) by (intros y; apply inject_nz; pose proof (yearlen_pos y); lia).
  unfold include_datetimes.
  destruct s as [s|[s us]]; destruct e as [e|[e ue]]; cbn [to_datetime dt_date dt_us moment_ok not_last year2] in *;
   unfold aa_error; cbn [is_stamp andb aa_clock_t day_frac end_len dt_date dt_us].
  - destruct (actact_value s e) as (q & E & V); auto. exists q; split; auto. rewrite V. ring.
  - destruct Oe as [Oe Ue]. cbn [dt_date dt_us] in *. rewrite add_days_1 by auto. cbn [bind].
    destruct (NEXT e) as [Oe1 Ye1]; auto.
    destruct (actact_value s e) as (q1 & -> & V1); auto. destruct (actact_value s (e + 1)) as (q2 & -> & V2); auto. cbn [bind].
    eexists; split; [reflexivity|]. rewrite V1, V2.
    unfold seconds, dt_abs; cbn [dt_date dt_us].
    replace (s * us_per_day + 0 - (s * us_per_day + 0)) with 0 by lia.
    replace (e * us_per_day + ue - (e * us_per_day + 0)) with ue by lia.
    replace ((s - s) * us_per_day) with 0 by lia. replace ((e + 1 - e) * us_per_day) with us_per_day by lia.
    pose proof (aa_clock_succ e) as SE.
    setoid_replace (aa_clock (e + 1)%Z - aa_clock s - (aa_clock e - aa_clock s))%Q with (1 / inject_Z (yearlen (year (e + 1)%Z)))%Q
       by (rewrite <- SE; ring).
    change (inject_Z us_per_day) with 86400000000%Q. change (inject_Z 0) with 0%Q. field. auto.
  - destruct Os as [Os Us]. cbn [dt_date dt_us] in *. rewrite add_days_1 by auto. cbn [bind].
    destruct (NEXT s) as [Os1 Ys1]; auto.
    destruct (actact_value (s + 1) e) as (q1 & -> & V1); auto. destruct (actact_value s e) as (q2 & -> & V2); auto. cbn [bind].
    eexists; split; [reflexivity|]. rewrite V1, V2.
    unfold seconds, dt_abs; cbn [dt_date dt_us].
    replace ((s + 1) * us_per_day + 0 - (s * us_per_day + us)) with (us_per_day + - us) by lia.
    replace (e * us_per_day + 0 - (e * us_per_day + 0)) with 0 by lia.
    replace ((s + 1 - s) * us_per_day) with us_per_day by lia. replace ((e - e) * us_per_day) with 0 by lia.
    pose proof (aa_clock_succ s) as SE.
    setoid_replace (aa_clock (s + 1)%Z) with (aa_clock s + 1 / inject_Z (yearlen (year (s + 1)%Z)))%Q
       by (rewrite <- SE; ring).
    rewrite inject_Z_plus, inject_Z_opp.
    change (inject_Z us_per_day) with 86400000000%Q. change (inject_Z 0) with 0%Q. field. auto.
  - destruct Os as [Os Us]. destruct Oe as [Oe Ue]. cbn [dt_date dt_us] in *. rewrite !add_days_1 by auto. cbn [bind].
    destruct (NEXT s) as [Os1 Ys1]; auto. destruct (NEXT e) as [Oe1 Ye1]; auto.
    destruct (actact_value (s + 1) e) as (q1 & -> & V1); auto. destruct (actact_value s (e + 1)) as (q2 & -> & V2); auto. cbn [bind].
    eexists; split; [reflexivity|]. rewrite V1, V2.
    unfold seconds, dt_abs; cbn [dt_date dt_us].
    replace ((s + 1) * us_per_day + 0 - (s * us_per_day + us)) with (us_per_day + - us) by lia.
    replace (e * us_per_day + ue - (e * us_per_day + 0)) with ue by lia.
    replace ((s + 1 - s) * us_per_day) with us_per_day by lia. replace ((e + 1 - e) * us_per_day) with us_per_day by lia.
    pose proof (aa_clock_succ s) as SE. pose proof (aa_clock_succ e) as SE'.
    setoid_replace (aa_clock (s + 1)%Z) with (aa_clock s + 1 / inject_Z (yearlen (year (s + 1)%Z)))%Q
       by (rewrite <- SE; ring).
    setoid_replace (aa_clock (e + 1)%Z) with (aa_clock e + 1 / inject_Z (yearlen (year (e + 1)%Z)))%Q
       by (rewrite <- SE'; ring).
    rewrite inject_Z_plus, inject_Z_opp.
    change (inject_Z us_per_day) with 86400000000%Q. field. auto.
Qed.

Lemma day_frac_bounds m : moment_ok m -> (0 <= day_frac m /\ day_frac m < 1)%Q.
Proof.
  destruct m as [d|[d us]]; cbn [moment_ok day_frac dt_us].
  - intros _. split; reflexivity || discriminate.
  - intros [_ [A B]]. cbn [dt_us] in *. split.
    + apply Qle_shift_div_l; [reflexivity|]. rewrite Qmult_0_l. change 0%Q with (inject_Z 0). rewrite <- Zle_Qle; auto.
    + apply Qlt_shift_div_r; [reflexivity|]. rewrite Qmult_1_l. rewrite <- Zlt_Qlt; auto.
Qed.

Lemma aa_error_bound s e : moment_ok s -> moment_ok e -> (Qabs (aa_error s e) <= 1 # 267180)%Q.
Proof.
  intros Os Oe. unfold aa_error. destruct (is_stamp s && is_stamp e); [|discriminate].
  pose proof (day_frac_bounds s Os) as [A B]. pose proof (day_frac_bounds e Oe) as [C D].
  apply Qabs_Qle_condition.
  assert (R : forall m, end_len m = 365 \/ end_len m = 366) by (intros [d|t]; cbn [end_len]; unfold yearlen; destruct (is_leap _); auto).
  destruct (R s) as [-> | ->], (R e) as [-> | ->].
  - setoid_replace ((1 - day_frac s - day_frac e) / 2 * (1 / inject_Z 365 - 1 / inject_Z 365))%Q with 0%Q by field. split; discriminate.
  - setoid_replace ((1 - day_frac s - day_frac e) / 2 * (1 / inject_Z 366 - 1 / inject_Z 365))%Q with (- (1 # 267180) * (1 - day_frac s - day_frac e))%Q by field. split; lra.
  - setoid_replace ((1 - day_frac s - day_frac e) / 2 * (1 / inject_Z 365 - 1 / inject_Z 366))%Q with ((1 # 267180) * (1 - day_frac s - day_frac e))%Q by field. split; lra.
  - setoid_replace ((1 - day_frac s - day_frac e) / 2 * (1 / inject_Z 366 - 1 / inject_Z 366))%Q with 0%Q by field. split; discriminate.
Qed.

Lemma aa_error_same s e : end_len s = end_len e -> (aa_error s e == 0)%Q.
Proof. intros H. unfold aa_error. destruct (_ && _); [|reflexivity]. rewrite H. ring. Qed.
