(** Facts about the US federal calendar. *)
From Verif Require Import Base PyDate PyDateFacts Holidays Scheduler LoopFacts SchedulerFacts CalendarSpec.
Open Scope Z_scope.
Ltac Zify.zify_post_hook ::= Z.div_mod_to_equations.

Lemma leap_year_is_leap y : leap_year y <-> is_leap y = true.
Proof.
  unfold leap_year. rewrite is_leap_spec.
  assert (D : forall n, 0 < n -> ((n | y) <-> y mod n = 0)) by (intros n Hn; rewrite Z.mod_divide by lia; reflexivity).
  rewrite !D by lia. tauto.
Qed.

Lemma month_length_dim y m : 1 <= m <= 12 -> month_length y m (days_in_month y m).
Proof.
  intros H. unfold days_in_month. month_cases m E; subst m; cbn [dim_l];
    try (apply ML31; cbn; tauto); try (apply ML30; cbn; tauto).
  destruct (is_leap y) eqn:L; [apply ML29|apply ML28]; rewrite leap_year_is_leap; congruence.
Qed.

Lemma month_length_fun y m l : month_length y m l -> l = days_in_month y m.
Proof.
  unfold days_in_month. intros H; inversion H as [m' I|m' I|L|L]; subst; cbn [In] in *.
  - intuition (subst; reflexivity).
  - intuition (subst; reflexivity).
  - apply leap_year_is_leap in L. rewrite L. reflexivity.
  - rewrite leap_year_is_leap in L. destruct (is_leap y); [congruence|reflexivity].
Qed.

Lemma ymd2ord_shift y m d k : ymd2ord y m (d + k) = ymd2ord y m d + k.
Proof. unfold ymd2ord. lia. Qed.

Lemma shift_parts d k : 1 <= day d + k <= days_in_month (year d) (month d) ->
  year (d + k) = year d /\ month (d + k) = month d /\ day (d + k) = day d + k.
Proof.
  intros H. destruct (date_parts d) as (M & D & O & _).
  assert (E : d + k = ymd2ord (year d) (month d) (day d + k)) by (rewrite ymd2ord_shift, O; reflexivity).
  rewrite E. apply ymd2ord_inj_parts; auto.
Qed.

Lemma succ_parts d :
  (day d < days_in_month (year d) (month d) /\ year (d + 1) = year d /\ month (d + 1) = month d /\ day (d + 1) = day d + 1) \/
  (day d = days_in_month (year d) (month d) /\ month d < 12 /\ year (d + 1) = year d /\ month (d + 1) = month d + 1 /\ day (d + 1) = 1) \/
  (day d = days_in_month (year d) (month d) /\ month d = 12 /\ year (d + 1) = year d + 1 /\ month (d + 1) = 1 /\ day (d + 1) = 1).
Proof.
  destruct (date_parts d) as (M & D & O & _).
  destruct (Z_lt_ge_dec (day d) (days_in_month (year d) (month d))) as [L|G].
  - left. split; auto. apply shift_parts. lia.
  - assert (day d = days_in_month (year d) (month d)) as E by lia. right.
    destruct (Z.eq_dec (month d) 12) as [M12|N].
    + right. repeat split; auto.
      all: assert (EQ : d + 1 = ymd2ord (year d + 1) 1 1);
        [rewrite <- O at 1; unfold ymd2ord; rewrite dby_succ, E, M12; unfold days_before_month, days_before_month_l, yearlen, days_in_month;
         destruct (is_leap (year d)), (is_leap (year d + 1)); cbn; lia|].
      all: rewrite EQ; apply ymd2ord_inj_parts; try lia; unfold days_in_month; cbn; lia.
    + left. repeat split; auto; try lia.
      all: assert (EQ : d + 1 = ymd2ord (year d) (month d + 1) 1);
        [rewrite <- O at 1; unfold ymd2ord, days_before_month; rewrite dbm_succ by lia; rewrite E; unfold days_in_month; lia|].
      all: rewrite EQ; apply ymd2ord_inj_parts; try lia; pose proof (month_len (year d) (month d + 1) ltac:(lia)); lia.
Qed.

(** The model's dates enumerate the Gregorian calendar. *)
Lemma calendar_succ d : next_day (year d, month d, day d) (year (d + 1), month (d + 1), day (d + 1)).
Proof.
  destruct (date_parts d) as (M & D & _ & _). pose proof (month_length_dim (year d) (month d) M) as ML.
  destruct (succ_parts d) as [(L & -> & -> & ->)|[(E & L & -> & -> & ->)|(E & L & -> & -> & ->)]].
  - eapply ND_day; eauto.
  - rewrite E. apply ND_month; auto.
  - rewrite E, L in *. apply ND_year; auto.
Qed.

Lemma ymd_iff d y m k : year d = y -> 1 <= m <= 12 -> 1 <= k <= days_in_month y m ->
  (d = ymd2ord y m k <-> month d = m /\ day d = k).
Proof.
  intros Y Hm Hk. split.
  - intros ->. split; [apply month_ymd|apply day_ymd]; auto.
  - intros [M D]. rewrite <- M, <- D, <- Y. symmetry. apply date_parts.
Qed.

Lemma max_day : day max_date = 31. Proof. vm_compute. reflexivity. Qed.
Lemma max_month : month max_date = 12. Proof. vm_compute. reflexivity. Qed.
Lemma max_weekday : weekday max_date = 4. Proof. vm_compute. reflexivity. Qed.
Lemma min_weekday : weekday min_date = 0. Proof. vm_compute. reflexivity. Qed.
Lemma min_day : day min_date = 1. Proof. vm_compute. reflexivity. Qed.
Lemma min_month : month min_date = 1. Proof. vm_compute. reflexivity. Qed.

(** Fixed federal holidays: never raise, observed as specified. *)
Lemma jan1_pred y : year (ymd2ord y 1 1 - 1) = y - 1.
Proof.
  apply year_unique. unfold ymd2ord, days_before_month, days_before_month_l. cbn [days_before_month_tbl].
  pose proof (dby_succ (y - 1)) as DS. replace (y - 1 + 1) with y in DS by lia.
  pose proof (yearlen_bounds (y - 1)). replace ((2 <? 1) && is_leap y) with false by reflexivity. lia.
Qed.

Lemma near_parts y hm hd d : year d = y -> 1 <= hm <= 12 -> 1 <= hd -> hd + 1 <= days_in_month y hm -> (2 <= hd \/ hm = 1) ->
  (d = ymd2ord y hm hd <-> month d = hm /\ day d = hd) /\
  (d = ymd2ord y hm hd + 1 <-> month d = hm /\ day d = hd + 1) /\
  (d = ymd2ord y hm hd - 1 <-> month d = hm /\ day d = hd - 1).
Proof.
  intros Yd Hm Hd DIM Hb. split; [apply ymd_iff; auto; lia|]. split.
  - rewrite <- ymd2ord_shift. apply ymd_iff; auto; lia.
  - destruct (Z_le_gt_dec 2 hd) as [H2|H2].
    + replace (ymd2ord y hm hd - 1) with (ymd2ord y hm hd + -1) by lia. rewrite <- ymd2ord_shift. apply ymd_iff; auto; lia.
    + assert (hd = 1) by lia. assert (hm = 1) by lia. subst hd hm. split.
      * intros E. exfalso. pose proof (jan1_pred y) as P. rewrite <- E in P. lia.
      * intros [_ D]. pose proof (date_parts d) as (_ & B & _). lia.
Qed.

Lemma fixed_holiday hm hd y : 1 <= y <= 9999 -> 1 <= hm <= 12 -> 1 <= hd -> hd + 1 <= days_in_month y hm ->
  (2 <= hd \/ hm = 1) ->
  exists x0 x, mk_date y hm hd = Ok x0 /\ us_federal_holiday_adjustment x0 = Ok x /\
    forall d, year d = y -> (d = x <-> fixed_observed hm hd (month d) (day d) (weekday d) = true).
Proof.
  intros Hy Hm Hd DIM Hb.
  assert (M0 : mk_date y hm hd = Ok (ymd2ord y hm hd)) by (apply mk_date_ok; repeat split; try lia; auto).
  destruct (mk_date_date_ok _ _ _ _ M0) as (O0 & Y0 & MM0 & D0).
  pose proof (fun d Yd => near_parts y hm hd d Yd Hm Hd DIM Hb) as J.
  rewrite M0. remember (ymd2ord y hm hd) as x0 eqn:EX. clear EX.
  pose proof (adjustment_spec x0 O0) as A.
  assert (FO : forall d, year d = y -> (fixed_observed hm hd (month d) (day d) (weekday d) = true <->
      (d = x0 /\ weekday d <= 4) \/ (d = x0 - 1 /\ weekday d = 4) \/ (d = x0 + 1 /\ weekday d = 0))).
  { intros d Yd. destruct (J d Yd) as (J0 & J1 & JM). rewrite J0, J1, JM. unfold fixed_observed.
    rewrite !andb_true_iff, !orb_true_iff, !andb_true_iff, !Z.eqb_eq, Z.leb_le. tauto. }
  destruct (us_federal_holiday_adjustment x0) as [x|e] eqn:EA.
  - exists x0, x. split; [auto|]. split; [auto|]. intros d Yd. rewrite FO by auto. clear FO J EA M0. destruct A as (_ & W & _ & ->).
    clear -d. unfold weekday in *. destruct ((x0 + 6) mod 7 =? 5) eqn:E5; [|destruct ((x0 + 6) mod 7 =? 6) eqn:E6]; split; intros; lia.
  - exfalso. destruct A as (_ & [[W E]|[W E]]).
    + rewrite E, min_weekday in W. discriminate.
    + rewrite E, max_day in D0. rewrite E, max_month in MM0.
      assert (E31 : days_in_month y 12 = 31) by reflexivity. rewrite <- MM0, E31 in DIM. lia.
Qed.

(** Floating holidays. *)
Lemma nth_holiday hm hw n y : 1 <= y <= 9999 -> 1 <= hm <= 12 -> 0 <= hw <= 6 -> 1 <= n <= 4 ->
  exists x0 x, mk_date y hm (7 * (n - 1) + 1) = Ok x0 /\ get_next_weekday x0 hw = Ok x /\
    year x = y /\ nth_observed hm hw n (month x) (day x) (weekday x) = true /\
    forall d, year d = y -> (d = x <-> nth_observed hm hw n (month d) (day d) (weekday d) = true).
Proof.
  intros Hy Hm Hw Hn. set (k := 7 * (n - 1) + 1). set (x0 := ymd2ord y hm k).
  pose proof (month_len y hm Hm) as ML.
  assert (M0 : mk_date y hm k = Ok x0) by (apply mk_date_ok; repeat split; try lia; auto).
  destruct (mk_date_date_ok _ _ _ _ M0) as (O0 & Y0 & MM0 & D0).
  pose proof (next_weekday_spec x0 hw Hw O0) as A.
  assert (J : forall d j, year d = y -> 0 <= j <= 6 -> (d = x0 + j <-> month d = hm /\ day d = k + j)).
  { intros d j Yd Hj. unfold x0. rewrite <- ymd2ord_shift. apply ymd_iff; auto; lia. }
  assert (OK6 : date_ok (x0 + 6)).
  { unfold x0. rewrite <- ymd2ord_shift. apply ymd2ord_date_ok; lia. }
  assert (YJ : forall j, 0 <= j <= 6 -> year (x0 + j) = y) by (intros j Hj; unfold x0; rewrite <- ymd2ord_shift; apply year_ymd; lia).
  destruct (get_next_weekday x0 hw) as [x|e] eqn:E.
  - destruct A as (Ox & Bx & Wx & Nx).
    assert (Yx : year x = y) by (replace x with (x0 + (x - x0)) by lia; apply YJ; lia).
    assert (EQ : forall d, year d = y -> (d = x <-> nth_observed hm hw n (month d) (day d) (weekday d) = true)).
    { intros d Yd. unfold nth_observed. split.
      - intros ->. destruct (proj1 (J x (x - x0) Yx ltac:(lia)) ltac:(lia)) as [Mx Dx]. subst k. lia.
      - intros H. assert (month d = hm /\ day d = k + (day d - k)) as C by (subst k; lia).
        apply J in C; auto; [|subst k; lia]. unfold weekday in *. subst k. lia. }
    exists x0, x. split; [exact M0|]. split; [exact E|]. split; [auto|]. split; [|auto]. apply EQ; auto.
  - exfalso. destruct A as [_ A]. unfold date_ok in OK6. 
    specialize (A (x0 + (hw - weekday x0) mod 7)). unfold weekday in *. apply A; lia.
Qed.

Lemma us_nodup : NoDup (List.map fst US_FEDERAL_HOLIDAYS).
Proof. cbn [List.map fst US_FEDERAL_HOLIDAYS]. repeat constructor; cbn [In]; intuition discriminate. Qed.

Definition good_holiday (h : Holiday) (f : Z -> Z -> Z -> bool) : Prop :=
  forall y, 1 <= y <= 9999 -> exists x0 x, mk_date y (h_month h) (h_day h) = Ok x0 /\ h_adjust h x0 = Ok x /\
    forall d, year d = y -> (d = x <-> f (month d) (day d) (weekday d) = true).

Lemma good_holiday_iff h f d : good_holiday h f -> date_ok d -> (holiday_date h (year d) d <-> f (month d) (day d) (weekday d) = true).
Proof.
  intros G Hd. apply date_ok_year in Hd. destruct (G (year d) Hd) as (x0 & x & M & A & E).
  rewrite <- E by auto. unfold holiday_date. split.
  - intros (x0' & M' & A'). congruence.
  - intros Hx. exists x0. split; auto. rewrite A. f_equal. auto.
Qed.

Lemma us_good : Forall2 (fun nh f => good_holiday (snd nh) f) US_FEDERAL_HOLIDAYS
  [ fixed_observed 1 1; fixed_observed 1 17; nth_observed 2 0 3; fixed_observed 5 30; fixed_observed 6 19;
    fixed_observed 7 4; nth_observed 9 0 1; nth_observed 10 0 2; fixed_observed 11 11; nth_observed 11 3 4; fixed_observed 12 25 ].
Proof.
  assert (F : forall (n : string) hm hd, 1 <= hm <= 12 -> 1 <= hd -> (hd + 1 <= 28 \/ (hm = 5 /\ hd = 30)) -> (2 <= hd \/ hm = 1) ->
     good_holiday (snd (n, Build_Holiday hm hd us_federal_holiday_adjustment) : Holiday) (fixed_observed hm hd)).
  { intros n hm hd Hm Hd Hb H1 y Hy. cbn [snd h_month h_day h_adjust]. apply fixed_holiday; auto.
    destruct Hb as [Hb|[-> ->]]; [pose proof (month_len y hm Hm); lia|]. unfold days_in_month; cbn; lia. }
  assert (N : forall (s : string) hm hd hw n, 1 <= hm <= 12 -> 0 <= hw <= 6 -> 1 <= n <= 4 -> hd = 7 * (n - 1) + 1 ->
     good_holiday (snd (s, Build_Holiday hm hd (fun d => get_next_weekday d hw)) : Holiday) (nth_observed hm hw n)).
  { intros s hm hd hw n Hm Hw Hn -> y Hy. cbn [snd h_month h_day h_adjust].
    destruct (nth_holiday hm hw n y Hy Hm Hw Hn) as (x0 & x & A & B & _ & _ & C). eauto. }
  unfold US_FEDERAL_HOLIDAYS, MONDAY, THURSDAY.
  repeat constructor; (apply (F ""%string); lia) || (apply (N ""%string); lia).
Qed.

Lemma gen_one_year cal n h y x : lookup n cal = Some h -> (do d <- mk_date y (h_month h) (h_day h); h_adjust h d) = Ok x ->
  generate_holiday_dates n y y cal = Ok [x].
Proof.
  intros L H. unfold generate_holiday_dates. rewrite L. unfold range_incl.
  replace (Z.to_nat (y - y + 1)) with 1%nat by lia. cbn [seq List.map mapM].
  replace (y + Z.of_nat 0) with y by lia. rewrite H. reflexivity.
Qed.

Lemma us_generate y : 1 <= y <= 9999 -> exists l, generate_all_holidays y y US_FEDERAL_HOLIDAYS = Ok l.
Proof.
  intros Hy. unfold generate_all_holidays.
  destruct (mapM_total (fun n => generate_holiday_dates n y y US_FEDERAL_HOLIDAYS) (List.map fst US_FEDERAL_HOLIDAYS)) as (ls & E).
  - intros n I. apply in_map_iff in I. destruct I as ([n' h] & <- & I). cbn [fst].
    destruct (Forall2_In_l _ _ _ _ us_good I) as (f & _ & G). cbn [snd] in G.
    destruct (G y Hy) as (x0 & x & M & A & _). exists [x].
    apply gen_one_year with (h := h); [apply NoDup_lookup; auto using us_nodup|]. rewrite M. exact A.
  - unfold calendar in *. rewrite E. cbn [bind]. eauto.
Qed.

Lemma us_business_day d : date_ok d ->
  is_business_day d US_FEDERAL_HOLIDAYS = Ok (us_business (month d) (day d) (weekday d)).
Proof.
  intros Hd. assert (exists b, is_business_day d US_FEDERAL_HOLIDAYS = Ok b) as [b E].
  { unfold is_business_day. apply date_ok_year in Hd. destruct (us_generate (year d) Hd) as (l & ->). cbn [bind]. eauto. }
  rewrite E. f_equal. pose proof (isbd_spec _ d us_nodup b E) as S.
  assert (X : (exists n h, In (n, h) US_FEDERAL_HOLIDAYS /\ holiday_date h (year d) d) <-> us_observed (month d) (day d) (weekday d) = true).
  { unfold us_observed. rewrite !orb_true_iff. split.
    - intros (n & h & I & D). pose proof us_good as G. unfold US_FEDERAL_HOLIDAYS in *. cbn [In] in I.
      repeat match goal with H : Forall2 _ (_ :: _) (_ :: _) |- _ => inversion H; clear H; subst end.
      cbn [snd] in *.
      repeat (destruct I as [[= <- <-]|I]; [match goal with Gh : good_holiday _ _ |- _ => apply (good_holiday_iff _ _ _ Gh Hd) in D; tauto end|]).
      destruct I.
    - intros H. pose proof us_good as G. unfold US_FEDERAL_HOLIDAYS in *.
      repeat match goal with H : Forall2 _ (_ :: _) (_ :: _) |- _ => inversion H; clear H; subst end.
      cbn [snd] in *.
      repeat match type of H with _ \/ _ => destruct H as [H|H] end;
      match goal with
      | Gh : good_holiday ?h ?f, Hf : ?f _ _ _ = true |- _ =>
         apply (good_holiday_iff _ _ _ Gh Hd) in Hf; do 2 eexists; split; [|exact Hf]; cbn [In]; tauto
      end. }
  unfold us_business. pose proof (weekday_range d) as W.
  destruct (us_observed (month d) (day d) (weekday d)) eqn:O; destruct b; cbn [negb]; rewrite ?andb_false_r, ?andb_true_r; auto.
  - exfalso. destruct (proj1 S eq_refl) as [_ N]. apply N. apply X. reflexivity.
  - destruct (proj1 S eq_refl) as [L _]. lia.
  - destruct (weekday d <=? 4) eqn:L; auto. apply S. split; [lia|]. intros Y. apply X in Y. discriminate.
Qed.
