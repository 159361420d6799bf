(** Facts about the calendar model. *)
From Verif Require Import Base PyDate.
Ltac Zify.zify_post_hook ::= Z.div_mod_to_equations.

Definition yearlen (y : Z) : Z := if is_leap y then 366 else 365.

Lemma is_leap_spec y : is_leap y = true <-> (y mod 4 = 0 /\ (y mod 100 <> 0 \/ y mod 400 = 0)).
Proof. unfold is_leap. lia. Qed.

Lemma dby_succ y : days_before_year (y + 1) = days_before_year y + yearlen y.
Proof.
  unfold days_before_year, yearlen, is_leap.
  destruct (y mod 4 =? 0) eqn:E4; destruct (y mod 100 =? 0) eqn:E100;
    destruct (y mod 400 =? 0) eqn:E400; cbn [andb orb negb]; lia.
Qed.

Lemma yearlen_bounds y : 365 <= yearlen y <= 366.
Proof. unfold yearlen; destruct (is_leap y); lia. Qed.

Lemma dby_mono y y' : y < y' -> days_before_year y + yearlen y <= days_before_year y'.
Proof.
  intros H. rewrite <- dby_succ. replace y' with (y + 1 + (y' - (y + 1))) by lia.
  assert (Hk : 0 <= y' - (y + 1)) by lia. revert Hk. generalize (y' - (y + 1)). intros k Hk.
  pattern k. apply natlike_ind; auto.
  - rewrite Z.add_0_r. lia.
  - intros x Hx IH. unfold Z.succ. rewrite Z.add_assoc. rewrite (dby_succ (y + 1 + x)).
    pose proof (yearlen_bounds (y + 1 + x)). lia.
Qed.

(** Specification of the year split: unique year containing the ordinal. *)
Lemma ord2yd_spec d :
  let '(y, n) := ord2yd d in days_before_year y + n + 1 = d /\ 0 <= n < yearlen y.
Proof.
  unfold ord2yd.
  remember (d - 1) as n eqn:Hn.
  pose proof (Z.div_mod n 146097 ltac:(lia)) as E1.
  pose proof (Z.mod_pos_bound n 146097 ltac:(lia)) as B1.
  remember (n / 146097) as n400. remember (n mod 146097) as r1.
  pose proof (Z.div_mod r1 36524 ltac:(lia)) as E2.
  pose proof (Z.mod_pos_bound r1 36524 ltac:(lia)) as B2.
  remember (r1 / 36524) as n100. remember (r1 mod 36524) as r2.
  pose proof (Z.div_mod r2 1461 ltac:(lia)) as E3.
  pose proof (Z.mod_pos_bound r2 1461 ltac:(lia)) as B3.
  remember (r2 / 1461) as n4. remember (r2 mod 1461) as r3.
  pose proof (Z.div_mod r3 365 ltac:(lia)) as E4.
  pose proof (Z.mod_pos_bound r3 365 ltac:(lia)) as B4.
  remember (r3 / 365) as n1. remember (r3 mod 365) as r4.
  assert (0 <= n100 <= 4) by lia. assert (0 <= n4 <= 24) by lia. assert (0 <= n1 <= 4) by lia.
  clear Heqn400 Heqr1 Heqn100 Heqr2 Heqn4 Heqr3 Heqn1 Heqr4.
  assert (Hy : forall c y4 y1, 0 <= c <= 3 -> 0 <= y4 <= 24 -> 0 <= y1 <= 3 ->
     let y := n400 * 400 + 1 + c * 100 + y4 * 4 + y1 in
     days_before_year y = n400 * 146097 + c * 36524 + y4 * 1461 + y1 * 365 /\
     yearlen y = if (y1 =? 3) && (negb (y4 =? 24) || (c =? 3)) then 366 else 365).
  { intros c y4 y1 Hc Hy4 Hy1 y. subst y. split.
    - unfold days_before_year.
      replace (n400 * 400 + 1 + c * 100 + y4 * 4 + y1 - 1) with (n400 * 400 + c * 100 + y4 * 4 + y1) by lia.
      assert ((n400 * 400 + c * 100 + y4 * 4 + y1) / 4 = n400 * 100 + c * 25 + y4) by lia.
      assert ((n400 * 400 + c * 100 + y4 * 4 + y1) / 100 = n400 * 4 + c) by lia.
      assert ((n400 * 400 + c * 100 + y4 * 4 + y1) / 400 = n400) by lia.
      lia.
    - unfold yearlen, is_leap.
      assert (A1 : (n400 * 400 + 1 + c * 100 + y4 * 4 + y1) mod 4 = (y1 + 1) mod 4) by lia.
      assert (A2 : ((n400 * 400 + 1 + c * 100 + y4 * 4 + y1) mod 100 =? 0) = ((y4 =? 24) && (y1 =? 3))).
      { destruct ((y4 =? 24) && (y1 =? 3)) eqn:E; lia. }
      assert (A3 : ((n400 * 400 + 1 + c * 100 + y4 * 4 + y1) mod 400 =? 0) = ((c =? 3) && (y4 =? 24) && (y1 =? 3))).
      { destruct ((c =? 3) && (y4 =? 24) && (y1 =? 3)) eqn:E; lia. }
      rewrite A1, A2, A3.
      assert (A4 : ((y1 + 1) mod 4 =? 0) = (y1 =? 3)) by (destruct (y1 =? 3) eqn:E; lia).
      rewrite A4.
      destruct (y1 =? 3), (y4 =? 24), (c =? 3); reflexivity. }
  destruct ((n1 =? 4) || (n100 =? 4)) eqn:E.
  - destruct (n100 =? 4) eqn:Ec.
    + assert (n100 = 4) by lia; subst n100. assert (n4 = 0) by lia; assert (n1 = 0) by lia; subst n4 n1.
      replace (n400 * 400 + 1 + 4 * 100 + 0 * 4 + 0 - 1) with (n400 * 400 + 1 + 3 * 100 + 24 * 4 + 3) by lia.
      destruct (Hy 3 24 3) as [-> ->]; try lia. cbn. lia.
    + assert (n1 = 4) by lia; subst n1. assert (n4 <> 24 \/ n100 = 3) by lia.
      replace (n400 * 400 + 1 + n100 * 100 + n4 * 4 + 4 - 1) with (n400 * 400 + 1 + n100 * 100 + n4 * 4 + 3) by lia.
      destruct (Hy n100 n4 3) as [-> ->]; try lia.
      replace (3 =? 3) with true by reflexivity.
      destruct (n4 =? 24) eqn:F4, (n100 =? 3) eqn:F3; cbn [andb orb negb]; lia.
  - destruct (Hy n100 n4 n1) as [-> ->]; try lia.
    destruct ((n1 =? 3) && (negb (n4 =? 24) || (n100 =? 3))); lia.
Qed.

Lemma year_yday_spec d :
  days_before_year (year d) + yday d + 1 = d /\ 0 <= yday d < yearlen (year d).
Proof.
  unfold year, yday. pose proof (ord2yd_spec d) as H. destruct (ord2yd d) as [y n]. exact H.
Qed.

Lemma year_unique d y : days_before_year y < d <= days_before_year y + yearlen y -> year d = y.
Proof.
  intros H. destruct (year_yday_spec d) as [E B].
  destruct (Z.lt_trichotomy (year d) y) as [L | [L | L]]; auto; apply dby_mono in L; lia.
Qed.

Lemma year_mono d d' : d <= d' -> year d <= year d'.
Proof.
  intros H. destruct (Z_le_gt_dec (year d) (year d')) as [|G]; auto.
  assert (L : year d' < year d) by lia. apply dby_mono in L.
  pose proof (year_yday_spec d). pose proof (year_yday_spec d'). lia.
Qed.

(** Month split, for both kinds of year: a finite check. *)
Lemma dim_dim_l y m : days_in_month y m = dim_l (is_leap y) m.
Proof. reflexivity. Qed.

Definition chk_yday (leap : bool) (n : Z) : bool :=
  let '(m, d) := yday2md leap n in
  (1 <=? m) && (m <=? 12) && (1 <=? d) && (d <=? dim_l leap m) && (days_before_month_l leap m + d - 1 =? n).
Lemma chk_yday_all (leap : bool) : forallb (fun n => chk_yday leap (Z.of_nat n)) (seq 0 (if leap then 366 else 365)) = true.
Proof. destruct leap; vm_compute; reflexivity. Qed.

Lemma yday2md_spec (leap : bool) n : 0 <= n < (if leap then 366 else 365) ->
  let '(m, d) := yday2md leap n in
  1 <= m <= 12 /\ 1 <= d <= dim_l leap m /\ days_before_month_l leap m + d - 1 = n.
Proof.
  intros H. pose proof (chk_yday_all leap) as C. rewrite forallb_forall in C.
  specialize (C (Z.to_nat n)). rewrite in_seq in C. rewrite Z2Nat.id in C by lia.
  assert (A : chk_yday leap n = true) by (apply C; destruct leap; lia).
  unfold chk_yday in A. destruct (yday2md leap n) as [m d]. lia.
Qed.

Tactic Notation "month_cases" constr(m) ident(H) :=
  assert (m = 1 \/ m = 2 \/ m = 3 \/ m = 4 \/ m = 5 \/ m = 6 \/ m = 7 \/ m = 8 \/ m = 9 \/ m = 10 \/ m = 11 \/ m = 12)
    as H by lia;
  destruct H as [H|[H|[H|[H|[H|[H|[H|[H|[H|[H|[H|H]]]]]]]]]]].

Lemma dbm_succ (leap : bool) m : 1 <= m <= 11 -> days_before_month_l leap (m + 1) = days_before_month_l leap m + dim_l leap m.
Proof.
  intros H. month_cases m E; subst m; try lia; destruct leap; reflexivity.
Qed.

Lemma dbm_lt (leap : bool) m m' : 1 <= m -> m < m' <= 12 ->
  days_before_month_l leap m + dim_l leap m <= days_before_month_l leap m'.
Proof.
  intros H1 H2. month_cases m E; subst m; try lia; month_cases m' E'; subst m'; try lia;
    destruct leap; vm_compute; discriminate.
Qed.

Lemma dbm_bounds (leap : bool) m : 1 <= m <= 12 ->
  0 <= days_before_month_l leap m /\ days_before_month_l leap m + dim_l leap m <= (if leap then 366 else 365)
  /\ 28 <= dim_l leap m <= 31.
Proof.
  intros H. month_cases m E; subst m; destruct leap; vm_compute; repeat split; discriminate.
Qed.

Lemma date_parts d :
  1 <= month d <= 12 /\ 1 <= day d <= days_in_month (year d) (month d) /\
  ymd2ord (year d) (month d) (day d) = d /\ yday d = days_before_month (year d) (month d) + day d - 1.
Proof.
  unfold month, day, ymd2ord, days_before_month. rewrite dim_dim_l.
  destruct (year_yday_spec d) as [E B]. unfold yearlen in B.
  pose proof (yday2md_spec (is_leap (year d)) (yday d) B) as S.
  destruct (yday2md _ _) as [m dd]. cbn [fst snd]. lia.
Qed.

(* Keep conversion from unfolding the calendar algorithms. *)
Global Opaque year yday month day.

Lemma month_unique (leap : bool) m d m' d' :
  1 <= m <= 12 -> 1 <= m' <= 12 -> 1 <= d <= dim_l leap m -> 1 <= d' <= dim_l leap m' ->
  days_before_month_l leap m + d = days_before_month_l leap m' + d' -> m = m' /\ d = d'.
Proof.
  intros Hm Hm' Hd Hd' E.
  destruct (Z.lt_trichotomy m m') as [L | [L | L]].
  - pose proof (dbm_lt leap m m' (proj1 Hm) (conj L (proj2 Hm'))). exfalso; lia.
  - subst m'. split; auto. lia.
  - pose proof (dbm_lt leap m' m (proj1 Hm') (conj L (proj2 Hm))). exfalso; lia.
Qed.

Lemma ymd2ord_year y m d : 1 <= m <= 12 -> 1 <= d <= days_in_month y m -> year (ymd2ord y m d) = y.
Proof.
  intros Hm Hd. apply year_unique. unfold ymd2ord, days_before_month.
  change (days_in_month y m) with (dim_l (is_leap y) m) in Hd.
  pose proof (dbm_bounds (is_leap y) m Hm) as B.
  change (if is_leap y then 366 else 365) with (yearlen y) in B.
  revert Hd B. generalize (days_before_month_l (is_leap y) m) (dim_l (is_leap y) m) (yearlen y) (days_before_year y).
  intros; lia.
Qed.

Lemma ymd2ord_inj_parts y m d : 1 <= m <= 12 -> 1 <= d <= days_in_month y m ->
  year (ymd2ord y m d) = y /\ month (ymd2ord y m d) = m /\ day (ymd2ord y m d) = d.
Proof.
  intros Hm Hd. pose proof (ymd2ord_year y m d Hm Hd) as Y. split; [exact Y|].
  destruct (date_parts (ymd2ord y m d)) as (A & B & C & _).
  remember (ymd2ord y m d) as X eqn:EX. rewrite Y in B, C. unfold ymd2ord in EX, C. unfold days_before_month in EX, C.
  apply (month_unique (is_leap y)); auto. lia.
Qed.

Lemma year_ymd y m d : 1 <= m <= 12 -> 1 <= d <= days_in_month y m -> year (ymd2ord y m d) = y.
Proof. intros; apply ymd2ord_inj_parts; auto. Qed.
Lemma month_ymd y m d : 1 <= m <= 12 -> 1 <= d <= days_in_month y m -> month (ymd2ord y m d) = m.
Proof. intros; apply ymd2ord_inj_parts; auto. Qed.
Lemma day_ymd y m d : 1 <= m <= 12 -> 1 <= d <= days_in_month y m -> day (ymd2ord y m d) = d.
Proof. intros; apply ymd2ord_inj_parts; auto. Qed.

Lemma dby_1 : days_before_year 1 = 0. Proof. reflexivity. Qed.
Lemma dby_10000 : days_before_year 10000 = 3652059. Proof. reflexivity. Qed.

Lemma date_ok_year d : date_ok d <-> 1 <= year d <= 9999.
Proof.
  unfold date_ok, min_date, max_date. destruct (year_yday_spec d) as [E B]. split; intros H.
  - destruct (Z_le_gt_dec 1 (year d)) as [H1|H1].
    + destruct (Z_le_gt_dec (year d) 9999) as [H2|H2]; [lia|].
      assert (L : 9999 < year d) by lia. apply dby_mono in L.
      rewrite <- dby_succ in L. change (9999 + 1) with 10000 in L. rewrite dby_10000 in L. lia.
    + assert (L : year d < 1) by lia. apply dby_mono in L. rewrite dby_1 in L. lia.
  - assert (L : days_before_year 1 <= days_before_year (year d)).
    { destruct (Z.eq_dec (year d) 1) as [->|N]; [lia|].
      assert (L : 1 < year d) by lia. apply dby_mono in L. pose proof (yearlen_bounds 1). lia. }
    assert (L2 : year d < 10000) by lia. apply dby_mono in L2. rewrite dby_1 in L. rewrite dby_10000 in L2. lia.
Qed.

Lemma ymd_ok_spec y m d :
  ymd_ok y m d = true <-> 1 <= y <= 9999 /\ 1 <= m <= 12 /\ 1 <= d <= days_in_month y m.
Proof. unfold ymd_ok. lia. Qed.

Lemma ymd_ok_parts d : date_ok d -> ymd_ok (year d) (month d) (day d) = true.
Proof. intros H. apply ymd_ok_spec. apply date_ok_year in H. pose proof (date_parts d). lia. Qed.

Lemma mk_date_parts d : date_ok d -> mk_date (year d) (month d) (day d) = Ok d.
Proof. intros H. unfold mk_date. rewrite ymd_ok_parts by auto. f_equal. apply date_parts. Qed.

Lemma mk_date_ok y m d x : mk_date y m d = Ok x <->
  (1 <= y <= 9999 /\ 1 <= m <= 12 /\ 1 <= d <= days_in_month y m) /\ x = ymd2ord y m d.
Proof.
  unfold mk_date. destruct (ymd_ok y m d) eqn:E.
  - apply ymd_ok_spec in E. split; [intros [= <-]|intros [_ ->]]; auto.
  - split; [discriminate|]. intros [H _]. apply ymd_ok_spec in H. congruence.
Qed.

Lemma ymd2ord_date_ok y m d : 1 <= y <= 9999 -> 1 <= m <= 12 -> 1 <= d <= days_in_month y m ->
  date_ok (ymd2ord y m d).
Proof. intros Hy Hm Hd. apply date_ok_year. rewrite year_ymd by auto. exact Hy. Qed.

Lemma mk_date_date_ok y m d x : mk_date y m d = Ok x ->
  date_ok x /\ year x = y /\ month x = m /\ day x = d.
Proof.
  intros H. apply mk_date_ok in H. destruct H as [(Hy & Hm & Hd) ->].
  pose proof (ymd2ord_inj_parts y m d Hm Hd). split; [apply ymd2ord_date_ok; auto|tauto].
Qed.

(** Dates order as (year, month, day) triples. *)
Lemma date_lt_lex d d' : d < d' <->
  year d < year d' \/ (year d = year d' /\ (month d < month d' \/ (month d = month d' /\ day d < day d'))).
Proof.
  destruct (date_parts d) as (M1 & D1 & O1 & _). destruct (date_parts d') as (M2 & D2 & O2 & _).
  unfold ymd2ord, days_before_month in O1, O2.
  change (days_in_month (year d) (month d)) with (dim_l (is_leap (year d)) (month d)) in D1.
  change (days_in_month (year d') (month d')) with (dim_l (is_leap (year d')) (month d')) in D2.
  pose proof (dbm_bounds (is_leap (year d)) (month d) M1) as B1.
  pose proof (dbm_bounds (is_leap (year d')) (month d') M2) as B2.
  change (if is_leap (year d) then 366 else 365) with (yearlen (year d)) in B1.
  change (if is_leap (year d') then 366 else 365) with (yearlen (year d')) in B2.
  revert M1 M2 D1 D2 O1 O2 B1 B2. generalize (day d) (day d') (month d) (month d').
  intros a a' m m' M1 M2 D1 D2 O1 O2 B1 B2.
  destruct (Z.lt_trichotomy (year d) (year d')) as [L|[L|L]].
  - pose proof (dby_mono _ _ L) as P. clear - M1 M2 D1 D2 O1 O2 B1 B2 P L.
    revert D1 D2 O1 O2 B1 B2 P L. 
    generalize (dim_l (is_leap (year d)) m) (dim_l (is_leap (year d')) m') (days_before_year (year d)) (days_before_year (year d')) (yearlen (year d)) (yearlen (year d')) (year d) (year d') (days_before_month_l (is_leap (year d)) m) (days_before_month_l (is_leap (year d')) m').
    intros; lia.
  - rewrite L in D1, O1, B1 |- *. revert D1 D2 O1 O2 B1 B2. generalize (year d').
    clear L. intros yy D1 D2 O1 O2 B1 B2. revert D1 D2 O1 O2 B1 B2. generalize (is_leap yy) (days_before_year yy) (yearlen yy).
    intros lp by_ yl D1 D2 O1 O2 B1 B2.
    destruct (Z.lt_trichotomy m m') as [K|[K|K]].
    + pose proof (dbm_lt lp _ _ (proj1 M1) (conj K (proj2 M2))) as P. revert P D1 D2 O1 O2. 
      generalize (dim_l lp m) (dim_l lp m') (days_before_month_l lp m) (days_before_month_l lp m'). intros; lia.
    + subst m'. revert O1 O2. generalize (days_before_month_l lp m). intros; lia.
    + pose proof (dbm_lt lp _ _ (proj1 M2) (conj K (proj2 M1))) as P. revert P D1 D2 O1 O2. 
      generalize (dim_l lp m) (dim_l lp m') (days_before_month_l lp m) (days_before_month_l lp m'). intros; lia.
  - pose proof (dby_mono _ _ L) as P. clear - M1 M2 D1 D2 O1 O2 B1 B2 P L.
    revert D1 D2 O1 O2 B1 B2 P L. 
    generalize (dim_l (is_leap (year d)) m) (dim_l (is_leap (year d')) m') (days_before_year (year d)) (days_before_year (year d')) (yearlen (year d)) (yearlen (year d')) (year d) (year d') (days_before_month_l (is_leap (year d)) m) (days_before_month_l (is_leap (year d')) m').
    intros; lia.
Qed.

Lemma date_ext d d' : year d = year d' -> month d = month d' -> day d = day d' -> d = d'.
Proof. intros A B C. pose proof (date_lt_lex d d'). pose proof (date_lt_lex d' d). lia. Qed.

Lemma add_days_ok d n x : add_days d n = Ok x <-> x = d + n /\ date_ok (d + n).
Proof.
  unfold add_days, date_ok. destruct ((min_date <=? d + n) && (d + n <=? max_date)) eqn:E.
  - split; [intros [= <-]|intros [-> _]]; auto. split; auto. lia.
  - split; [discriminate|]. intros [_ H]. lia.
Qed.

Lemma add_days_err d n e : add_days d n = Err e <-> e = OverflowError /\ ~ date_ok (d + n).
Proof.
  unfold add_days, date_ok. destruct ((min_date <=? d + n) && (d + n <=? max_date)) eqn:E.
  - split; [discriminate|]. lia.
  - split; [intros [= <-]|intros [-> _]]; auto. split; auto. lia.
Qed.

Lemma weekday_range d : 0 <= weekday d <= 6.
Proof. unfold weekday. lia. Qed.

(** The calendar is anchored correctly. *)
Example epoch : mk_date 1970 1 1 = Ok 719163. Proof. reflexivity. Qed.
Example epoch_thursday : weekday 719163 = 3. Proof. vm_compute; reflexivity. Qed.
Example last_date : mk_date 9999 12 31 = Ok max_date. Proof. reflexivity. Qed.

(** Facts about [add_months]. *)
Lemma add_months_ok d n x : add_months d n = Ok x <->
  exists y m, y * 12 + (m - 1) = year d * 12 + (month d - 1) + n /\ 1 <= m <= 12 /\ 1 <= y <= 9999 /\
    x = ymd2ord y m (Z.min (day d) (days_in_month y m)).
Proof.
  unfold add_months. set (t := year d * 12 + (month d - 1) + n).
  rewrite mk_date_ok. 
  assert (H28 : forall y m, 1 <= m <= 12 -> 28 <= days_in_month y m <= 31).
  { intros y m Hm. rewrite dim_dim_l. apply dbm_bounds; auto. }
  pose proof (date_parts d) as (Hm & Hd & _).
  split.
  - intros ((A & B & C) & ->). exists (t / 12), (t mod 12 + 1). repeat split; try lia.
  - intros (y & m & E & Bm & By & ->).
    assert (t / 12 = y) as -> by lia. assert (t mod 12 + 1 = m) as -> by lia.
    pose proof (H28 y m Bm). repeat split; try lia.
Qed.

Lemma add_months_parts d n x : add_months d n = Ok x ->
  date_ok x /\ year x * 12 + month x = year d * 12 + month d + n /\
  day x = Z.min (day d) (days_in_month (year x) (month x)).
Proof.
  intros H. apply add_months_ok in H. destruct H as (y & m & E & Bm & By & ->).
  pose proof (date_parts d) as (Hm & Hd & _).
  assert (28 <= days_in_month y m <= 31) by (rewrite dim_dim_l; apply dbm_bounds; auto).
  destruct (ymd2ord_inj_parts y m (Z.min (day d) (days_in_month y m))) as (-> & -> & ->); try lia.
  split; [|lia]. apply ymd2ord_date_ok; lia.
Qed.

Lemma add_months_total d n : 12 <= year d * 12 + (month d - 1) + n < 120000 ->
  exists x, add_months d n = Ok x.
Proof.
  intros H. eexists. apply add_months_ok. 
  exists ((year d * 12 + (month d - 1) + n) / 12), ((year d * 12 + (month d - 1) + n) mod 12 + 1).
  repeat split; try lia.
Qed.

Lemma add_months_err d n e : add_months d n = Err e -> e = ValueError /\
  ~ (12 <= year d * 12 + (month d - 1) + n < 120000).
Proof.
  intros H. split.
  - unfold add_months, mk_date in H. destruct (ymd_ok _ _ _); congruence.
  - intros B. apply add_months_total in B. destruct B as [x B]. congruence.
Qed.

Lemma month_len y m : 1 <= m <= 12 -> 28 <= days_in_month y m <= 31.
Proof. intros. rewrite dim_dim_l. apply dbm_bounds; auto. Qed.
