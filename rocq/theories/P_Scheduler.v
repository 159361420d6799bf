(** Property theorems C07-C19 (holidays, business days, settlement, date grids).  Statements only use the model of the
    code, the specification CalendarSpec.v, and the abbreviations below. *)
From Coq Require FinFun Sorted.
From Verif Require Import Base PyDate PyDateFacts Holidays Scheduler LoopFacts SchedulerFacts CalendarSpec UsFacts ModFollFacts.
Open Scope Z_scope.
Ltac Zify.zify_post_hook ::= Z.div_mod_to_equations.

(** Abbreviations: [is_business_day] answered True / False. *)
Definition business (cal : calendar) (d : date) : Prop := date_ok d /\ is_business_day d cal = Ok true.
Definition non_business (cal : calendar) (d : date) : Prop := is_business_day d cal = Ok false.
(** number of business days y with a < y <= b *)
Definition business_count (cal : calendar) (a b : date) : nat :=
  List.length (filter (fun y => match is_business_day y cal with Ok true => true | _ => false end)
                      (List.map (fun i => a + 1 + Z.of_nat i) (seq 0 (Z.to_nat (b - a))))).

(** C07 *)
Theorem C07_next_weekday : forall d w, 0 <= w <= 6 -> date_ok d ->
  match get_next_weekday d w with
  | Ok x => date_ok x /\ d <= x <= d + 6 /\ weekday x = w /\ (forall y, d <= y < x -> weekday y <> w)
  | Err e => e = OverflowError /\ forall y, d <= y <= max_date -> weekday y <> w
  end.
Proof. exact next_weekday_spec. Qed.
Print Assumptions C07_next_weekday.

Theorem C07_itself : forall d w, 0 <= w <= 6 -> date_ok d -> (get_next_weekday d w = Ok d <-> weekday d = w).
Proof.
  intros d w H O. pose proof (next_weekday_spec d w H O) as S. split.
  - intros E. rewrite E in S. tauto.
  - intros E. unfold get_next_weekday. rewrite E, Z.eqb_refl. reflexivity.
Qed.
Print Assumptions C07_itself.

Example C07_case : exists d x, mk_date 2024 2 15 = Ok d /\ get_next_weekday d MONDAY = Ok x /\ mk_date 2024 2 19 = Ok x.
Proof. do 2 eexists. split; [vm_compute; reflexivity|]. split; vm_compute; reflexivity. Qed.

(** C08 *)
Theorem C08_observance : forall d, date_ok d ->
  match us_federal_holiday_adjustment d with
  | Ok x => date_ok x /\ 0 <= weekday x <= 4 /\ d - 1 <= x <= d + 1 /\
            x = (if weekday d =? 5 then d - 1 else if weekday d =? 6 then d + 1 else d)
  | Err e => e = OverflowError /\ ((weekday d = 5 /\ d = min_date) \/ (weekday d = 6 /\ d = max_date))
  end.
Proof. exact adjustment_spec. Qed.
Print Assumptions C08_observance.

(** The exceptional branch is empty in fact: the first date is a Monday and the last a Friday. *)
Theorem C08_total : forall d, date_ok d -> exists x, us_federal_holiday_adjustment d = Ok x.
Proof.
  intros d O. pose proof (adjustment_spec d O) as S. destruct (us_federal_holiday_adjustment d); eauto.
  destruct S as (_ & [[W E]|[W E]]); subst d; [rewrite min_weekday in W|rewrite max_weekday in W]; discriminate.
Qed.
Print Assumptions C08_total.

Example C08_case : exists d x, mk_date 2026 7 4 = Ok d /\ us_federal_holiday_adjustment d = Ok x /\ mk_date 2026 7 3 = Ok x.
Proof. do 2 eexists. split; [vm_compute; reflexivity|]. split; vm_compute; reflexivity. Qed.

(** C09: the n-th weekday w of a month, by counting. *)
Definition nth_weekday_of_month (y m w n : Z) (x : date) : Prop :=
  year x = y /\ month x = m /\ weekday x = w /\
  exists l, NoDup l /\ Z.of_nat (List.length l) = n /\
    forall z, In z l <-> (year z = y /\ month z = m /\ weekday z = w /\ z <= x).

Lemma nth_observed_count hm hw n x : 0 <= hw <= 6 -> 1 <= n -> nth_observed hm hw n (month x) (day x) (weekday x) = true ->
  nth_weekday_of_month (year x) hm hw n x.
Proof.
  intros Hw Hn H. unfold nth_observed in H. rewrite !andb_true_iff, !Z.eqb_eq, Z.ltb_lt, Z.leb_le in H.
  destruct H as (((M & W) & L) & U). split; [reflexivity|]. split; [auto|]. split; [auto|].
  exists (List.map (fun i => x - 7 * Z.of_nat i) (seq 0 (Z.to_nat n))). split; [|split].
  - apply FinFun.Injective_map_NoDup; [|apply seq_NoDup]. intros i j E. lia.
  - rewrite map_length, seq_length. lia.
  - intros z. rewrite in_map_iff. pose proof (date_parts x) as (Mx & Dx & _). split.
    + intros (i & <- & I). apply in_seq in I.
      destruct (shift_parts x (- (7 * Z.of_nat i))) as (Y1 & M1 & D1); [lia|].
      replace (x + - (7 * Z.of_nat i)) with (x - 7 * Z.of_nat i) in * by lia.
      repeat split; try congruence; try lia. unfold weekday in *. lia.
    + intros (Yz & Mz & Wz & Lz).
      assert (E : z = x + (day z - day x)).
      { pose proof (date_parts z) as (Mz' & Dz & Ez & _). destruct (date_parts x) as (_ & _ & Ex & _).
        rewrite Yz, Mz in Ez. rewrite M in Ex. unfold ymd2ord in *. lia. }
      pose proof (date_parts z) as (_ & Dz & _).
      exists (Z.to_nat ((x - z) / 7)). unfold weekday in W, Wz. rewrite in_seq. lia.
Qed.

Theorem C09_floating_holidays : forall y, 1 <= y <= 9999 ->
  exists p l c t,
    generate_holiday_dates "Presidents" y y US_FEDERAL_HOLIDAYS = Ok [p] /\ nth_weekday_of_month y 2 MONDAY 3 p /\
    generate_holiday_dates "Labor" y y US_FEDERAL_HOLIDAYS = Ok [l] /\ nth_weekday_of_month y 9 MONDAY 1 l /\
    generate_holiday_dates "Columbus" y y US_FEDERAL_HOLIDAYS = Ok [c] /\ nth_weekday_of_month y 10 MONDAY 2 c /\
    generate_holiday_dates "Thanksgiving" y y US_FEDERAL_HOLIDAYS = Ok [t] /\ nth_weekday_of_month y 11 THURSDAY 4 t.
Proof.
  intros y Hy.
  assert (G : forall name hm hw n, 1 <= hm <= 12 -> 0 <= hw <= 6 -> 1 <= n <= 4 ->
     lookup name US_FEDERAL_HOLIDAYS = Some (Build_Holiday hm (7 * (n - 1) + 1) (fun d => get_next_weekday d hw)) ->
     exists x, generate_holiday_dates name y y US_FEDERAL_HOLIDAYS = Ok [x] /\ nth_weekday_of_month y hm hw n x).
  { intros name hm hw n Hm Hw Hn LK. destruct (nth_holiday hm hw n y Hy Hm Hw Hn) as (x0 & x & E0 & E1 & Yx & O & _).
    exists x. split.
    - eapply gen_one_year; [exact LK|]. cbn [h_month h_day h_adjust]. rewrite E0. exact E1.
    - rewrite <- Yx. apply nth_observed_count; auto; lia. }
  destruct (G "Presidents"%string 2 MONDAY 3) as (p & P1 & P2); try (unfold MONDAY; lia); try reflexivity.
  destruct (G "Labor"%string 9 MONDAY 1) as (l & L1 & L2); try (unfold MONDAY; lia); try reflexivity.
  destruct (G "Columbus"%string 10 MONDAY 2) as (c & C1 & C2); try (unfold MONDAY; lia); try reflexivity.
  destruct (G "Thanksgiving"%string 11 THURSDAY 4) as (t & T1 & T2); try (unfold THURSDAY; lia); try reflexivity.
  exists p, l, c, t. tauto.
Qed.
Print Assumptions C09_floating_holidays.

Example C09_case : exists x, generate_holiday_dates "Thanksgiving" 2023 2023 US_FEDERAL_HOLIDAYS = Ok [x] /\ mk_date 2023 11 23 = Ok x.
Proof. eexists. split; vm_compute; reflexivity. Qed.

(** C10: dates are those of calendar entries (name, (month, day, adjustment)); [holiday_date h y x]: x is the adjusted
    date of h in year y. *)
Theorem C10_generate_all : forall a b cal l, NoDup (List.map fst cal) -> generate_all_holidays a b cal = Ok l ->
  forall x, In x l <-> exists name h y d, In (name, h) cal /\ a <= y <= b /\
                          mk_date y (h_month h) (h_day h) = Ok d /\ h_adjust h d = Ok x.
Proof.
  intros a b cal l ND G x. rewrite (gen_all_spec a b cal l ND G x). unfold holiday_date. split.
  - intros (n & h & y & I & B & d & D1 & D2). exists n, h, y, d. auto.
  - intros (n & h & y & d & I & B & D1 & D2). exists n, h, y. eauto.
Qed.
Print Assumptions C10_generate_all.

Theorem C10_generate_one : forall name a b cal l, generate_holiday_dates name a b cal = Ok l ->
  exists h, In (name, h) cal /\ forall x, In x l <-> exists y d, a <= y <= b /\ mk_date y (h_month h) (h_day h) = Ok d /\ h_adjust h d = Ok x.
Proof.
  intros n a b cal l G. destruct (gen_one_spec n a b cal l G) as (h & L & S). exists h. split; [apply lookup_In; auto|].
  intros x. rewrite (S x). unfold holiday_date. split; [intros (y & B & d & D)|intros (y & d & B & D)]; [exists y, d; tauto|exists y; split; auto; exists d; tauto].
Qed.
Print Assumptions C10_generate_one.

Theorem C10_unknown_name : forall name a b cal, ~ In name (List.map fst cal) -> generate_holiday_dates name a b cal = Err KeyError.
Proof.
  intros n a b cal N. apply gen_unknown. destruct (lookup n cal) as [h|] eqn:E; auto. exfalso. apply N.
  apply lookup_In in E. apply (in_map fst) in E. exact E.
Qed.
Print Assumptions C10_unknown_name.

Theorem C10_us_total : forall y, 1 <= y <= 9999 -> exists l, generate_all_holidays y y US_FEDERAL_HOLIDAYS = Ok l.
Proof. exact us_generate. Qed.
Print Assumptions C10_us_total.

Example C10_case : NoDup (List.map fst US_FEDERAL_HOLIDAYS) /\ exists l, generate_all_holidays 2021 2023 US_FEDERAL_HOLIDAYS = Ok l /\ List.length l = 33%nat.
Proof. split; [apply us_nodup|]. eexists. split; vm_compute; reflexivity. Qed.

(** C11 *)
Theorem C11_following_business_day : forall cal d x, date_ok d ->
  (add_business_days d 0 cal = Ok x <->
   d <= x /\ business cal x /\ forall y, d <= y < x -> non_business cal y).
Proof. intros cal d x O. rewrite add0. exact (seek_up_iff cal d x O). Qed.
Print Assumptions C11_following_business_day.

Theorem C11_following_is_it : forall cal d, following_date_adjustment d cal = add_business_days d 0 cal.
Proof. reflexivity. Qed.
Print Assumptions C11_following_is_it.

Theorem C11_laws : forall cal d d' x x', date_ok d -> date_ok d' ->
  following_date_adjustment d cal = Ok x -> following_date_adjustment d' cal = Ok x' ->
  (x = d <-> business cal d) /\ (d <= d' -> x <= x') /\ following_date_adjustment x cal = Ok x.
Proof.
  intros cal d d' x x' O O' E E'. unfold following_date_adjustment in *. rewrite add0 in *.
  apply seek_up_iff in E; auto. apply seek_up_iff in E'; auto. split; [split|split].
  - intros ->. apply E.
  - intros B. apply (first_unique cal d); auto. repeat split; try lia; try apply B.
  - intros L. eapply first_mono; eauto.
  - rewrite seek_self; auto. apply E.
Qed.
Print Assumptions C11_laws.

(** The search always ends: with a date, with OverflowError past the last date, or with an exception of the holiday
    rules themselves; the model's loop bound is never what stops it. *)
Theorem C11_terminates : forall cal d, date_ok d -> (forall y, is_business_day y cal <> Err OutOfFuel) ->
  match add_business_days d 0 cal with
  | Ok _ => True
  | Err e => e <> OutOfFuel /\ exists x, d <= x <= max_date /\ (forall y, d <= y < x -> non_business cal y) /\
       (is_business_day x cal = Err e \/ (e = OverflowError /\ non_business cal x /\ x = max_date))
  end.
Proof.
  intros cal d O NF. rewrite add0. pose proof (seek_up cal d O) as S. destruct (seek_fuel cal d O NF) as [F _].
  destruct (seek_business 1 cal d) as [x|e]; auto. split; [congruence|exact S].
Qed.
Print Assumptions C11_terminates.

(** With the US calendar it never fails: at most three days of non-business days in a row. *)
Theorem C11_us_total : forall d, date_ok d -> exists x, add_business_days d 0 US_FEDERAL_HOLIDAYS = Ok x /\ d <= x <= d + 3.
Proof. intros d O. destruct (us_following d O) as (c & E & F & L). exists c. split; auto. destruct F. lia. Qed.
Print Assumptions C11_us_total.

Example C11_case : exists d x, mk_date 2021 7 3 = Ok d /\ add_business_days d 0 US_FEDERAL_HOLIDAYS = Ok x /\ mk_date 2021 7 6 = Ok x.
Proof. do 2 eexists. split; [vm_compute; reflexivity|]. split; vm_compute; reflexivity. Qed.

(** C12 *)
Theorem C12_counts : forall cal d n x, date_ok d -> 0 <= n -> add_business_days d n cal = Ok x ->
  exists t0, add_business_days d 0 cal = Ok t0 /\ t0 <= x /\ business cal x /\ Z.of_nat (business_count cal t0 x) = n.
Proof.
  intros cal d n x O Hn E. pose proof (abd_isbd cal n d x O E) as B. apply abd_pos in E; auto.
  destruct E as (t0 & F & U). exists t0. rewrite add0. split; [apply seek_up_iff; auto|].
  destruct (up_steps_count cal _ _ _ U) as [L C]. repeat split; auto; try apply B. unfold business_count. unfold business_in in C. lia.
Qed.
Print Assumptions C12_counts.

Theorem C12_compose : forall cal d m n, date_ok d -> 0 <= m -> 0 <= n ->
  add_business_days d (m + n) cal = do x <- add_business_days d m cal; add_business_days x n cal.
Proof. exact abd_compose. Qed.
Print Assumptions C12_compose.

Theorem C12_monotone : forall cal n d d' x x', date_ok d -> date_ok d' -> d <= d' ->
  add_business_days d n cal = Ok x -> add_business_days d' n cal = Ok x' -> x <= x'.
Proof. exact abd_mono. Qed.
Print Assumptions C12_monotone.

Example C12_case : exists d x, mk_date 2021 7 2 = Ok d /\ add_business_days d 2 US_FEDERAL_HOLIDAYS = Ok x /\ mk_date 2021 7 7 = Ok x.
Proof. do 2 eexists. split; [vm_compute; reflexivity|]. split; vm_compute; reflexivity. Qed.

(** C13 *)
Theorem C13_negative : forall cal d n x, date_ok d -> 0 < n -> add_business_days d (- n) cal = Ok x ->
  exists t0, add_business_days d 0 cal = Ok t0 /\ x <= t0 /\ business cal x /\ Z.of_nat (business_count cal x t0) = n.
Proof.
  intros cal d n x O Hn E. pose proof (abd_isbd cal _ d x O E) as B. apply abd_neg in E; [|auto|lia].
  destruct E as (t0 & F & U). exists t0. rewrite add0. split; [apply seek_up_iff; auto|].
  apply (up_down cal _ x t0) in U; auto; [|apply F].
  destruct (up_steps_count cal _ _ _ U) as [L C]. repeat split; auto; try apply B. unfold business_count. unfold business_in in C. lia.
Qed.
Print Assumptions C13_negative.

Theorem C13_inverse : forall cal d n x, business cal d -> 0 <= n ->
  (add_business_days d n cal = Ok x -> add_business_days x (- n) cal = Ok d) /\
  (add_business_days d (- n) cal = Ok x -> add_business_days x n cal = Ok d).
Proof. intros cal d n x B Hn. split; [apply abd_inverse|apply abd_inverse']; auto. Qed.
Print Assumptions C13_inverse.

Theorem C13_subtract_single : forall cal d x, date_ok d -> subtract_single_business_day d cal = Ok x ->
  x < d /\ business cal x /\ forall y, x < y < d -> non_business cal y.
Proof.
  intros cal d x O E. destruct (is_business_day d cal) as [[|]|] eqn:B.
  - apply sub_single_bd in E; [|split; auto]. exact E.
  - exact (sub_single_nbd cal d x O B E).
  - unfold subtract_single_business_day in E. rewrite B in E. discriminate.
Qed.
Print Assumptions C13_subtract_single.

Theorem C13_add_single : forall cal d, date_ok d ->
  (forall x, add_single_business_day d cal = Ok x -> business cal d /\ d < x /\ business cal x /\ forall y, d < y < x -> non_business cal y) /\
  (non_business cal d -> add_single_business_day d cal = Err ValueError).
Proof.
  intros cal d O. split; [|apply add_single_rejects]. intros x E. apply add_single_iff in E; auto.
Qed.
Print Assumptions C13_add_single.

Example C13_case : exists d x, mk_date 2021 7 6 = Ok d /\ add_business_days d (-1) US_FEDERAL_HOLIDAYS = Ok x /\ mk_date 2021 7 2 = Ok x.
Proof. do 2 eexists. split; [vm_compute; reflexivity|]. split; vm_compute; reflexivity. Qed.

(** C14 *)
Theorem C14_modified_following : forall cal d r, date_ok d -> modified_following_date_adjustment d cal = Ok r ->
  business cal r /\ exists c, following_date_adjustment d cal = Ok c /\
    ((month c = month d /\ r = c) \/
     (month c <> month d /\ r < d /\ forall y, r < y < d -> non_business cal y)).
Proof.
  intros cal d r O E. destruct (mf_spec cal d r O E) as (B & c & F & C). split; auto. exists c.
  split; [unfold following_date_adjustment; rewrite add0; apply seek_up_iff; auto|].
  destruct C as [C|[C (L & _ & P)]]; auto.
Qed.
Print Assumptions C14_modified_following.

Theorem C14_fixes_business_days : forall cal d, business cal d -> modified_following_date_adjustment d cal = Ok d.
Proof. exact mf_fix. Qed.
Print Assumptions C14_fixes_business_days.

Theorem C14_us : forall d, date_ok d -> exists r, modified_following_date_adjustment d US_FEDERAL_HOLIDAYS = Ok r /\
  business US_FEDERAL_HOLIDAYS r /\ year r = year d /\ month r = month d /\ d - 4 <= r <= d + 3 /\
  modified_following_date_adjustment r US_FEDERAL_HOLIDAYS = Ok r.
Proof.
  intros d O. destruct (us_mf d O) as (r & E & B & Y & M & L). exists r.
  exact (conj E (conj B (conj Y (conj M (conj L (mf_fix _ _ B)))))).
Qed.
Print Assumptions C14_us.

Theorem C14_us_monotone : forall d d' r r', date_ok d -> date_ok d' -> d <= d' ->
  modified_following_date_adjustment d US_FEDERAL_HOLIDAYS = Ok r ->
  modified_following_date_adjustment d' US_FEDERAL_HOLIDAYS = Ok r' -> r <= r'.
Proof. exact us_mf_mono. Qed.
Print Assumptions C14_us_monotone.

Example C14_case : exists d r, mk_date 2022 7 31 = Ok d /\ modified_following_date_adjustment d US_FEDERAL_HOLIDAYS = Ok r /\ mk_date 2022 7 29 = Ok r.
Proof. do 2 eexists. split; [vm_compute; reflexivity|]. split; vm_compute; reflexivity. Qed.

(** C15 *)
Lemma map_seq_sorted a n : Sorted.StronglySorted Z.lt (List.map (fun i => a + Z.of_nat i) (seq 0 n)).
Proof.
  generalize 0%nat. induction n as [|n IH]; intros k; cbn; constructor; auto.
  apply Forall_forall. intros x I. apply in_map_iff in I. destruct I as (i & <- & I). apply in_seq in I. lia.
Qed.
Lemma filter_sorted {A} (R : A -> A -> Prop) f l : Sorted.StronglySorted R l -> Sorted.StronglySorted R (filter f l).
Proof.
  induction 1 as [|a l S IH F]; cbn; [constructor|]. destruct (f a); auto. constructor; auto.
  rewrite Forall_forall in *. intros x I. apply filter_In in I. apply F, I.
Qed.

Theorem C15_enumeration : forall cal s e l, date_ok s -> generate_business_days s e cal = Ok l ->
  Sorted.StronglySorted Z.lt l /\ forall y, In y l <-> s <= y <= e /\ business cal y.
Proof.
  intros cal s e l O E. pose proof (gbd_spec cal s e O) as S. rewrite E in S. destruct S as (D & X & ->).
  unfold bd_list. split.
  - unfold business_in. apply filter_sorted. apply map_seq_sorted.
  - intros y. rewrite business_in_In. split.
    + intros [L B]. split; [lia|]. destruct (D y ltac:(lia)) as [Q|Q]; [exact Q|]. unfold notbd in Q. congruence.
    + intros [L B]. split; [lia|apply B].
Qed.
Print Assumptions C15_enumeration.

(** It succeeds whenever a business day exists after the end and the holiday rules answer for each date of the range. *)
Theorem C15_total : forall cal s e n, date_ok s ->
  (forall y, s <= y <= e -> business cal y \/ non_business cal y) ->
  add_business_days (Z.max s (e + 1)) 0 cal = Ok n -> date_ok (Z.max s (e + 1)) ->
  exists l, generate_business_days s e cal = Ok l.
Proof.
  intros cal s e n O D E On. rewrite add0 in E. apply seek_up_iff in E; auto.
  pose proof (gbd_spec cal s e O) as S. destruct (generate_business_days s e cal) as [l|]; eauto. exfalso. apply S. eauto.
Qed.
Print Assumptions C15_total.

Example C15_case : exists s e l, mk_date 2021 7 2 = Ok s /\ mk_date 2021 7 7 = Ok e /\
  generate_business_days s e US_FEDERAL_HOLIDAYS = Ok l /\ l = [s; e - 1; e].
Proof. do 3 eexists. do 3 (split; [vm_compute; reflexivity|]). vm_compute. reflexivity. Qed.

(** C16.  [within up e x]: x has not passed the end in the direction of the increment. *)
Definition within (up : bool) (e x : date) : Prop := if up then x <= e else e <= x.

Theorem C16_timedelta_grid : forall s e k us cap l, generate_dates_by_increments s e (Timedelta k us) cap = Ok l ->
  let up := 0 <=? k in
  (forall i, (i < List.length l)%nat -> nth_error l i = Some (s + Z.of_nat i * k)) /\
  (forall x, In x l -> within up e x) /\
  Z.of_nat (List.length l) <= Z.max 0 (cap + 1) /\
  (Z.of_nat (List.length l) = Z.max 0 (cap + 1) \/ ~ within up e (s + Z.of_nat (List.length l) * k)).
Proof.
  intros s e k us cap l. unfold generate_dates_by_increments. cbn [positive_increment bind]. intros E.
  destruct (grid_timedelta _ _ _ _ _ _ _ E) as (M & F & T & L). cbv zeta.
  assert (W : forall x, in_dir (0 <=? k) e x = true <-> within (0 <=? k) e x).
  { intros x. unfold in_dir, within. destruct (0 <=? k); lia. }
  repeat split.
  - intros i Hi. rewrite M. rewrite nth_error_map. rewrite (nth_error_nth' _ 0%nat) by (rewrite seq_length; auto).
    rewrite seq_nth by auto. reflexivity.
  - intros x I. rewrite Forall_forall in F. apply W, F, I.
  - lia.
  - destruct T as [T|T]; [left; lia|right]. rewrite <- W. congruence.
Qed.
Print Assumptions C16_timedelta_grid.

Example C16_case : exists s e l, mk_date 2024 1 1 = Ok s /\ mk_date 2024 2 1 = Ok e /\
  generate_dates_by_increments s e (Timedelta 7 0) 1000 = Ok l /\ List.length l = 5%nat.
Proof. do 3 eexists. do 3 (split; [vm_compute; reflexivity|]). reflexivity. Qed.

(** The cap is max_dates + 1, not max_dates. *)
Theorem C16_cap_is_max_dates_refuted : exists s l, generate_dates_by_increments s (s + 100) (Timedelta 1 0) 3 = Ok l /\ ~ (Z.of_nat (List.length l) <= 3).
Proof. exists 738551. eexists. split; [vm_compute; reflexivity|]. cbn. lia. Qed.
Print Assumptions C16_cap_is_max_dates_refuted.

(** C17 *)
Theorem C17_grid_steps : forall s e i cap l, generate_dates_by_increments s e i cap = Ok l ->
  exists up, positive_increment s i = Ok up /\
  (l <> [] -> nth_error l 0 = Some s) /\
  (forall j x y, nth_error l j = Some x -> nth_error l (S j) = Some y -> add_increment x i = Ok y) /\
  (forall x, In x l -> within up e x) /\
  (forall x, nth_error l (List.length l - 1) = Some x -> Z.of_nat (List.length l) < cap + 1 ->
     exists y, add_increment x i = Ok y /\ ~ within up e y).
Proof.
  intros s e i cap l. unfold generate_dates_by_increments. destruct (positive_increment s i) as [up|] eqn:U; cbn [bind]; [|discriminate].
  intros E. destruct (grid_chain _ _ _ _ _ _ E) as (L & F & ST & H & T). exists up.
  assert (W : forall x, (if up then x <=? e else e <=? x) = true <-> within up e x).
  { intros x. unfold within. destruct up; lia. }
  repeat split; auto.
  - intros x I. rewrite Forall_forall in F. apply W, F, I.
  - intros x N LT. destruct (T x N ltac:(lia)) as (y & A & B). exists y. split; auto. rewrite <- W. congruence.
Qed.
Print Assumptions C17_grid_steps.

Theorem C17_month_grid : forall s e k cap l, date_ok s -> day s <= 28 ->
  generate_dates_by_increments s e (Relativedelta k 0) cap = Ok l ->
  forall i x, nth_error l i = Some x ->
  add_months s (Z.of_nat i * k) = Ok x /\ day x = day s /\ year x * 12 + month x = year s * 12 + month s + Z.of_nat i * k.
Proof.
  intros s e k cap l O D. unfold generate_dates_by_increments. destruct (positive_increment s (Relativedelta k 0)) as [up|]; cbn [bind]; [|discriminate].
  intros E i x N. pose proof (grid_months _ _ _ _ _ _ O D E i x N) as A. split; auto.
  destruct (add_months_28 _ _ _ D A) as (_ & D1 & D2). auto.
Qed.
Print Assumptions C17_month_grid.

Example C17_case : exists s e l, mk_date 2020 1 28 = Ok s /\ mk_date 2020 12 31 = Ok e /\
  generate_dates_by_increments s e (Relativedelta 3 0) 1000 = Ok l /\ List.length l = 4%nat.
Proof. do 3 eexists. do 3 (split; [vm_compute; reflexivity|]). reflexivity. Qed.

(** From 2023-01-31 by one month: 01-31, 02-28, 03-28 although 01-31 plus two months is 03-31. *)
Theorem C17_month_end_refuted : exists s e l x x', mk_date 2023 1 31 = Ok s /\ mk_date 2023 4 1 = Ok e /\
  generate_dates_by_increments s e (Relativedelta 1 0) 1000 = Ok l /\ nth_error l 2 = Some x /\
  add_months s 2 = Ok x' /\ x <> x'.
Proof. do 5 eexists. do 5 (split; [vm_compute; reflexivity|]). lia. Qed.
Print Assumptions C17_month_end_refuted.

(** C18 *)
Definition settles_in_business_days (c : settlement) : option Z :=
  match c with
  | T_MINUS_TWO_BUSINESS => Some (-2) | T_MINUS_ONE_BUSINESS => Some (-1)
  | T_PLUS_ZERO_BUSINESS => Some 0 | T_PLUS_ONE_BUSINESS => Some 1 | T_PLUS_TWO_BUSINESS => Some 2 | T_PLUS_THREE_BUSINESS => Some 3
  | _ => None
  end.

Theorem C18_settlement : forall p c cal x, date_ok p -> calculate_settlement_date p c cal = Ok x ->
  business cal x /\
  (c = T_MINUS_ZERO_BUSINESS -> x <= p /\ forall y, x < y <= p -> non_business cal y) /\
  (forall n, settles_in_business_days c = Some n -> exists t0, add_business_days p 0 cal = Ok t0 /\
     if 0 <=? n then t0 <= x /\ Z.of_nat (business_count cal t0 x) = n
     else x <= t0 /\ Z.of_nat (business_count cal x t0) = - n).
Proof.
  intros p c cal x O E. split; [exact (settle_isbd p c cal x O E)|]. split.
  - intros ->. apply settle_minus_zero in E; auto. destruct E as (A & B & C). auto.
  - intros n N. destruct (settle_cases _ _ _ _ E) as [->|(n' & N' & A)]; [discriminate N|].
    change (settle_n c = Some n) in N. rewrite N in N'. injection N' as <-.
    destruct (0 <=? n) eqn:S.
    + destruct (C12_counts cal p n x O ltac:(lia) A) as (t0 & T & L & _ & Cn). eauto.
    + replace n with (- - n) in A by lia. destruct (C13_negative cal p (- n) x O ltac:(lia) A) as (t0 & T & L & _ & Cn). eauto.
Qed.
Print Assumptions C18_settlement.

Theorem C18_monotone : forall p p' c cal x x', date_ok p -> date_ok p' -> p <= p' ->
  calculate_settlement_date p c cal = Ok x -> calculate_settlement_date p' c cal = Ok x' -> x <= x'.
Proof. exact settle_mono. Qed.
Print Assumptions C18_monotone.

Theorem C18_calendar_conventions_rejected : forall p c cal,
  In c [T_PLUS_ZERO_CALENDAR; T_PLUS_ONE_CALENDAR; T_PLUS_TWO_CALENDAR; T_PLUS_THREE_CALENDAR] ->
  calculate_settlement_date p c cal = Err ValueError.
Proof. intros p c cal. cbn. intuition (subst; reflexivity). Qed.
Print Assumptions C18_calendar_conventions_rejected.

Example C18_case : exists p x, mk_date 2021 7 2 = Ok p /\ calculate_settlement_date p T_PLUS_TWO_BUSINESS US_FEDERAL_HOLIDAYS = Ok x /\ mk_date 2021 7 7 = Ok x.
Proof. do 2 eexists. split; [vm_compute; reflexivity|]. split; vm_compute; reflexivity. Qed.

(** C19: [us_business] is the specification in CalendarSpec.v. *)
Theorem C19_us_business_days : forall d, date_ok d ->
  is_business_day d US_FEDERAL_HOLIDAYS = Ok (us_business (month d) (day d) (weekday d)).
Proof. exact us_business_day. Qed.
Print Assumptions C19_us_business_days.

Theorem C19_any_calendar : forall cal d b, NoDup (List.map fst cal) -> is_business_day d cal = Ok b ->
  (b = true <-> 0 <= weekday d <= 4 /\
     ~ exists name h x0, In (name, h) cal /\ mk_date (year d) (h_month h) (h_day h) = Ok x0 /\ h_adjust h x0 = Ok d).
Proof.
  intros cal d b ND E. rewrite (isbd_spec cal d ND b E). unfold holiday_date.
  split; intros [W N]; (split; [exact W|]); intros X; apply N.
  - destruct X as (n & h & x0 & I & X). exists n, h. split; auto. exists x0. exact X.
  - destruct X as (n & h & I & x0 & X). exists n, h, x0. tauto.
Qed.
Print Assumptions C19_any_calendar.

(** 2021-12-31 is a business day although it is the observed date of New Year 2022. *)
Theorem C19_new_year_observed_refuted : exists d h, mk_date 2021 12 31 = Ok d /\ is_business_day d US_FEDERAL_HOLIDAYS = Ok true /\
  mk_date 2022 1 1 = Ok h /\ us_federal_holiday_adjustment h = Ok d.
Proof. do 2 eexists. do 3 (split; [vm_compute; reflexivity|]). vm_compute. reflexivity. Qed.
Print Assumptions C19_new_year_observed_refuted.

Example C19_case : exists d, mk_date 2021 12 24 = Ok d /\ is_business_day d US_FEDERAL_HOLIDAYS = Ok false.
Proof. eexists. split; [vm_compute; reflexivity|]. vm_compute; reflexivity. Qed.
