(** Business days of datetimes: C96. *)
From Verif Require Import Base PyDate PyDateFacts Holidays Scheduler LoopFacts SchedulerFacts UsFacts StampScheduler.

(** the holidays of every year can be generated *)
Definition generable (cal : calendar) : Prop := forall y, 1 <= y <= 9999 -> exists l, generate_all_holidays y y cal = Ok l.
(** the same moment of another day *)
Definition at_time (t : datetime) (r : res date) : res datetime := do d <- r; Ok (DT d (dt_us t)).

Local Opaque date_fuel iter.
Lemma date_year d : date_ok d -> 1 <= year d <= 9999.
Proof.
  intros [L U]. pose proof (year_mono _ _ L) as Y1. pose proof (year_mono _ _ U) as Y2. assert (E1 : year min_date = 1) by (vm_compute; reflexivity). assert (E2 : year max_date = 9999) by (vm_compute; reflexivity). lia.
Qed.
Lemma no_holidays d : is_business_day d [] = Ok (negb (weekday d =? SATURDAY) && negb (weekday d =? SUNDAY)).
Proof. reflexivity. Qed.
Lemma business_weekday cal t : generable cal -> date_ok (dt_date t) -> stamp_business t cal = is_business_day (dt_date t) [].
Proof. intros G D. unfold stamp_business. destruct (G _ (date_year _ D)) as [l ->]. cbn [bind]. rewrite no_holidays. reflexivity. Qed.
Lemma add_days_range d k d' : add_days d k = Ok d' -> date_ok d'.
Proof. unfold add_days. destruct (Z.leb_spec min_date (d + k)); [|discriminate]. destruct (Z.leb_spec (d + k) max_date); [|discriminate]. cbn [andb]. intros E. injection E as <-. split; assumption. Qed.

(** simulation of the two loops *)
Lemma iter_sim {A B A' B'} (f : A -> ctl A B) (g : A' -> ctl A' B') (P : A -> A' -> Prop) (Q : B -> B' -> Prop) :
  (forall a a', P a a' -> match f a, g a' with Go x, Go y => P x y | Stop x, Stop y => Q x y | _, _ => False end) ->
  forall p a a', P a a' -> match iter p f a, iter p g a' with Go x, Go y => P x y | Stop x, Stop y => Q x y | _, _ => False end.
Proof.
  intros St p. induction p as [q IH|q IH|]; intros a a' H; cbn [iter].
  - pose proof (St a a' H) as S1. destruct (f a) as [x|x], (g a') as [y|y]; try contradiction; [|exact S1]. pose proof (IH x y S1) as S2. destruct (iter q f x) as [u|u], (iter q g y) as [v|v]; try contradiction; [|exact S2]. apply IH, S2.
  - pose proof (IH a a' H) as S2. destruct (iter q f a) as [u|u], (iter q g a') as [v|v]; try contradiction; [|exact S2]. apply IH, S2.
  - apply St, H.
Qed.
Lemma seek_same k cal t : generable cal -> date_ok (dt_date t) -> stamp_seek k cal t = at_time t (seek_business k [] (dt_date t)).
Proof.
  intros G D. unfold stamp_seek, seek_business, loop.
  set (P := fun (x : datetime) (d : date) => dt_date x = d /\ dt_us x = dt_us t /\ date_ok d).
  set (Q := fun (x : res datetime) (r : res date) => x = at_time t r).
  pose proof (iter_sim (stamp_step k cal) (step_business k []) P Q) as Sim.
  assert (St : forall a a', P a a' -> match stamp_step k cal a, step_business k [] a' with Go x, Go y => P x y | Stop x, Stop y => Q x y | _, _ => False end).
  { intros a a' (E & U & O). subst a'. unfold stamp_step, step_business. rewrite (business_weekday cal a G O), no_holidays. destruct (_ && _).
    - unfold Q, at_time. cbn [bind]. rewrite <- U. destruct a; reflexivity.
    - unfold stamp_days. destruct (add_days (dt_date a) k) as [d'|e] eqn:A; cbn [bind]; [|reflexivity]. split; [reflexivity|]. split; [exact U|apply (add_days_range _ _ _ A)]. }
  specialize (Sim St date_fuel t (dt_date t) (conj eq_refl (conj eq_refl D))). destruct (iter date_fuel (stamp_step k cal) t) as [x|x], (iter date_fuel (step_business k []) (dt_date t)) as [y|y]; try contradiction; [reflexivity|exact Sim].
Qed.
Lemma seek_range k d d' : date_ok d -> seek_business k [] d = Ok d' -> date_ok d'.
Proof.
  intros D. unfold seek_business, loop. set (P := fun x y : date => x = y /\ date_ok x). set (Q := fun x y : res date => forall z, x = Ok z -> date_ok z).
  pose proof (iter_sim (step_business k []) (step_business k []) P Q) as Sim. assert (St : forall a a', P a a' -> match step_business k [] a, step_business k [] a' with Go x, Go y => P x y | Stop x, Stop y => Q x y | _, _ => False end).
  { intros a a' [<- O]. unfold step_business. rewrite no_holidays. destruct (_ && _); [intros z E; injection E as <-; exact O|]. destruct (add_days a k) as [b|e] eqn:A; [split; [reflexivity|apply (add_days_range _ _ _ A)]|discriminate]. }
  specialize (Sim St date_fuel d d (conj eq_refl D)). destruct (iter date_fuel _ d) as [x|x]; [discriminate|]. intros E. exact (Sim d' E).
Qed.
Lemma single_same cal t : generable cal -> date_ok (dt_date t) -> stamp_add_single t cal = at_time t (add_single_business_day (dt_date t) []).
Proof.
  intros G D. unfold stamp_add_single, add_single_business_day. rewrite (business_weekday cal t G D), no_holidays. cbn [bind]. destruct (negb (_ && _)); [reflexivity|]. unfold stamp_days. destruct (add_days (dt_date t) 1) as [d|] eqn:A; cbn [bind]; [|reflexivity].
  rewrite (seek_same 1 cal (DT d (dt_us t)) G (add_days_range _ _ _ A)). reflexivity.
Qed.
Lemma subtract_same cal t : generable cal -> date_ok (dt_date t) -> stamp_subtract_single t cal = at_time t (subtract_single_business_day (dt_date t) []).
Proof.
  intros G D. unfold stamp_subtract_single, subtract_single_business_day. rewrite (business_weekday cal t G D), no_holidays. cbn [bind].
  assert (X : (if negb (negb (weekday (dt_date t) =? SATURDAY) && negb (weekday (dt_date t) =? SUNDAY)) then stamp_seek 1 cal t else Ok t) = at_time t (if negb (negb (weekday (dt_date t) =? SATURDAY) && negb (weekday (dt_date t) =? SUNDAY)) then seek_business 1 [] (dt_date t) else Ok (dt_date t))).
  { destruct (negb _); [apply seek_same; assumption|]. destruct t; reflexivity. }
  rewrite X. clear X. set (s := if negb _ then seek_business 1 [] (dt_date t) else Ok (dt_date t)). destruct s as [d0|] eqn:Es; cbn [at_time bind]; [|reflexivity].
  unfold stamp_days. cbn [dt_date dt_us]. destruct (add_days d0 (-1)) as [d|] eqn:A; cbn [bind]; [|reflexivity]. rewrite (seek_same (-1) cal (DT d (dt_us t)) G (add_days_range _ _ _ A)). reflexivity.
Qed.
Lemma single_range d d' : add_single_business_day d [] = Ok d' -> date_ok d'.
Proof.
  unfold add_single_business_day. rewrite no_holidays. cbn [bind]. destruct (negb _); [discriminate|]. destruct (add_days d 1) as [x|] eqn:A; [|discriminate]. apply seek_range, (add_days_range _ _ _ A).
Qed.
Lemma subtract_range d d' : subtract_single_business_day d [] = Ok d' -> date_ok d'.
Proof.
  unfold subtract_single_business_day. rewrite no_holidays. cbn [bind]. destruct (if negb _ then _ else _) as [y|]; [|discriminate]. cbn [bind]. destruct (add_days y (-1)) as [x|] eqn:A; [|discriminate]. apply seek_range, (add_days_range _ _ _ A).
Qed.
Lemma iter_same (f : datetime -> res datetime) (g : date -> res date) n us d : date_ok d ->
  (forall t, date_ok (dt_date t) -> f t = at_time t (g (dt_date t))) -> (forall x y, g x = Ok y -> date_ok y) -> iterM n f (DT d us) = at_time (DT d us) (iterM n g d).
Proof.
  intros D F R. revert d D; induction n as [|n IH]; intros d D; [reflexivity|]. cbn [iterM]. rewrite (F (DT d us) D). cbn [dt_date]. destruct (g d) as [y|] eqn:E; [|reflexivity]. cbn [at_time bind dt_us]. rewrite (IH y (R _ _ E)). reflexivity.
Qed.
Lemma add_same cal t n : generable cal -> date_ok (dt_date t) -> stamp_add t n cal = at_time t (add_business_days (dt_date t) n []).
Proof.
  intros G D. unfold stamp_add, add_business_days. rewrite (seek_same 1 cal t G D). destruct (seek_business 1 [] (dt_date t)) as [d0|] eqn:E; [|reflexivity]. cbn [at_time bind]. pose proof (seek_range _ _ _ D E) as D0. destruct (0 <=? n).
  - apply (iter_same (fun t => stamp_add_single t cal) (fun d => add_single_business_day d [])); [exact D0|intros; apply single_same; assumption|apply single_range].
  - apply (iter_same (fun t => stamp_subtract_single t cal) (fun d => subtract_single_business_day d [])); [exact D0|intros; apply subtract_same; assumption|apply subtract_range].
Qed.

(** C96.  A datetime is a business day whenever it is a weekday, whatever the calendar; every operation gives the result
    for plain dates under the empty calendar, at the same time of day. *)
Theorem C96_weekdays : forall cal t, generable cal -> date_ok (dt_date t) ->
  stamp_business t cal = Ok (weekday (dt_date t) <=? 4).
Proof.
  intros cal t G D. rewrite (business_weekday cal t G D), no_holidays. f_equal. unfold weekday, SATURDAY, SUNDAY. pose proof (Z.mod_pos_bound (dt_date t + 6) 7 eq_refl). lia.
Qed.
Print Assumptions C96_weekdays.
Theorem C96_calendar_ignored : forall cal t, generable cal -> date_ok (dt_date t) ->
  (forall n, stamp_add t n cal = at_time t (add_business_days (dt_date t) n [])) /\
  stamp_add_single t cal = at_time t (add_single_business_day (dt_date t) []) /\
  stamp_subtract_single t cal = at_time t (subtract_single_business_day (dt_date t) []) /\
  stamp_modified_following t cal = at_time t (modified_following_date_adjustment (dt_date t) []) /\
  (forall c, stamp_settlement t c cal = at_time t (calculate_settlement_date (dt_date t) c [])).
Proof.
  intros cal t G D. assert (A : forall n, stamp_add t n cal = at_time t (add_business_days (dt_date t) n [])) by (intros; apply add_same; assumption).
  split; [exact A|]. split; [apply single_same; assumption|]. split; [apply subtract_same; assumption|]. split.
  - unfold stamp_modified_following, modified_following_date_adjustment. rewrite !A. destruct (add_business_days (dt_date t) 0 []) as [c|]; [|reflexivity]. cbn [at_time bind dt_date]. destruct (month c =? month (dt_date t)); reflexivity.
  - intros c. destruct c; cbn [stamp_settlement calculate_settlement_date]; try apply A; try reflexivity. rewrite (business_weekday cal t G D), no_holidays. cbn [bind]. destruct (_ && _); [destruct t; reflexivity|apply A].
Qed.
Print Assumptions C96_calendar_ignored.

(** July 4th 2024 at 9:00 is a business day although July 4th 2024 is not; T+1 from July 3rd differs. *)
Theorem C96_holidays_refuted : exists d h, mk_date 2024 7 3 = Ok d /\ mk_date 2024 7 4 = Ok h /\
  is_business_day h US_FEDERAL_HOLIDAYS = Ok false /\ stamp_business (DT h 32400000000) US_FEDERAL_HOLIDAYS = Ok true /\
  add_business_days d 1 US_FEDERAL_HOLIDAYS = Ok (h + 1) /\ stamp_add (DT d 32400000000) 1 US_FEDERAL_HOLIDAYS = Ok (DT h 32400000000).
Proof. eexists _, _. split; [vm_compute; reflexivity|]. split; [vm_compute; reflexivity|]. repeat split; vm_compute; reflexivity. Qed.
Print Assumptions C96_holidays_refuted.

(** The US calendar is generable; a Saturday evening moves to Monday evening. *)
Example C96_case : generable US_FEDERAL_HOLIDAYS /\ exists d, mk_date 2024 6 29 = Ok d /\ date_ok d /\ stamp_add (DT d 64800000000) 0 US_FEDERAL_HOLIDAYS = Ok (DT (d + 2) 64800000000) /\
  stamp_settlement (DT d 64800000000) T_PLUS_THREE_BUSINESS US_FEDERAL_HOLIDAYS = Ok (DT (d + 5) 64800000000).
Proof.
  split; [exact us_generate|]. eexists. split; [vm_compute; reflexivity|]. split; [split; vm_compute; discriminate|]. split; vm_compute; reflexivity.
Qed.
Print Assumptions C96_case.
